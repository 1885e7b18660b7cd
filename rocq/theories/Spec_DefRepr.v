(** Spec_DefRepr: the text that repr of a ModuleDef should be, and what can be read from it. *)
From Verif Require Import PyBase ValuesM FiltersM StateM ModuleM TlsM ContextM DefReprM.
Local Open Scope string_scope.
Local Open Scope list_scope.

(** The name of a class, the first in its MRO. *)
Definition own_name (c : cls) : string := match c with n :: _ => n | [] => "" end.
Definition nl : string := String newline "".
(** Lines joined by a comma and a newline. *)
Definition listing (l : list string) : string := join ("," ++ nl) l.
(** The text of a ModuleDef at indentation [i]. *)
Fixpoint def_text (rs : list (string * attr) -> string) (i : string) (d : mdef) : string :=
  match d with
  | MRef n => nat_str n
  | MDef c idx subs st _ =>
      "ModuleDef(" ++ nl ++
      listing [ (i ++ "  type=" ++ own_name c)%string; (i ++ "  index=" ++ nat_str idx)%string;
                (i ++ "  submodules=(" ++ (match subs with [] => "" | _ => nl ++ listing (map (fun nd => (i ++ "    ('" ++ fst nd ++ "', " ++ def_text rs (i ++ "    ") (snd nd) ++ ")")%string) subs) ++ nl ++ i ++ "  " end) ++ ")")%string;
                (i ++ "  static_fields=" ++ rs st)%string ] ++ nl ++ i ++ ")"
  end.
(** Names as Python has them: no comma or newline in class names, no quote or newline in
    attribute names; the static fields are printed on one line. *)
Inductive printable (rs : list (string * attr) -> string) : mdef -> Prop :=
| pr_ref n : printable rs (MRef n)
| pr_def c idx subs st init : has_char ","%char (own_name c) = false -> has_nl (own_name c) = false -> has_nl (rs st) = false ->
    Forall (fun nd => has_char "'"%char (fst nd) = false /\ printable rs (snd nd)) subs -> printable rs (MDef c idx subs st init).
(** The same tree of class names, indices, attribute names and references, and the same text
    for the static fields. *)
Inductive reads_same (rs : list (string * attr) -> string) : mdef -> mdef -> Prop :=
| rsm_ref n : reads_same rs (MRef n) (MRef n)
| rsm_def c c' idx subs subs' st st' init init' : own_name c = own_name c' -> rs st = rs st' ->
    Forall2 (fun x y => fst x = fst y /\ reads_same rs (snd x) (snd y)) subs subs' ->
    reads_same rs (MDef c idx subs st init) (MDef c' idx subs' st' init').
