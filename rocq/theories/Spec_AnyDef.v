(** Spec_AnyDef: what a ModuleDef describes, whether it comes from a module or is made by
    hand. *)
From Verif Require Import PyBase ValuesM Spec_Eq StateM Spec_State ModuleM Spec_Module.
Local Open Scope string_scope.
Local Open Scope list_scope.

(** The number a definition has or refers to. *)
Definition number (d : mdef) : nat := match d with MRef i => i | MDef _ i _ _ _ => i end.

(** The definition as it is read: a part that has a number, or a reference to one. *)
Inductive token := Defines (i : nat) | Refers (i : nat).
Fixpoint tokens (d : mdef) : list token :=
  match d with
  | MRef i => [Refers i]
  | MDef _ i subs _ _ => Defines i :: flat_map (fun nd => tokens (snd nd)) subs
  end.
Fixpoint numbers (l : list token) : list nat :=
  match l with [] => [] | Defines i :: t => i :: numbers t | Refers _ :: t => numbers t end.
(** No number is given twice, and a reference comes after the part it refers to. *)
Definition well_read (l : list token) : Prop :=
  NoDup (numbers l) /\ forall before i after, l = before ++ Refers i :: after -> In (Defines i) before.
Definition well_numbered (d : mdef) : Prop := well_read (tokens d).
(** Reading stops at the first reference to an unknown number, or at the first number
    that is given again. *)
Inductive stops_at (l : list token) : exn -> Prop :=
| stops_unknown before i after : l = before ++ Refers i :: after -> well_read before -> ~ In (Defines i) before -> stops_at l KeyError
| stops_again before i after : l = before ++ Defines i :: after -> well_read before -> In (Defines i) before -> stops_at l AssertionError.

(** All the parts, the definition itself first. *)
Fixpoint parts (d : mdef) : list mdef :=
  match d with
  | MRef _ => []
  | MDef _ _ subs _ _ => d :: flat_map (fun nd => parts (snd nd)) subs
  end.

(** The last entry of a name. *)
Fixpoint bound {A} (n : string) (l : list (string * A)) : option A :=
  match l with
  | [] => None
  | (m, x) :: t => match bound n t with
                   | Some y => Some y
                   | None => if String.eqb n m then Some x else None
                   end
  end.

(** Following names: at each name the part with the number found there. *)
Inductive leads (root : mdef) : mdef -> list string -> mdef -> Prop :=
| leads_here p : leads root p [] p
| leads_step c i subs st ini n e q path r :
    bound n subs = Some e -> In q (parts root) -> number q = number e -> leads root q path r ->
    leads root (MDef c i subs st ini) (n :: path) r.

(** What a module must hold to be what the part says: submodules under the names of the
    part, at the addresses given to their numbers; under the other names the static
    attributes. *)
Definition realizes (w : world) (at_ : nat -> nat) (p : mdef) : Prop :=
  match p with
  | MRef _ => True
  | MDef c i subs st ini =>
      exists o, get_obj w (at_ i) = Some o /\ m_cls o = c /\ m_init o = ini /\ m_trace o = w_trace w /\
        forall n, dget n (m_vars o) = match bound n subs with
                                      | Some e => Some (ARaw (PyMod (at_ (number e))))
                                      | None => bound n st
                                      end
  end.

(** A module built from a definition: every part is an object of its own (as [at_] tells),
    there are no other new objects, and nothing else has changed. *)
Record merged (w : world) (d : mdef) (at_ : nat -> nat) (m : nat) (w' : world) : Prop := {
  mg_root : m = at_ (number d);
  mg_parts : forall p, In p (parts d) -> realizes w' at_ p;
  mg_inj : forall i j, In i (numbers (tokens d)) -> In j (numbers (tokens d)) -> at_ i = at_ j -> i = j;
  mg_new : forall x, (List.length (w_heap w) <= x < List.length (w_heap w')) <-> exists i, In i (numbers (tokens d)) /\ x = at_ i;
  mg_old : forall x, x < List.length (w_heap w) -> get_obj w' x = get_obj w x;
  mg_trace : w_trace w' = w_trace w;
  mg_nodes : w_nodes w' = w_nodes w
}.
(** No static attribute is a module. *)
Definition no_modules (d : mdef) : Prop :=
  forall c i subs st ini n a, In (MDef c i subs st ini) (parts d) -> In (n, a) st -> is_submodule a = false.

(** The form of the definitions that modules have: names in order, no name twice, no
    module, node or reserved name among the static attributes, parts numbered as they
    are read. *)
Definition normal_part (nodes : list string) (p : mdef) : Prop :=
  match p with
  | MRef _ => True
  | MDef c _ subs st _ =>
      keys_increasing subs /\ keys_increasing st /\ (forall n, In n (keys subs) -> ~ In n (keys st)) /\
      forall n a, In (n, a) st -> is_submodule a = false /\ (forall t, In t nodes -> ~ In t (cls_of_attr a)) /\ starts_with "_module__" n = false
  end.
Definition normal (nodes : list string) (d : mdef) : Prop :=
  (forall p, In p (parts d) -> normal_part nodes p) /\
  numbers (tokens d) = seq 0 (List.length (numbers (tokens d))).
