(** Spec_StateRepr: the text that repr of a State should be, and what can be read from it. *)
From Verif Require Import PyBase ValuesM FiltersM StateM ModuleM TlsM Spec_DefRepr StateReprM.
Local Open Scope list_scope.
Local Open Scope string_scope.

(** An entry that is no Variable: its repr, or itself if it is a str. *)
Definition bare (rp : pyval -> string) (v : pyval) : string := match v with PyStr s => s | _ => rp v end.
(** A Variable at indentation [j]: class name, metadata, value. *)
Definition field_text (rp : pyval -> string) (j : string) (nv : string * pyval) : string := j ++ "  " ++ fst nv ++ "=" ++ rp (snd nv).
Definition entry_text (rp : pyval -> string) (i : string) (ka : string * attr) : string :=
  i ++ "  '" ++ fst ka ++ "': " ++
  match snd ka with
  | ARaw v => bare rp v
  | ACont c => own_name (c_cls c) ++ "(" ++ nl ++ listing (map (field_text rp (i ++ "  ")) (c_meta c ++ [("value", c_val c)])%list) ++ nl ++ i ++ "  )"
  end.
Definition state_text (rp : pyval -> string) (i : string) (s : state) : string :=
  "State({" ++ (match s with [] => "" | _ => nl ++ listing (map (entry_text rp i) s) ++ nl ++ i end) ++ "})".

(** Paths without quotes, class names without bracket or newline, metadata names without an
    equals sign or newline, values that print on one line. *)
Definition plain_entry (rp : pyval -> string) (ka : string * attr) : Prop :=
  has_char "'"%char (fst ka) = false /\ has_nl (fst ka) = false /\
  match snd ka with
  | ARaw v => has_nl (bare rp v) = false
  | ACont c => has_char "("%char (own_name (c_cls c)) = false /\ has_nl (own_name (c_cls c)) = false /\
      Forall (fun nv => has_char "="%char (fst nv) = false /\ has_nl (fst nv) = false /\ has_nl (rp (snd nv)) = false) (c_meta c ++ [("value", c_val c)])%list
  end.
(** Entries with the same path and the same kind, that show the same values. *)
Definition shows_same (rp : pyval -> string) (x y : string * attr) : Prop :=
  fst x = fst y /\
  match snd x, snd y with
  | ARaw v, ARaw v' => bare rp v = bare rp v'
  | ACont c, ACont c' => own_name (c_cls c) = own_name (c_cls c') /\ rp (c_val c) = rp (c_val c') /\
      Forall2 (fun n m => fst n = fst m /\ rp (snd n) = rp (snd m)) (c_meta c) (c_meta c')
  | _, _ => False
  end.
(** The values that an entry shows. *)
Definition shown (a : attr) : list pyval := match a with ARaw v => [v] | ACont c => c_val c :: map snd (c_meta c) end.
