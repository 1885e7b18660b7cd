(** What C93 is about: the path under which a Module is listed. *)
From Verif Require Import PyBase ValuesM StateM ModuleM Spec_Module.
Local Open Scope string_scope.
Local Open Scope list_scope.

(** [p] leads from [r] to [y] and meets no Module twice *)
Definition direct_path (w : world) (r : nat) (p : list string) (y : nat) : Prop :=
  follow w r p = Some y /\
  forall q1 q2 q3, p = q1 ++ q2 ++ q3 -> q2 <> [] -> follow w r (q1 ++ q2) <> follow w r q1.

(** [p] comes before [q]: at the first difference its name is smaller *)
Definition earlier (p q : list string) : Prop :=
  exists c n m p' q', p = c ++ n :: p' /\ q = c ++ m :: q' /\ String.compare n m = Lt.

(** the first of the direct paths from [r] to [y] *)
Definition first_path (w : world) (r : nat) (p : list string) (y : nat) : Prop :=
  direct_path w r p y /\ forall q, direct_path w r q y -> q = p \/ earlier p q.

(** every path from [r] into the part below [c] goes along [p] *)
Definition private_part (w : world) (r : nat) (p : list string) (c : nat) : Prop :=
  follow w r p = Some c /\ forall q y, follow w r q = Some y -> reaches w c y -> exists q', q = p ++ q'.
