(** Spec_Order: several calls of update_state, on any Modules. *)
From Verif Require Import PyBase ValuesM StateM ModuleM Spec_Module Spec_Address.
Local Open Scope string_scope.
Local Open Scope list_scope.

(** [for module, state in calls: module.update_state(state)] *)
Fixpoint update_all (w : world) (calls : list (nat * state)) : world * result unit :=
  match calls with
  | [] => (w, Ok tt)
  | (r, s) :: rest => match update_state w r (UStates (One s)) with (w1, Ok _) => update_all w1 rest | (w1, Err e) => (w1, Err e) end
  end.
(** The call can be made: its keys name attributes that take the values, none of them with
    the reserved prefix. *)
Definition ready (w : world) (c : nat * state) : Prop :=
  fst c < List.length (w_heap w) /\ names_ok w (fst c) /\ live w (fst c) /\ fits w (fst c) (snd c) /\
  forall k x n, In k (keys (snd c)) -> named w (fst c) k x n -> starts_with "_module__" n = false.
(** The call gives [a] to the attribute [n] of the Module [x]. *)
Definition gives (w : world) (c : nat * state) (x : nat) (n : string) (a : attr) : Prop :=
  exists k, dget k (snd c) = Some a /\ named w (fst c) k x n.
(** No attribute gets a value from both. *)
Definition disjoint (w : world) (c c' : nat * state) : Prop :=
  forall x n a a', gives w c x n a -> ~ gives w c' x n a'.
(** Any two of the calls, the same place twice not meant. *)
Definition all_disjoint (w : world) (calls : list (nat * state)) : Prop := ForallOrdPairs (disjoint w) calls.
