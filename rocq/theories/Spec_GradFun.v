(** What [nnx.grad] differentiates: the loss as a function of the selected values. *)
From Verif Require Import PyBase ValuesM StateM ModuleM Spec_Module Spec_Prog GradFunM.
Local Open Scope string_scope.
Local Open Scope list_scope.

(** The loss of the model after the values [d] have been put into it; [None] if it
    raises (or is no pair, where a pair is asked for). *)
Definition loss_of (has_aux : bool) (out : pyval) : option pyval :=
  if has_aux then match out with PyTuple [loss; _] => Some loss | _ => None end else Some out.
Definition loss_with (has_aux : bool) (f : prog pyval) (w : world) (r : nat) (d : state) : option pyval :=
  match update_state w r (UStates (One d)) with
  | (w1, Ok _) => match run f w1 [r] with (_, Ok out) => loss_of has_aux out | _ => None end
  | _ => None
  end.

(** Points at which jax may evaluate a function given [diff]: the same keys, arrays for
    arrays, Variables of the same class and metadata for Variables. *)
Definition point_attr (a b : attr) : Prop :=
  match a, b with
  | ARaw _, ARaw (PyObj c _) => In "jax.Array" c
  | ACont c, ACont c' => c_cls c' = c_cls c /\ c_meta c' = c_meta c
  | _, _ => False
  end.
Definition point (diff d : state) : Prop := Forall2 (fun x y => fst x = fst y /\ point_attr (snd x) (snd y)) diff d.

(** An operator that looks at the function only through its values at such points. *)
Definition differentiates (D : grad_op) : Prop :=
  forall l1 l2 diff, (forall d, point diff d -> l1 d = l2 d) -> forall k a, D l1 diff k a = D l2 diff k a.
