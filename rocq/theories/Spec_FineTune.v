(** What a forward pass may leave alone. *)
From Verif Require Import PyBase ValuesM FiltersM StateM ModuleM TransformM GradFunM Spec_Prog Spec_GradFun Spec_TrainLoop.
Local Open Scope string_scope.
Local Open Scope list_scope.

(** It leaves the State of the model as it is. *)
Definition quiet (r : nat) (w w1 : world) : Prop := get_state w1 r = get_state w r.
(** It leaves the entry [k] of the State as it is. *)
Definition keeps (r : nat) (k : string) (w w1 : world) : Prop :=
  forall s s1, get_state w r = Ok s -> get_state w1 r = Ok s1 -> dget k s1 = dget k s.
(** The entry [k] of the State of the model [r] is [a]. *)
Definition has_entry (w : world) (r : nat) (k : string) (a : attr) : Prop :=
  exists s, get_state w r = Ok s /\ dget k s = Some a.

(** Steps of the model [r] alone: in each one the selected entries move along the derivative
    of the loss, and what the forward pass [f] does to the model is not kept. *)
Inductive stepped (D : grad_op) (sgd : pyval -> pyval -> pyval) (wrt : filt) (r : nat) : world -> list (prog pyval) -> world -> Prop :=
| st_done w : stepped D sgd wrt r w [] w
| st_step w f diff w1 out w2 l w3 :
    ok_prog f -> module_filter w r wrt [] = Ok (One diff) -> variables diff ->
    run f w [r] = (w1, Ok out) ->
    update_state w r (UStates (One (moved sgd (D (loss_with false f w r) diff) diff diff))) = (w2, Ok tt) ->
    stepped D sgd wrt r w2 l w3 ->
    stepped D sgd wrt r w (f :: l) w3.
