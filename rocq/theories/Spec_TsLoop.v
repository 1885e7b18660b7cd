(** Training with an optimizer, written on the model itself. *)
From Verif Require Import PyBase ValuesM FiltersM StateM ModuleM TransformM Spec_Module Spec_Prog GradFunM Spec_GradFun Spec_TrainLoop.
Local Open Scope string_scope.
Local Open Scope list_scope.

(** the derivatives, in the form of the State they belong to *)
Definition derivatives (G : string -> attr -> pyval) (s : state) : state :=
  map (fun ka => (fst ka, with_value (snd ka) (G (fst ka) (snd ka)))) s.
(** new Params in place of the old ones *)
Definition in_place (old new : state) : Prop :=
  Forall2 (fun x y => fst x = fst y /\ same_shape (snd x) (snd y)) old new.

Section Opt.
(** the optimizer: from derivatives, its own state and the Params to a change and a new
    state; and the change applied *)
Variable update : pyval -> pyval -> pyval -> result (pyval * pyval).
Variable apply_updates : pyval -> pyval -> result pyval.
Variable of_state : state -> pyval.

(** For one loss after the other: run the model [r], then let the optimizer make new
    Params from the derivatives of the loss.  All nodes are Params or arrays and the
    model does not write its Params (Spec_TrainLoop). *)
Inductive optimized (D : grad_op) (r : nat) : world -> pyval -> list (prog pyval) -> world -> pyval -> Prop :=
| op_done w opt : optimized D r w opt [] w opt
| op_step w opt f diff w1 out u opt1 new w2 l w3 opt3 :
    ok_prog f -> module_filter w r (FType "Param") [] = Ok (One diff) -> variables diff ->
    run f w [r] = (w1, Ok out) -> steady w w1 r -> params_alone r w w1 ->
    update (of_state (derivatives (D (loss_with false f w r) diff) diff)) opt (of_state diff) = Ok (u, opt1) ->
    apply_updates (of_state diff) u = Ok (of_state new) -> in_place diff new ->
    update_state w1 r (UStates (One new)) = (w2, Ok tt) ->
    optimized D r w2 opt1 l w3 opt3 ->
    optimized D r w opt (f :: l) w3 opt3.
End Opt.

(** The loss made of the result of the model and of the nodes of class Loss it then has. *)
Definition loss_and_nodes (total : pyval -> state -> pyval) (f : prog pyval) (w : world) (r : nat) : option pyval :=
  match run f w [r] with
  | (w1, Ok y) => match module_filter w1 r (FType "Loss") [] with Ok (One losses) => Some (total y losses) | _ => None end
  | _ => None
  end.
