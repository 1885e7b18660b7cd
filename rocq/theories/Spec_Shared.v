(** Spec_Shared: several models, which may share Modules, trained in turn on themselves: no
    transforms, no parts, one world. *)
From Verif Require Import PyBase ValuesM FiltersM StateM ModuleM TransformM Spec_Module Spec_Prog GradFunM Spec_GradFun TrainLoopM Spec_TrainLoop EnsembleM.
Local Open Scope string_scope.
Local Open Scope list_scope.

(** [directly how w schedule w']: for one entry [(m, loss)] after the other, the model [m] is
    run and its parameters are moved along the derivatives of the loss at the values they had
    before.  The forward passes write new values into existing node attributes ([steady]) and
    rebind no submodule. *)
Inductive directly (how : nat -> recipe) : world -> list (nat * prog pyval) -> world -> Prop :=
| dr_done w : directly how w [] w
| dr_step w m f diff w1 out params w2 l w3 :
    ok_prog f -> module_filter w m (rc_wrt (how m)) [] = Ok (One diff) -> variables diff ->
    run f w [m] = (w1, Ok out) -> steady w w1 m -> (forall q, follow w1 m q = follow w m q) ->
    module_filter w1 m (rc_wrt (how m)) [] = Ok (One params) -> variables params ->
    update_state w1 m (UStates (One (moved (rc_sgd (how m)) (rc_grad (how m) (loss_with false f w m) diff) diff params))) = (w2, Ok tt) ->
    directly how w2 l w3 ->
    directly how w ((m, f) :: l) w3.
(** The same when some steps raise: a step whose forward pass raises, wherever it does, is as if
    it were not there; [log] says which did. *)
Inductive directly_but (how : nat -> recipe) : world -> list (nat * prog pyval) -> list (result unit) -> world -> Prop :=
| db_done w : directly_but how w [] [] w
| db_step w m f w2 l log w3 : directly how w [(m, f)] w2 -> directly_but how w2 l log w3 -> directly_but how w ((m, f) :: l) (Ok tt :: log) w3
| db_raised w m f w1 e l log w3 : ok_prog f -> run f w [m] = (w1, Err e) -> directly_but how w l log w3 -> directly_but how w ((m, f) :: l) (Err e :: log) w3.
