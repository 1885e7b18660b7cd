(** Spec_Skip: training a model directly when some batches raise. *)
From Verif Require Import PyBase ValuesM FiltersM StateM ModuleM TransformM GradFunM Spec_Module Spec_Prog Spec_GradFun Spec_TrainLoop.
Local Open Scope string_scope.
Local Open Scope list_scope.

(** [trained_but D sgd wrt Q r w batches log w']: as [trained] (Spec_TrainLoop), but a batch on
    which the forward pass raises, wherever it does, is as if it were not there; [log] says
    which did.  A batch that raises on the model of that moment need not raise on others. *)
Inductive trained_but (D : grad_op) (sgd : pyval -> pyval -> pyval) (wrt : filt) (Q : world -> world -> Prop) (r : nat)
  : world -> list (prog pyval) -> list (result unit) -> world -> Prop :=
| tb_done w : trained_but D sgd wrt Q r w [] [] w
| tb_step w f w2 l log w3 : trained D sgd wrt Q r w [f] w2 ->
    trained_but D sgd wrt Q r w2 l log w3 -> trained_but D sgd wrt Q r w (f :: l) (Ok tt :: log) w3
| tb_raised w f w1 e l log w3 : ok_prog f -> run f w [r] = (w1, Err e) ->
    trained_but D sgd wrt Q r w l log w3 -> trained_but D sgd wrt Q r w (f :: l) (Err e :: log) w3.
