(** FineTuneM: training a part of a model as examples/09_parameter_surgery.py prepares it:
    [(trainable, frozen), moduledef = model.partition(is_trainable, ...)] (lines 34-39), then
    the step of examples/01_functional_api.py:50-63 on the trainable part.  The States come
    from [Module.partition] (module.py:541-557) and go into [ModuleDef.apply]
    (module.py:154-165).  Simplification: the example stops at the split, so the loop is the
    one of examples/01 without the buffers; what the forward pass writes is dropped. *)
From Verif Require Import PyBase ValuesM FiltersM StateM ModuleM PureM TransformM GradFunM JitCacheM TrainLoopM.
Local Open Scope string_scope.
Local Open Scope list_scope.

(** [moduledef.apply(trainable, frozen)(...)] and the loss (01_functional_api.py:53-57), under
    the traces of [jax.jit] and [jax.grad]. *)
Definition part_loss (t : trace_state) (loss : loss_fun) (d : mdef) (frozen : state) (w : world) (trainable : state) : world * result pyval :=
  match mdef_apply (set_trace w t) d [trainable; frozen] loss with
  | (w1, Err e) => (set_trace w1 (w_trace w), Err e)
  | (w1, Ok (y, _)) => (set_trace w1 (w_trace w), Ok y)
  end.

(** 01_functional_api.py:50-63 [train_step]: [jax.grad(loss_fn)(trainable)], then the new
    values. *)
Definition tune_step (t : trace_state) (D : grad_op) (sgd : pyval -> pyval -> pyval) (d : mdef) (frozen : state) (loss : loss_fun) (w : world) (trainable : state)
  : world * result state :=
  match part_loss t loss d frozen w trainable with
  | (w1, Err e) => (w1, Err e)
  | (w1, Ok _) =>
      let grads := grad_tree (D (fun x => match snd (part_loss t loss d frozen w x) with Ok y => Some y | Err _ => None end) trainable) trainable in
      (w1, tree_map2 sgd trainable grads)
  end.

(** 01_functional_api.py:75-76 *)
Fixpoint tune_loop (t : trace_state) (D : grad_op) (sgd : pyval -> pyval -> pyval) (d : mdef) (frozen : state) (losses : list loss_fun) (w : world) (trainable : state)
  : world * result state :=
  match losses with
  | [] => (w, Ok trainable)
  | loss :: rest =>
      match tune_step t D sgd d frozen loss w trainable with
      | (w1, Ok trainable') => tune_loop t D sgd d frozen rest w1 trainable'
      | (w1, Err e) => (w1, Err e)
      end
  end.
