(** SplitLoopM: the training step of README.md:75-93, with any two filters:
    [(params, counts), moduledef = model.partition(nnx.Param, Count)], a loss that returns
    [updates.filter(Count)] beside its value, and [jax.grad(loss_fn, has_aux=True)].
    [jax.jit] by its contract, as in TrainLoopM. *)
From Verif Require Import PyBase ValuesM FiltersM StateM ModuleM PureM TransformM GradFunM JitCacheM TrainLoopM.
Local Open Scope string_scope.
Local Open Scope list_scope.

(** README.md:79-82 [loss_fn] (module.py:154-165 [apply], state.py:98-113 [filter]); [aux] is the
    filter for what is carried to the next step. *)
Definition aux_loss (aux : filt) (t : trace_state) (loss : loss_fun) (d : mdef) (rest : state) (w : world) (params : state) : world * result (pyval * state) :=
  match mdef_apply (set_trace w t) d [params; rest] loss with
  | (w1, Err e) => (set_trace w1 (w_trace w), Err e)
  | (w1, Ok (y, p)) =>
      (set_trace w1 (w_trace w), do updates <- one_state (p_states p); do x <- state_filter updates aux []; do b <- one_state x; Ok (y, b))
  end.

(** README.md:77-89 [train_step] *)
Definition aux_step (aux : filt) (t : trace_state) (D : grad_op) (sgd : pyval -> pyval -> pyval) (d : mdef) (loss : loss_fun) (w : world) (params rest : state)
  : world * result (state * state) :=
  match aux_loss aux t loss d rest w params with
  | (w1, Err e) => (w1, Err e)
  | (w1, Ok (_, rest')) =>
      let grads := grad_tree (D (fun x => match snd (aux_loss aux t loss d rest w x) with Ok (y, _) => Some y | Err _ => None end) params) params in
      (w1, do params' <- tree_map2 sgd params grads; Ok (params', rest'))
  end.

(** README.md:92, any number of times *)
Fixpoint aux_loop (aux : filt) (t : trace_state) (D : grad_op) (sgd : pyval -> pyval -> pyval) (d : mdef) (losses : list loss_fun) (w : world) (params rest : state)
  : world * result (state * state) :=
  match losses with
  | [] => (w, Ok (params, rest))
  | loss :: more =>
      match aux_step aux t D sgd d loss w params rest with
      | (w1, Ok (params', rest')) => aux_loop aux t D sgd d more w1 params' rest'
      | (w1, Err e) => (w1, Err e)
      end
  end.
