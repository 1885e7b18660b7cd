(** TrainLoopM: the training loops of examples/01_functional_api.py, 02_lifted_transforms.py
    and 04_pure.py, which use the functions of nnx modelled in ModuleM, PureM, TransformM
    and GradFunM.  [jax.jit] around a step is taken by its contract (the results of the
    function, under another trace). *)
From Verif Require Import PyBase ValuesM FiltersM StateM ModuleM PureM TransformM GradFunM JitCacheM.
Local Open Scope string_scope.
Local Open Scope list_scope.

(** The loss on one batch as a function of the model: [loss_fn] (02_lifted_transforms.py:55-57,
    04_pure.py:56-58), or [model(x)] and the loss (01_functional_api.py:54-56). *)
Definition loss_fun : Type := world -> nat -> world * result pyval.

(** [jax.tree_map(lambda w, g: ..., params, grad)] on two States (01_functional_api.py:61,
    02_lifted_transforms.py:63, 04_pure.py:63).  The treedefs must agree: keys
    (state.py:145-163), classes and metadata of the Variables (containers.py:108-138);
    ValueError otherwise.  Simplification: every value is one leaf. *)
Fixpoint tree_map2 (g : pyval -> pyval -> pyval) (s1 s2 : state) : result state :=
  match s1, s2 with
  | [], [] => Ok []
  | (k, a) :: t1, (k', b) :: t2 =>
      if String.eqb k k' && attr_key_eqb (fun _ _ => true) a b then
        do t <- tree_map2 g t1 t2; Ok ((k, with_value a (g (attr_val a) (attr_val b))) :: t)
      else Err ValueError
  | _, _ => Err ValueError
  end.

(** A call of [filter] with one filter gives one State (state.py:165-188). *)
Definition one_state (x : sts) : result state := match x with One s => Ok s | Many _ => Err OutOfModel end.

(** 02_lifted_transforms.py:60-64 and 04_pure.py:60-64: [nnx.grad(loss_fn, wrt=nnx.Param)(model)],
    then [model.update_state(jax.tree_map(..., model.filter(nnx.Param), grad))].  Here with any
    filter [wrt] in place of [nnx.Param], to train other parts of a model. *)
Definition sgd_body (wrt : filt) (t : trace_state) (D : grad_op) (sgd : pyval -> pyval -> pyval) (loss : loss_fun) (w : world) (m : nat) : world * result unit :=
  match grad_call_fn true false wrt t D loss w m with
  | (w1, Err e) => (w1, Err e)
  | (w1, Ok (grads, _)) =>
      match (do x <- module_filter w1 m wrt []; do params <- one_state x; tree_map2 sgd params grads) with
      | Err e => (w1, Err e)
      | Ok new => update_state w1 m (UStates (One new))
      end
  end.

(** 02_lifted_transforms.py:51-66 [train_step] under [nnx.jit]; 78-79 the loop. *)
Fixpoint lifted_loop (wrt : filt) (t1 t2 : trace_state) (D : grad_op) (sgd : pyval -> pyval -> pyval) (losses : list loss_fun) (w : world) (r : nat) : world * result unit :=
  match losses with
  | [] => (w, Ok tt)
  | loss :: rest =>
      match jit_call true t1 (sgd_body wrt t2 D sgd loss) w r with
      | (w1, Ok _) => lifted_loop wrt t1 t2 D sgd rest w1 r
      | (w1, Err e) => (w1, Err e)
      end
  end.

(** 04_pure.py:51-66 [train_step] under [jax.jit]: merge, as above, partition. *)
Definition pure_step (wrt : filt) (t1 t2 : trace_state) (D : grad_op) (sgd : pyval -> pyval -> pyval) (loss : loss_fun) (w : world) (p : pure) : world * result pure :=
  match pure_merge (set_trace w t1) p with
  | Err e => (w, Err e)
  | Ok (m, w1) =>
      match sgd_body wrt t2 D sgd loss w1 m with
      | (w2, Err e) => (set_trace w2 (w_trace w), Err e)
      | (w2, Ok _) => (set_trace w2 (w_trace w), module_partition w2 m [])
      end
  end.
(** 04_pure.py:78-79 *)
Fixpoint pure_loop (wrt : filt) (t1 t2 : trace_state) (D : grad_op) (sgd : pyval -> pyval -> pyval) (losses : list loss_fun) (w : world) (p : pure) : world * result pure :=
  match losses with
  | [] => (w, Ok p)
  | loss :: rest =>
      match pure_step wrt t1 t2 D sgd loss w p with
      | (w1, Ok p1) => pure_loop wrt t1 t2 D sgd rest w1 p1
      | (w1, Err e) => (w1, Err e)
      end
  end.

(** partitioning.py:89 [nnx.buffers]. *)
Definition buffers_filter : filt := FTuple [FType "jax.Array"; FType "numpy.ndarray"].

(** 01_functional_api.py:53-57 [loss_fn], run under the traces of [jax.jit] and
    [jax.grad]: the loss and the new buffers. *)
Definition loss_fn (t : trace_state) (loss : loss_fun) (d : mdef) (buffers : state) (w : world) (params : state) : world * result (pyval * state) :=
  match mdef_apply (set_trace w t) d [params; buffers] loss with
  | (w1, Err e) => (set_trace w1 (w_trace w), Err e)
  | (w1, Ok (y, p)) =>
      (set_trace w1 (w_trace w), do updates <- one_state (p_states p); do x <- state_filter updates buffers_filter []; do b <- one_state x; Ok (y, b))
  end.

(** 01_functional_api.py:50-63 [train_step]: [jax.grad(loss_fn, has_aux=True)(params)],
    then the new params. *)
Definition functional_step (t : trace_state) (D : grad_op) (sgd : pyval -> pyval -> pyval) (d : mdef) (loss : loss_fun) (w : world) (params buffers : state)
  : world * result (state * state) :=
  match loss_fn t loss d buffers w params with
  | (w1, Err e) => (w1, Err e)
  | (w1, Ok (_, buffers')) =>
      let grads := grad_tree (D (fun x => match snd (loss_fn t loss d buffers w x) with Ok (y, _) => Some y | Err _ => None end) params) params in
      (w1, do params' <- tree_map2 sgd params grads; Ok (params', buffers'))
  end.
(** 01_functional_api.py:75-76 *)
Fixpoint functional_loop (t : trace_state) (D : grad_op) (sgd : pyval -> pyval -> pyval) (d : mdef) (losses : list loss_fun) (w : world) (params buffers : state)
  : world * result (state * state) :=
  match losses with
  | [] => (w, Ok (params, buffers))
  | loss :: rest =>
      match functional_step t D sgd d loss w params buffers with
      | (w1, Ok (params', buffers')) => functional_loop t D sgd d rest w1 params' buffers'
      | (w1, Err e) => (w1, Err e)
      end
  end.
