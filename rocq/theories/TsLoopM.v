(** TsLoopM: the training steps of examples/03_train_state.py and examples/05_vae.py, which
    keep everything in a TrainState (TrainM).  [jax.jit] around a step is taken by its
    contract (the results of the function, under another trace); that the TrainState
    itself comes through as it is, is C65. *)
From Verif Require Import PyBase ValuesM FiltersM StateM ModuleM PureM TransformM GradFunM PytreeM TrainM TrainLoopM.
Local Open Scope string_scope.
Local Open Scope list_scope.

Section TsLoop.
(** optax as in TrainM; States and ModuleDefs as values of a field. *)
Variable tx_update : pyval -> pyval -> pyval -> pyval -> result (pyval * pyval).
Variable apply_updates : pyval -> pyval -> result pyval.
Variable add_one : pyval -> result pyval.
Variable as_def : pyval -> option mdef.
Variable as_state : pyval -> option state.
Variable of_state : state -> pyval.

(** [state.params] as a State. (03_train_state.py:69, 05_vae.py:135) *)
Definition ts_params (h : pheap) (r : nat) : result state :=
  do v <- pread h r "params"; match as_state v with Some s => Ok s | None => Err OutOfModel end.

(** 03_train_state.py:63-67 [loss_fn], run under the traces of [jax.jit] and [jax.grad]. *)
Definition ts_loss_fn (t : trace_state) (loss : loss_fun) (h : pheap) (r : nat) (w : world) (params : state) : world * result (pyval * state) :=
  match train_apply as_def as_state h (set_trace w t) r [SState params; SName "buffers"] loss with
  | (w1, Err e) => (set_trace w1 (w_trace w), Err e)
  | (w1, Ok (y, p)) =>
      (set_trace w1 (w_trace w), do updates <- one_state (p_states p); do x <- state_filter updates buffers_filter []; do b <- one_state x; Ok (y, b))
  end.
(** 03_train_state.py:59-73 [train_step]; the new TrainState is at index [length h]. *)
Definition ts_step (t : trace_state) (D : grad_op) (loss : loss_fun) (h : pheap) (w : world) (r : nat) : pheap * world * result unit :=
  match ts_params h r with
  | Err e => (h, w, Err e)
  | Ok params =>
      match ts_loss_fn t loss h r w params with
      | (w1, Err e) => (h, w1, Err e)
      | (w1, Ok (_, buffers)) =>
          let grads := grad_tree (D (fun x => match snd (ts_loss_fn t loss h r w x) with Ok (y, _) => Some y | Err _ => None end) params) params in
          let (h1, res) := apply_gradients tx_update apply_updates add_one h r (of_state grads) [("buffers", ARaw (of_state buffers))] in
          (h1, w1, res)
      end
  end.
(** 03_train_state.py:85-86 *)
Fixpoint ts_loop (t : trace_state) (D : grad_op) (losses : list loss_fun) (h : pheap) (w : world) (r : nat) : pheap * world * result nat :=
  match losses with
  | [] => (h, w, Ok r)
  | loss :: rest =>
      match ts_step t D loss h w r with
      | (h1, w1, Err e) => (h1, w1, Err e)
      | (h1, w1, Ok _) => ts_loop t D rest h1 w1 (List.length h)
      end
  end.

(** 05_vae.py:123-132 [loss_fn]: the model on [params] alone; the loss is made of the
    result and of the values of the nodes of class [Loss] that the call left. *)
Definition vae_loss_fn (total : pyval -> state -> pyval) (t : trace_state) (body : loss_fun) (h : pheap) (r : nat) (w : world) (params : state) : world * result pyval :=
  match train_apply as_def as_state h (set_trace w t) r [SState params] body with
  | (w1, Err e) => (set_trace w1 (w_trace w), Err e)
  | (w1, Ok (y, p)) =>
      (set_trace w1 (w_trace w), do updates <- one_state (p_states p); do x <- state_filter updates (FType "Loss") []; do losses <- one_state x; Ok (total y losses))
  end.
(** 05_vae.py:121-138 [train_step]: [state.apply_gradients(grads=grads)], then
    [return state, loss].  [body] gets the value of [state.step], of which the key of
    the noise is made (124). *)
Definition vae_step (total : pyval -> state -> pyval) (t : trace_state) (D : grad_op) (body : pyval -> loss_fun) (h : pheap) (w : world) (r : nat)
  : pheap * world * result (nat * pyval) :=
  match (do params <- ts_params h r; do step <- pread h r "step"; Ok (params, step)) with
  | Err e => (h, w, Err e)
  | Ok (params, step) =>
      match vae_loss_fn total t (body step) h r w params with
      | (w1, Err e) => (h, w1, Err e)
      | (w1, Ok loss) =>
          let grads := grad_tree (D (fun x => match snd (vae_loss_fn total t (body step) h r w x) with Ok y => Some y | Err _ => None end) params) params in
          match apply_gradients tx_update apply_updates add_one h r (of_state grads) [] with
          | (h1, Err e) => (h1, w1, Err e)
          | (h1, Ok _) => (h1, w1, Ok (r, loss))
          end
      end
  end.
(** 05_vae.py:158-163: the losses of the steps. *)
Fixpoint vae_loop (total : pyval -> state -> pyval) (t : trace_state) (D : grad_op) (bodies : list (pyval -> loss_fun)) (h : pheap) (w : world) (r : nat)
  : pheap * world * result (nat * list pyval) :=
  match bodies with
  | [] => (h, w, Ok (r, []))
  | body :: rest =>
      match vae_step total t D body h w r with
      | (h1, w1, Err e) => (h1, w1, Err e)
      | (h1, w1, Ok (r1, loss)) =>
          match vae_loop total t D rest h1 w1 r1 with
          | (h2, w2, Err e) => (h2, w2, Err e)
          | (h2, w2, Ok (r2, losses)) => (h2, w2, Ok (r2, loss :: losses))
          end
      end
  end.
End TsLoop.
