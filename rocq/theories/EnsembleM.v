(** EnsembleM: several models trained in turn, with the step of
    examples/02_lifted_transforms.py:51-66 ([train_step] under [nnx.jit]).  The loop of the
    example (78-79) has one model; here every step says which one it trains.  Each model has
    its own filter, derivative operator and update rule. *)
From Verif Require Import PyBase ValuesM FiltersM StateM ModuleM PureM TransformM GradFunM JitCacheM TrainLoopM.
Local Open Scope string_scope.
Local Open Scope list_scope.

(** How a model is trained: the filter of [nnx.grad] and [model.filter]
    (02_lifted_transforms.py:60-63), the derivative operator of [jax.grad], the function given to
    [jax.tree_map] (line 63). *)
Record recipe : Type := mkRecipe { rc_wrt : filt; rc_grad : grad_op; rc_sgd : pyval -> pyval -> pyval }.

(** [for model, loss in schedule: train_step(model, loss)]; the step is the one of
    02_lifted_transforms.py:51-66. *)
Fixpoint train_in_turn (how : nat -> recipe) (t1 t2 : trace_state) (schedule : list (nat * loss_fun)) (w : world) : world * result unit :=
  match schedule with
  | [] => (w, Ok tt)
  | (m, loss) :: rest =>
      match jit_call true t1 (sgd_body (rc_wrt (how m)) t2 (rc_grad (how m)) (rc_sgd (how m)) loss) w m with
      | (w1, Ok _) => train_in_turn how t1 t2 rest w1
      | (w1, Err e) => (w1, Err e)
      end
  end.

(** The same with [try: ... except Exception as e: log(e)] around each step, as user code; the log
    has an entry for each step. *)
Fixpoint skip_in_turn (how : nat -> recipe) (t1 t2 : trace_state) (schedule : list (nat * loss_fun)) (w : world) : world * list (result unit) :=
  match schedule with
  | [] => (w, [])
  | (m, loss) :: rest =>
      let (w1, res) := jit_call true t1 (sgd_body (rc_wrt (how m)) t2 (rc_grad (how m)) (rc_sgd (how m)) loss) w m in
      let (w2, log) := skip_in_turn how t1 t2 rest w1 in (w2, res :: log)
  end.

(** [[model.clone() for _ in range(n)]], with [Module.clone] (module.py:520-521) *)
Fixpoint clones (w : world) (r : nat) (n : nat) : result (list nat * world) :=
  match n with
  | O => Ok ([], w)
  | S n' => do (m, w1) <- clone w r; do (ms, w2) <- clones w1 r n'; Ok (m :: ms, w2)
  end.
