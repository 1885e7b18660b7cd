(** SkipM: the training loops of the examples with a handler around each step, as user code:

      for batch in batches:
        try:
          train_step(...)          # or: states = train_step(states, ...)
        except Exception as e:
          log(e)

    The steps are those of TrainLoopM and FineTuneM. *)
From Verif Require Import PyBase ValuesM FiltersM StateM ModuleM PureM TransformM GradFunM JitCacheM TrainLoopM FineTuneM.
Local Open Scope string_scope.
Local Open Scope list_scope.

(** Around the [train_step] of 02_lifted_transforms.py:51-66, 78-79; the log has an entry for
    each batch. *)
Fixpoint skip_lifted (wrt : filt) (t1 t2 : trace_state) (D : grad_op) (sgd : pyval -> pyval -> pyval) (losses : list loss_fun) (w : world) (r : nat)
  : world * list (result unit) :=
  match losses with
  | [] => (w, [])
  | loss :: rest =>
      let (w1, res) := jit_call true t1 (sgd_body wrt t2 D sgd loss) w r in
      let (w2, log) := skip_lifted wrt t1 t2 D sgd rest w1 r in (w2, res :: log)
  end.
(** Around the [train_step] of 04_pure.py:51-66, 78-79: the assignment is not made if the step
    raises. *)
Fixpoint skip_pure (wrt : filt) (t1 t2 : trace_state) (D : grad_op) (sgd : pyval -> pyval -> pyval) (losses : list loss_fun) (w : world) (p : pure)
  : world * pure * list (result unit) :=
  match losses with
  | [] => (w, p, [])
  | loss :: rest =>
      let (w1, res) := pure_step wrt t1 t2 D sgd loss w p in
      let '(w2, p2, log) := skip_pure wrt t1 t2 D sgd rest w1 (match res with Ok p1 => p1 | Err _ => p end) in
      (w2, p2, rmap (fun _ => tt) res :: log)
  end.
(** Around the [train_step] of 01_functional_api.py:50-63, 75-76. *)
Fixpoint skip_functional (t : trace_state) (D : grad_op) (sgd : pyval -> pyval -> pyval) (d : mdef) (losses : list loss_fun) (w : world) (params buffers : state)
  : world * (state * state) * list (result unit) :=
  match losses with
  | [] => (w, (params, buffers), [])
  | loss :: rest =>
      let (w1, res) := functional_step t D sgd d loss w params buffers in
      let (params1, buffers1) := match res with Ok x => x | Err _ => (params, buffers) end in
      let '(w2, x, log) := skip_functional t D sgd d rest w1 params1 buffers1 in
      (w2, x, rmap (fun _ => tt) res :: log)
  end.
