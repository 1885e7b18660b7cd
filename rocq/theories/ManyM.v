(** ManyM: a script that works on several models.  Each statement is plain code that may use
    all of them, a call of a jitted function on one of them, or a training step on one of them
    (examples/02_lifted_transforms.py:51-66). *)
From Verif Require Import PyBase ValuesM FiltersM StateM ModuleM PureM TransformM GradFunM JitCacheM TrainLoopM EnsembleM Spec_Prog.
Local Open Scope string_scope.
Local Open Scope list_scope.

(** What a statement may hand to the later ones: a value and any number of States, e.g. the
    checkpoints taken with get_state that are put back with update_state. *)
Notation memo := (pyval * list state)%type.
Inductive statement : Type :=
| Plain (p : prog memo)                                           (** code that has all models, in their order *)
| Jitted (m : nat) (t : trace_state) (f : prog pyval)               (** nnx.jit(f)(m) *)
| TrainOn (m : nat) (t1 t2 : trace_state) (h : recipe) (f : prog pyval). (** train_step(m), with the loss f *)

(** What a statement does; an exception is caught by the script, which sees it.  [nnx.jit(f)(m)]:
    transforms.py:57-129, as [jit_call] (TransformM); the step: 02_lifted_transforms.py:51-66. *)
Definition do_statement (models : list nat) (s : statement) (w : world) : world * result memo :=
  match s with
  | Plain p => run p w models
  | Jitted m t f => let (w', res) := jit_call true t (user_fun f) w m in (w', rmap (fun x => (x, [])) res)
  | TrainOn m t1 t2 h f =>
      let (w', res) := jit_call true t1 (sgd_body (rc_wrt h) t2 (rc_grad h) (rc_sgd h) (user_fun f)) w m in (w', rmap (fun _ => (PyNone, [])) res)
  end.
(** The script: a statement may depend on what the earlier ones returned or raised. *)
Inductive script : Type :=
| Stop
| Then (s : statement) (k : result memo -> script).
Fixpoint do_script (models : list nat) (p : script) (w : world) : world * list (result memo) :=
  match p with
  | Stop => (w, [])
  | Then s k => let (w1, x) := do_statement models s w in let (w2, xs) := do_script models (k x) w1 in (w2, x :: xs)
  end.
