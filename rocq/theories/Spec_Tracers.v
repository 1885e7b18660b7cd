(** Spec_Tracers: which values are usable, and the points of a run. *)
From Verif Require Import PyBase TracersM.
Local Open Scope string_scope.
Local Open Scope nat_scope.
Local Open Scope list_scope.

(** programs that use nnx.jit, nnx.grad, nnx.scan, nnx.remat, jax.jit, jax.checkpoint,
    lax.scan and eval_shape, but not jax.vmap, jax.grad and jax.jvp themselves *)
Fixpoint guarded (p : tprog) : Prop :=
  match p with
  | TSkip | TNew _ | TRead _ _ _ | TWrite _ _ _ | TOp _ _ _ => True
  | TSeq p q | TTry p q => guarded p /\ guarded q
  | TCall k _ body _ _ _ _ _ _ => k <> KLocal /\ guarded body
  end.

(** an array, or a tracer of a trace that is still going on *)
Definition usable (s : tstate) (x : leaf) : Prop :=
  match x with Conc => True | Tr m => In m (ts_mains s) end.

(** The points a program can get to: after a part of it has run or raised, and at the
    start of the function of a transform. *)
Inductive point : tstate -> env -> Prop :=
| pt_start : point start []
| pt_run p s e s' e' r : point s e -> guarded p -> trun p s e = (s', e', r) -> point s' e'
| pt_in k m args self sel s e s' e' t target : point s e -> k <> KLocal ->
    enter_call s e k m args self sel = inr (s', e', t, target) -> point s' e'.
