(** Spec_RngNest: the vocabulary of the property about keys drawn in nested calls. *)
From Verif Require Import PyBase ModuleM ContextM ScanM Spec_Context RngNestM.
Local Open Scope string_scope.
Local Open Scope list_scope.

(** The key that [jax.random.split] was applied to, again and again. *)
Fixpoint stem (k : key) : key := match k with KSplit k' _ _ => stem k' | _ => k end.

(** The program creates its Contexts first, by calls of [context( ... )]. *)
Definition creates (ops : list cop) : Prop := Forall (fun o => exists p f r, o = ONew p f r) ops.
(** The keys it starts from are different, and none is a split of another or of the same key. *)
Definition fresh_roots (ops : list cop) : Prop := NoDup (map stem (root_keys ops)).

(** None of them was drawn from a Context or made by [jax.random.fold_in] in another way, nor
    split from such a key. *)
Definition no_folds (ops : list cop) : Prop := forall k, In k (root_keys ops) -> forall r h, stem k <> KFold r h.

(** Every scan in the program has a [split_rngs] that selects all the streams of interest, and
    new streams of interest start from keys of streams of interest. *)
Inductive splits (names : string -> bool) : kprog -> Prop :=
| Sp_fin res : splits names (KFin res)
| Sp_draw c name k : (forall r, splits names (k r)) -> splits names (KDraw c name k)
| Sp_copy c k : splits names k -> splits names (KCopy c k)
| Sp_fork c k : (forall r, splits names (k r)) -> splits names (KFork c k)
| Sp_new c args k : (forall a n, In (a, n) args -> names a = true -> names n = true) ->
    (forall r, splits names (k r)) -> splits names (KNew c args k)
| Sp_vmap c a n num body k : (names a = true -> names n = true) -> (forall i, splits names (body i)) ->
    (forall r, splits names (k r)) -> splits names (KVmap c a n num body k)
| Sp_remat t c body k : splits names body -> (forall r, splits names (k r)) -> splits names (KRemat t c body k)
| Sp_scan t c split n body k : (forall name, names name = true -> rmatches split name) ->
    (forall i, splits names (body i)) -> (forall r, splits names (k r)) -> splits names (KScan t c split n body k).

(** The program creates no Contexts from drawn keys. *)
Inductive no_new : kprog -> Prop :=
| Nn_fin res : no_new (KFin res)
| Nn_draw c name k : (forall r, no_new (k r)) -> no_new (KDraw c name k)
| Nn_copy c k : no_new k -> no_new (KCopy c k)
| Nn_fork c k : (forall r, no_new (k r)) -> no_new (KFork c k)
| Nn_remat t c body k : no_new body -> (forall r, no_new (k r)) -> no_new (KRemat t c body k)
| Nn_scan t c split n body k : (forall i, no_new (body i)) -> (forall r, no_new (k r)) -> no_new (KScan t c split n body k).

(** What is drawn in a whole run, from the streams of interest. *)
Definition run_from (blake : string -> nat) (t : trace_state) (ops : list cop) (p : kprog) : kres :=
  let w := fst (crun blake (cstart t) ops) in krun blake p (cw_trace w) (cw_ctxs w) (cw_streams w).
Definition draws (names : string -> bool) (r : kres) : list draw := filter (fun d => names (d_name d)) (snd (fst r)).
(** The derivation of a key: what is folded into what. *)
Definition derivation (d : draw) : key * counts := (d_root d, d_path d).
