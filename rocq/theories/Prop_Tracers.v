(** Prop_Tracers: C88, no tracer outlives its transform inside a Module. *)
From Verif Require Import PyBase PyBaseFacts TracersM Spec_Tracers Tracers_proofs.
Local Open Scope string_scope.
Local Open Scope nat_scope.
Local Open Scope list_scope.

(** At every point of every program, however transforms are nested and whatever is
    caught: no operation has met a tracer of a finished transform, and every value the
    program has at hand, in a variable or in an attribute of a Module it can name, is an
    array or a tracer of a transform that is still going on. *)
Theorem C88_usable :
  forall s e, point s e -> ts_idle s = false ->
  ts_escaped s = false /\
  (forall x v, dget x e = Some (XVal v) -> usable s v) /\
  (forall x r, dget x e = Some (XMod r) -> exists o, nth_error (ts_heap s) r = Some o /\
     forall a v, dget a (tm_vars o) = Some v -> usable s v).
Proof.
  intros s e P I. destruct (point_good s e P I) as (G & X). split; [exact X|].
  assert (K : forall v, lin (ts_mains s) v -> usable s v) by (intros [|m]; cbn; tauto).
  split.
  - intros x v D. apply K. exact (g_env _ _ G x _ D).
  - intros x r D. destruct (g_env _ _ G x _ D) as (o & O & J & N). exists o. split; [exact O|]. intros a v Da. apply K.
    destruct (g_heap _ _ G r o O) as (_ & _ & V). apply (V _ (suffix_refl _) J N a v). now apply dget_In.
Qed.
Print Assumptions C88_usable.

(** Whole programs: whether they return or raise, jax has not complained, and the
    Modules left hold no tracer at all. *)
Theorem C88_program :
  forall p s e r, guarded p -> trun p start [] = (s, e, r) -> ts_idle s = false ->
  r <> Raised Escaped /\ ts_escaped s = false /\
  forall x i, dget x e = Some (XMod i) -> exists o, nth_error (ts_heap s) i = Some o /\ forall a v, dget a (tm_vars o) = Some v -> v = Conc.
Proof.
  intros p s e r G E I. destruct (trun_good p G _ _ _ _ _ start_good E I) as (GD & X & R). split; [exact R|]. split; [exact X|].
  pose proof (trun_frame _ _ _ _ _ _ E) as ((M & _) & _). intros x i D. destruct (g_env _ _ GD x _ D) as (o & O & J & N). exists o. split; [exact O|].
  intros a v Da. destruct (g_heap _ _ GD i o O) as (_ & _ & V). specialize (V _ (suffix_refl _) J N a v (dget_In _ _ _ Da)).
  destruct v as [|m]; [reflexivity|]. cbn in V. rewrite M in V. cbn in V. destruct V as [[<-|[]] L]. cbn in L. now apply PeanoNat.Nat.lt_irrefl in L.
Qed.
Print Assumptions C88_program.

(** Inside a transform no Module from outside can be assigned to. *)
Theorem C88_guard :
  forall s e k m args self sel s' e' t target x r a v, point s e -> k <> KLocal ->
  enter_call s e k m args self sel = inr (s', e', t, target) -> ts_idle s' = false ->
  dget x e = Some (XMod r) -> tsetattr s' r a v = (s', Raised TraceGuard).
Proof.
  intros s e k m args self sel s' e' t target x r a v P K EC I D.
  pose proof (enter_call_frame _ _ _ _ _ _ _ _ _ _ _ EC) as (_ & _ & _ & _ & _ & _ & M).
  assert (I0 : ts_idle s = false) by (destruct (ts_idle s); auto; now rewrite M in I).
  destruct (point_good s e P I0) as (G & _). eapply guard_raises; eauto.
Qed.
Print Assumptions C88_guard.

(** The guard refuses nothing else: a Module can be assigned to where it was made, and
    again after whatever has run there. *)
Theorem C88_own :
  forall s e x s' e' r, point s e -> ts_idle s = false -> trun (TNew x) s e = (s', e', r) ->
  r = Done /\ forall p s2 e2 r2, trun p s' e' = (s2, e2, r2) -> forall i a v, dget x e' = Some (XMod i) -> snd (tsetattr s2 i a v) = Done.
Proof.
  intros s e x s' e' r P I E. destruct (point_good s e P I) as (G & _). pose proof (c_nnx _ (g_ctx _ _ G)) as (n & HN & _).
  cbn [trun] in E. unfold current_nnx_trace in E. rewrite HN in E. injection E as <- <- <-. split; [reflexivity|].
  intros p s2 e2 r2 R i a v D. rewrite dget_dset_same in D. injection D as <-.
  apply trun_frame in R as ((M & DY & NN) & _ & GR & _). cbn [set_heap ts_heap ts_dyn ts_nnx] in *.
  destruct (GR (List.length (ts_heap s)) (mkTmod (ts_dyn s) n [])) as (o & O & J & N).
  { rewrite nth_error_app2, PeanoNat.Nat.sub_diag by apply le_n. reflexivity. }
  cbn in J, N. unfold tsetattr. rewrite O. replace (is_valid s2 o) with true; [reflexivity|]. unfold is_valid, current_nnx_trace. change (current_jax_trace s2) with (ts_dyn s2).
  rewrite DY, NN, HN, J, N. unfold is_main. now rewrite !PeanoNat.Nat.eqb_refl.
Qed.
Print Assumptions C88_own.

(** Every program, jax.vmap and jax.grad included, leaves jax's and nnx's traces as it
    found them, also when it raises. *)
Theorem C88_contexts :
  forall p s e s' e' r, trun p s e = (s', e', r) ->
  ts_mains s' = ts_mains s /\ ts_dyn s' = ts_dyn s /\ ts_nnx s' = ts_nnx s.
Proof. intros p s e s' e' r E. now apply trun_frame in E as (C & _). Qed.
Print Assumptions C88_contexts.

(** Under jax.vmap (or jax.grad, jax.jvp; also in a constructor called by nnx.Scan, which
    runs under jax.vmap) the guard does not notice: the tracer stays in the Module. *)
Definition ex_vmap : tprog :=
  TSeq (TNew "m") (TSeq (TOp "x" [] None)
    (TSeq (TCall KLocal true (TWrite "m" "a" "v") None [("x", "v", true)] "self" (fun _ => Untraced) [] 0)
      (TSeq (TRead "y" "m" "a") (TOp "z" ["y"] None)))).
Theorem C88_vmap_refuted :
  exists p s e, trun p start [] = (s, e, Raised Escaped) /\ ts_idle s = false /\ ts_escaped s = true.
Proof. exists ex_vmap. eexists _, _. vm_compute. repeat split. Qed.
Print Assumptions C88_vmap_refuted.
(** A call of nnx.grad with nothing to differentiate, inside of another one, makes the
    trace of the outermost level current again: Modules from there take the tracers. *)
Definition ex_idle : tprog :=
  TSeq (TNew "m") (TSeq (TOp "x" [] None) (TSeq (TWrite "m" "w" "x") (TSeq (TNew "log")
    (TSeq (TCall KNnxGrad true (TSeq (TRead "y" "self" "w")
             (TCall KNnxGrad true (TWrite "log" "a" "y") (Some "self") [] "inner" (fun _ => Untraced) [] 0))
           (Some "m") [] "self" (fun _ => Traced) [] 0)
      (TSeq (TRead "y" "log" "a") (TOp "z" ["y"] None)))))).
Theorem C88_nested_grad_refuted :
  exists p s e, guarded p /\ trun p start [] = (s, e, Raised Escaped) /\ ts_escaped s = true.
Proof.
  exists ex_idle. eexists _, _. split; [cbn; intuition discriminate|]. vm_compute. repeat split.
Qed.
Print Assumptions C88_nested_grad_refuted.

(** A program that trains in nnx.grad inside nnx.jit, tries to log a value of the inside
    in a Module from outside, gets the error, catches it, and goes on. *)
Definition ex_train : tprog :=
  TSeq (TNew "m") (TSeq (TOp "x" [] None) (TSeq (TWrite "m" "w" "x") (TSeq (TNew "log")
    (TSeq (TCall KNnxJit true
       (TSeq (TCall KNnxGrad true
                (TSeq (TRead "y" "self" "w") (TSeq (TOp "loss" ["y"; "b"] None)
                  (TSeq (TWrite "self" "stat" "loss") (TTry (TWrite "log" "a" "loss") TSkip))))
                (Some "self") [("v", "b", false)] "self" (fun _ => Traced) [("loss", "l")] 1)
             (TWrite "self" "last" "l"))
       (Some "m") [("x", "v", true)] "self" (fun _ => Traced) [("l", "out")] 0)
      (TSeq (TRead "y" "m" "stat") (TSeq (TOp "z" ["y"; "out"] None) (TWrite "log" "a" "z"))))))).
Example C88_nonvacuous :
  guarded ex_train /\ exists s e, trun ex_train start [] = (s, e, Done) /\ ts_idle s = false /\
    dget "m" e = Some (XMod 0) /\ option_map tm_vars (nth_error (ts_heap s) 0) = Some [("w", Conc); ("stat", Conc); ("last", Conc)] /\
    (* the copy made by nnx.grad *)
    option_map (fun o => map snd (tm_vars o)) (nth_error (ts_heap s) 3) = Some [Tr (mkMain 2 2); Tr (mkMain 2 2)].
Proof. split; [cbn; intuition discriminate|]. eexists _, _. vm_compute. repeat split. Qed.
Example C88_point_nonvacuous :
  exists s e s' e' t target, point s e /\ dget "m" e = Some (XMod 0) /\
    enter_call s e KNnxGrad (Some "m") [] "self" (fun _ => Traced) = inr (s', e', t, target) /\ ts_idle s' = false /\
    dget "self" e' = Some (XMod 1) /\ snd (tsetattr s' 1 "w" (Tr t)) = Done /\ snd (tsetattr s' 0 "w" Conc) = Raised TraceGuard.
Proof.
  pose (p := TSeq (TNew "m") (TSeq (TOp "x" [] None) (TWrite "m" "w" "x"))).
  destruct (trun p start []) as [[s e] r] eqn:E. exists s, e.
  assert (P : point s e) by (eapply (pt_run p); [apply pt_start|cbn; auto|exact E]). vm_compute in E. injection E as <- <- <-.
  eexists _, _, _, _. split; [exact P|]. split; [reflexivity|]. split; [vm_compute; reflexivity|]. vm_compute. repeat split.
Qed.
