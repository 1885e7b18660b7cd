(** Skip_proofs: training steps that raise. *)
From Coq Require Import Lia.
From Verif Require Import PyBase PyBaseFacts ValuesM Spec_Eq ValuesFacts FiltersM StateM Spec_State State_proofs ModuleM PureM Spec_Module Spec_Prog
  Graph_facts Dfs_proofs Build_proofs Bisim_proofs Clone_proofs Update_proofs
  Laws_proofs Prog_proofs TransformM Transform_proofs History_proofs Leaf_proofs Scan_proofs Container_proofs ScanDeco_proofs Spec_Functional Functional_proofs
  GradFunM Spec_GradFun GradFun_proofs JitCacheM TrainLoopM Spec_TrainLoop TrainLoop_proofs FineTuneM Spec_FineTune FineTune_proofs SkipM Spec_Skip.
Local Open Scope string_scope.
Local Open Scope list_scope.

Lemma body_raises wrt D sgd (f : prog pyval) w r w1 e v m t : structural wrt -> ok_prog f -> run f w [r] = (w1, Err e) -> like w r v m ->
  exists v', sgd_body wrt t D sgd (user_fun f) v m = (v', Err e) /\ wf_world v' /\ all_unchanged v v' /\ w_trace v' = w_trace v /\ w_nodes v' = w_nodes v.
Proof.
  intros (pred & Hpred & _) Hf Hrun LK. pose proof LK as [W V N L W' V' N' L' Nn Ed Es].
  destruct (grad_call_fn_open D f v m wrt _ t true false W' V' Hpred) as (diff & nondiff & p & P1 & P2 & _ & E0).
  rewrite (like_partition _ _ _ _ _ LK) in P1. unfold sgd_body. rewrite E0. clear E0.
  assert (H : holds v w r v p). { constructor; auto; [intros x o Ho; exact Ho|]. eapply partition_parts; eauto. }
  destruct (run_parts f v w r v p t Hf H) as (w1' & res & v1 & v2 & E1 & Hm & E2 & W2 & V2 & L2 & N2 & Wv2 & Nv2 & U & _ & _).
  rewrite Hrun in E1. injection E1 as <- <-.
  unfold grad_call. rewrite ?Hpred. cbn [rbind]. rewrite (like_partition _ _ _ _ _ LK), P1, P2.
  unfold pure_merge in Hm. rewrite P2 in Hm. cbn [sts_list] in Hm. rewrite Hm. unfold user_fun at 1. rewrite E2.
  eexists. split; [reflexivity|]. split; [now apply set_trace_wf|]. split; [exact U|]. split; [reflexivity|]. cbn. congruence.
Qed.
Lemma lifted_raises wrt D sgd (f : prog pyval) w r w1 e v m t1 t2 : structural wrt -> ok_prog f -> run f w [r] = (w1, Err e) -> like w r v m ->
  exists v', jit_call true t1 (sgd_body wrt t2 D sgd (user_fun f)) v m = (v', Err e) /\ like w r v' m /\ all_unchanged v v' /\ w_trace v' = w_trace v.
Proof.
  intros HS Hf Hrun LK0. pose proof LK0 as [W V N L Wv Vv NNv Lv Nv Ed Es].
  destruct (partition_ok_iff_state w r [] W V) as (d & s & Hd & Hs & Ws & E). cbn [partition_state rmap] in E.
  assert (Pv : parts_of (mkPure (One s) d) w r) by (split; [exact Hd|exact Hs]).
  destruct (parts_like _ w r v t1 W V N L Pv Wv Nv) as (v1 & Hm & LK & U1 & T1 & N1 & R1).
  destruct (body_raises wrt D sgd f w r w1 e v1 _ t2 HS Hf Hrun LK) as (v2 & Eb & W2 & U2 & T2 & N2).
  unfold jit_call. rewrite (like_partition _ _ _ _ _ LK0). unfold module_partition at 1. rewrite Hd, Hs. cbn [rbind partition_state].
  unfold jitted_fn. rewrite Hm, Eb. assert (U : all_unchanged v (set_trace v2 (w_trace v))) by (intros x o Ho; apply U2, U1, Ho).
  eexists. split; [reflexivity|]. split; [|split; [exact U|reflexivity]].
  eapply unchanged_like; [exact LK0| | | |]; [now apply set_trace_wf|exact U|cbn; congruence|reflexivity].
Qed.
Lemma pure_raises wrt D sgd (f : prog pyval) w r w1 e v0 v p t1 t2 : structural wrt -> ok_prog f -> run f w [r] = (w1, Err e) -> holds v0 w r v p ->
  exists v', pure_step wrt t1 t2 D sgd (user_fun f) v p = (v', Err e) /\ holds v0 w r v' p.
Proof.
  intros HS Hf Hrun [W V N L Wv Nv Tv Ov Pv].
  destruct (parts_like p w r v t1 W V N L Pv Wv Nv) as (v1 & Hm & LK & U1 & T1 & N1 & R1).
  destruct (body_raises wrt D sgd f w r w1 e v1 _ t2 HS Hf Hrun LK) as (v2 & Eb & W2 & U2 & T2 & N2).
  unfold pure_step. rewrite Hm, Eb. eexists. split; [reflexivity|]. constructor; auto.
  - now apply set_trace_wf.
  - cbn. congruence.
  - intros x o Ho. apply U2, U1, Ov, Ho.
Qed.
Lemma functional_raises D sgd (f : prog pyval) w r w1 e v a b d t : ok_prog f -> run f w [r] = (w1, Err e) ->
  wf_world w -> valid w r -> names_ok w r -> live w r -> wf_world v -> w_nodes v = w_nodes w ->
  module_partition w r [FType "Param"; FEllipsis] = Ok (mkPure (Many [a; b]) d) ->
  exists v', functional_step t D sgd d (user_fun f) v a b = (v', Err e) /\ all_unchanged v v' /\ wf_world v' /\ w_nodes v' = w_nodes v /\ w_trace v' = w_trace v.
Proof.
  intros Hf Hrun W V N L Wv Nv Hp.
  assert (P1 : module_partition w r [FPred (fun _ x => isinstance x "Param"); FEllipsis] = Ok (mkPure (Many [a; b]) d)) by exact Hp.
  assert (PA := partition_parts _ w r _ W V P1).
  destruct (loss_fn_ok f w r v a b d t w1 (Err e) Hf W V N L Wv Nv PA Hrun) as (v' & U & Wv' & Nv' & Tv' & El).
  unfold functional_step. rewrite El. exists v'. auto.
Qed.
Lemma tune_raises wrt D sgd (f : prog pyval) w r w1 e v a b d t : structural wrt -> ok_prog f -> run f w [r] = (w1, Err e) ->
  wf_world w -> valid w r -> names_ok w r -> live w r -> wf_world v -> w_nodes v = w_nodes w ->
  module_partition w r [wrt; FEllipsis] = Ok (mkPure (Many [a; b]) d) ->
  exists v', tune_step t D sgd d b (user_fun f) v a = (v', Err e) /\ all_unchanged v v' /\ wf_world v' /\ w_nodes v' = w_nodes v /\ w_trace v' = w_trace v.
Proof.
  intros (pr & Hpr & BC) Hf Hrun W V N L Wv Nv Hp.
  pose proof (not_ellipsis _ _ _ _ Hp) as He. rewrite (module_pred _ _ _ _ Hpr He) in Hp.
  assert (PA := partition_parts _ w r _ W V Hp).
  destruct (part_loss_ok f w r v a b d t w1 (Err e) Hf W V N L Wv Nv PA Hrun) as (v' & U & Wv' & Nv' & Tv' & El).
  unfold tune_step. rewrite El. exists v'. auto.
Qed.

(** ** Without a handler *)
Lemma lifted_app wrt t1 t2 D sgd l1 l2 w r : lifted_loop wrt t1 t2 D sgd (l1 ++ l2) w r =
  match lifted_loop wrt t1 t2 D sgd l1 w r with (w1, Ok _) => lifted_loop wrt t1 t2 D sgd l2 w1 r | (w1, Err e) => (w1, Err e) end.
Proof. revert w. induction l1 as [|x l1 IH]; intros w; cbn [app lifted_loop]; [reflexivity|]. destruct (jit_call true t1 _ w r) as [w1 [u|e]]; [apply IH|reflexivity]. Qed.
Lemma pure_app wrt t1 t2 D sgd l1 l2 w p : pure_loop wrt t1 t2 D sgd (l1 ++ l2) w p =
  match pure_loop wrt t1 t2 D sgd l1 w p with (w1, Ok p1) => pure_loop wrt t1 t2 D sgd l2 w1 p1 | (w1, Err e) => (w1, Err e) end.
Proof. revert w p. induction l1 as [|x l1 IH]; intros w p; cbn [app pure_loop]; [reflexivity|]. destruct (pure_step wrt t1 t2 D sgd x w p) as [w1 [u|e]]; [apply IH|reflexivity]. Qed.
Lemma functional_app t D sgd d l1 l2 w a b : functional_loop t D sgd d (l1 ++ l2) w a b =
  match functional_loop t D sgd d l1 w a b with (w1, Ok (a1, b1)) => functional_loop t D sgd d l2 w1 a1 b1 | (w1, Err e) => (w1, Err e) end.
Proof. revert w a b. induction l1 as [|x l1 IH]; intros w a b; cbn [app functional_loop]; [reflexivity|]. destruct (functional_step t D sgd d x w a b) as [w1 [[a1 b1]|e]]; [apply IH|reflexivity]. Qed.
Lemma tune_app t D sgd d b l1 l2 w a : tune_loop t D sgd d b (l1 ++ l2) w a =
  match tune_loop t D sgd d b l1 w a with (w1, Ok a1) => tune_loop t D sgd d b l2 w1 a1 | (w1, Err e) => (w1, Err e) end.
Proof. revert w a. induction l1 as [|x l1 IH]; intros w a; cbn [app tune_loop]; [reflexivity|]. destruct (tune_step t D sgd d b x w a) as [w1 [a1|e]]; [apply IH|reflexivity]. Qed.

(** ** With a handler *)
Lemma skip_lifted_ok wrt D sgd r l log : structural wrt -> differentiates D -> forall w w' v m t1 t2, In "jax.Array" (w_nodes w) -> trained_but D sgd wrt anything r w l log w' -> like w r v m ->
  exists v', skip_lifted wrt t1 t2 D sgd (map user_fun l) v m = (v', log) /\ like w' r v' m /\ apart v m v'.
Proof.
  intros HS HD w w' v m t1 t2 J T. revert v J. induction T as [w|w f w2 l log w3 T1 T IH|w f w1 e l log w3 Hf Hrun T IH]; intros v J H.
  - exists v. split; [reflexivity|]. split; [exact H|apply apart_refl].
  - destruct (lifted_loop_ok wrt D sgd r [f] HS HD w w2 v m t1 t2 J T1 H) as (v1 & E & H1 & A1). cbn [map lifted_loop] in E. cbn [map skip_lifted].
    destruct (jit_call true t1 _ v m) as [vv [[]|e]]; [|discriminate]. injection E as ->.
    assert (J2 : In "jax.Array" (w_nodes w2)). { rewrite <- (lk_nodes _ _ _ _ H1). inversion T1 as [|? ? ? ? ? ? ? ? ? Hf Hdiff Vd Hrun Hst _ Hpar Vp Hup T2]; subst. inversion T2; subst.
      destruct (lifted_step_ok wrt D sgd f w r diff w1 out params w2 v m t1 t2 HS HD J Hf Hdiff Vd Hrun Hst Hpar Vp Hup H) as (_ & _ & _ & _ & Nw). rewrite (lk_nodes _ _ _ _ H1), Nw. exact J. }
    destruct (IH v1 J2 H1) as (v2 & E2 & H2 & A2). rewrite E2. exists v2. split; [reflexivity|]. split; [exact H2|]. eapply apart_trans; eauto.
  - destruct (lifted_raises wrt D sgd f w r w1 e v m t1 t2 HS Hf Hrun H) as (v1 & E & H1 & U & T1). cbn [map skip_lifted]. rewrite E.
    destruct (IH v1 J H1) as (v2 & E2 & H2 & A2). rewrite E2. exists v2. split; [reflexivity|]. split; [exact H2|]. eapply apart_trans; [|exact A2]. apply unchanged_apart; auto; apply H.
Qed.
Lemma trained_nodes wrt D sgd Q r w l w' : structural wrt -> differentiates D -> In "jax.Array" (w_nodes w) -> trained D sgd wrt Q r w l w' ->
  wf_world w -> valid w r -> names_ok w r -> live w r -> wf_world w' /\ valid w' r /\ names_ok w' r /\ live w' r /\ w_nodes w' = w_nodes w.
Proof.
  intros HS HD J T. revert J. induction T as [w|w f diff w1 out params w2 l w3 Hf Hdiff Vd Hrun Hst _ Hpar Vp Hup T IH]; intros J W V N L; [auto|].
  destruct (step_like wrt D sgd f w r diff w1 out params w2 w r (0, 0) HS HD J Hf Hdiff Vd Hrun Hst Hpar Vp Hup (like_refl w r W V N L)) as (wy & _ & LK2 & _ & Nw & _).
  destruct IH as (A1 & A2 & A3 & A4 & A5); [now rewrite Nw|apply LK2..|]. do 4 (split; [assumption|]). congruence.
Qed.
Lemma skip_pure_ok wrt D sgd r l log : structural wrt -> differentiates D -> forall w w' v0 v p t1 t2, In "jax.Array" (w_nodes w) -> trained_but D sgd wrt anything r w l log w' -> holds v0 w r v p ->
  exists v' p', skip_pure wrt t1 t2 D sgd (map user_fun l) v p = (v', p', log) /\ holds v0 w' r v' p'.
Proof.
  intros HS HD w w' v0 v p t1 t2 J T. revert v p J. induction T as [w|w f w2 l log w3 T1 T IH|w f w1 e l log w3 Hf Hrun T IH]; intros v p J H.
  - exists v, p. auto.
  - destruct (pure_loop_ok wrt D sgd r [f] HS HD w w2 v0 v p t1 t2 J T1 H) as (v1 & p1 & E & H1). cbn [map pure_loop] in E. cbn [map skip_pure].
    destruct (pure_step wrt t1 t2 D sgd (user_fun f) v p) as [vv [pp|e]]; [|discriminate]. injection E as -> ->.
    assert (J2 : In "jax.Array" (w_nodes w2)). { destruct (trained_nodes wrt D sgd _ r w [f] w2 HS HD J T1) as (_ & _ & _ & _ & ->); auto; apply H. }
    destruct (IH v1 p1 J2 H1) as (v2 & p2 & E2 & H2). rewrite E2. exists v2, p2. auto.
  - destruct (pure_raises wrt D sgd f w r w1 e v0 v p t1 t2 HS Hf Hrun H) as (v1 & E & H1). cbn [map skip_pure]. rewrite E.
    destruct (IH v1 p J H1) as (v2 & p2 & E2 & H2). rewrite E2. exists v2, p2. auto.
Qed.
Lemma skip_functional_ok D sgd r l log : differentiates D -> forall w w' v a b d t, In "jax.Array" (w_nodes w) -> trained_but D sgd (FType "Param") (params_alone r) r w l log w' ->
  wf_world w -> valid w r -> names_ok w r -> live w r -> wf_world v -> w_nodes v = w_nodes w ->
  module_partition w r [FType "Param"; FEllipsis] = Ok (mkPure (Many [a; b]) d) ->
  exists v' a' b', skip_functional t D sgd d (map user_fun l) v a b = (v', (a', b'), log) /\
    module_partition w' r [FType "Param"; FEllipsis] = Ok (mkPure (Many [a'; b']) d) /\ all_unchanged v v' /\ w_trace v' = w_trace v.
Proof.
  intros HD w w' v a b d t J T. revert v a b J. induction T as [w|w f w2 l log w3 T1 T IH|w f w1 e l log w3 Hf Hrun T IH]; intros v a b J W V N L Wv Nv Hp.
  - exists v, a, b. repeat split; auto. intros x o Ho. exact Ho.
  - inversion T1 as [|? ? ? ? ? ? ? ? ? Hf Hdiff Vd Hrun Hst HQ Hpar Vp Hup T2]; subst. inversion T2; subst.
    destruct (functional_step_ok D sgd f w r diff w1 out params w2 v a b d t HD J Hf Hdiff Vd Hrun Hst HQ Hpar Vp Hup W V N L Wv Nv Hp)
      as (v1 & a1 & b1 & E & P1 & W2 & V2 & N2 & L2 & Nw & U1 & Wv1 & Nv1 & Tr1).
    cbn [map skip_functional]. rewrite E. destruct (IH v1 a1 b1) as (v2 & a2 & b2 & E2 & P2 & U2 & Tr2); auto; [now rewrite Nw|congruence|].
    rewrite E2. exists v2, a2, b2. split; [reflexivity|]. split; [exact P2|]. split; [intros x o Ho; apply U2, U1, Ho|congruence].
  - destruct (functional_raises D sgd f w r w1 e v a b d t Hf Hrun W V N L Wv Nv Hp) as (v1 & E & U1 & Wv1 & Nv1 & Tr1).
    cbn [map skip_functional]. rewrite E. destruct (IH v1 a b) as (v2 & a2 & b2 & E2 & P2 & U2 & Tr2); auto; [congruence|].
    rewrite E2. exists v2, a2, b2. split; [reflexivity|]. split; [exact P2|]. split; [intros x o Ho; apply U2, U1, Ho|congruence].
Qed.
