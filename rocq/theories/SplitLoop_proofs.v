(** SplitLoop_proofs: training on two States that two filters select. *)
From Coq Require Import Permutation Lia.
From Verif Require Import PyBase PyBaseFacts ValuesM Spec_Eq ValuesFacts FiltersM StateM Spec_State State_proofs ModuleM PureM Spec_Module Spec_Prog
  Graph_facts Dfs_proofs Build_proofs Bisim_proofs Skel_proofs RoundTrip_proofs Clone_proofs Update_proofs Write_proofs
  Laws_proofs Prog_proofs TransformM Transform_proofs History_proofs Leaf_proofs Scan_proofs Container_proofs ScanDeco_proofs Spec_Functional Functional_proofs
  GradFunM Spec_GradFun GradFun_proofs JitCacheM TrainLoopM Spec_TrainLoop TrainLoop_proofs FineTuneM Spec_FineTune FineTune_proofs SplitLoopM Spec_SplitLoop.
Local Open Scope string_scope.
Local Open Scope list_scope.

(** a second filter that takes all the rest *)
Lemma second_is_rest w r wrt second p : wf_world w -> valid w r -> module_partition w r [wrt; second] = Ok p ->
  module_partition w r [wrt; FEllipsis] = Ok p.
Proof.
  intros W V H. destruct (partition_ok_iff_state w r [wrt; second] W V) as (d & s & Hd & Hs & Ws & E). rewrite E in H.
  unfold module_partition. rewrite Hd, Hs. cbn [rbind].
  assert (Q : forall x, partition_state s [wrt; second] = Ok x -> partition_state s [wrt; FEllipsis] = Ok x).
  { intros x Hx. unfold partition_state, state_partition in *. destruct (split_state s [wrt; second]) as [l|e] eqn:E1; [|discriminate]. cbn [rbind] in Hx.
    destruct (split_state_ok s _ l Ws E1) as (ps & P1 & O1 & L1). cbn [rmapM] in P1. destruct (to_predicate wrt) as [pw|] eqn:Ew; [|discriminate]. cbn [rbind] in P1.
    destruct (to_predicate second) as [p2|] eqn:E2; [|discriminate]. cbn [rbind] in P1. injection P1 as <-. cbn in L1. subst l. cbn [last] in Hx.
    destruct (split_state s [wrt; FEllipsis]) as [l|e] eqn:E3.
    2:{ unfold split_state in E1, E3. cbn [ellipsis_misplaced is_ellipsis rmapM] in E1, E3. destruct (is_ellipsis wrt); [discriminate|]. cbn [orb] in E3. rewrite Ew in E3. cbn in E3. discriminate. }
    destruct (split_state_ok s _ l Ws E3) as (ps & P3 & _ & L3). cbn [rmapM] in P3. rewrite Ew in P3. cbn in P3. injection P3 as <-. cbn in L3. subst l. cbn [rbind last].
    destruct (sub_of [pw; p2] 2 s) as [|? ?] eqn:E4; [|discriminate].
    assert (A0 : sub_of [pw; fun _ _ => true] 0 s = sub_of [pw; p2] 0 s).
    { unfold sub_of. apply filter_ext. intros [k a]. cbn. destruct (pw k a); [reflexivity|]. destruct (p2 k a); reflexivity. }
    assert (A1 : sub_of [pw; fun _ _ => true] 1 s = sub_of [pw; p2] 1 s).
    { unfold sub_of in *. apply filter_ext_in. intros [k a] Hin. cbn. destruct (pw k a) eqn:Ep; [reflexivity|]. destruct (p2 k a) eqn:Eq; [reflexivity|].
      exfalso. assert (In (k, a) []) as []. rewrite <- E4. apply filter_In. split; [exact Hin|]. cbn. now rewrite Ep, Eq. }
    assert (A2 : sub_of [pw; fun _ _ => true] 2 s = []).
    { unfold sub_of. clear. induction s as [|[k a] s IH]; [reflexivity|]. cbn. destruct (pw k a); exact IH. }
    rewrite A2. cbn [removelast] in *. rewrite A0, A1. exact Hx. }
  destruct (partition_state s [wrt; second]) as [x|] eqn:Ex; [|discriminate]. cbn in H. injection H as <-. rewrite (Q x eq_refl). reflexivity.
Qed.

Lemma aux_loss_ok aux pa (f : prog pyval) w r v a b d t w1 out : to_predicate aux = Ok pa ->
  ok_prog f -> wf_world w -> valid w r -> names_ok w r -> live w r -> wf_world v -> w_nodes v = w_nodes w ->
  parts_of (mkPure (Many [a; b]) d) w r -> run f w [r] = (w1, out) ->
  exists v', all_unchanged v v' /\ wf_world v' /\ w_nodes v' = w_nodes v /\ w_trace v' = w_trace v /\
    aux_loss aux t (user_fun f) d b v a =
      (v', match out with Err e => Err e | Ok y => do s1 <- get_state w1 r; Ok (y, chosen pa s1) end).
Proof.
  intros Ha Hf W V N L Wv Nv P E. assert (H : holds v w r v (mkPure (Many [a; b]) d)). { constructor; auto. intros x o Ho; exact Ho. }
  destruct (run_parts f v w r v _ t Hf H) as (w1' & res & v1 & v2 & E1 & Hm & E2 & W2 & V2 & L2 & N2 & Wv2 & Nv2 & U & S2 & D2).
  rewrite E in E1. injection E1 as <- <-. exists (set_trace v2 (w_trace v)). split; [exact U|]. split; [now apply set_trace_wf|]. split; [cbn; congruence|]. split; [reflexivity|].
  unfold aux_loss, mdef_apply. unfold pure_merge in Hm. cbn [p_def p_states sts_list] in Hm. rewrite Hm. unfold user_fun. rewrite E2. destruct out as [y|e]; [|reflexivity].
  destruct (get_state_total w1 r W2 V2) as (s1 & Gs1 & Ws1). destruct (get_module_def_total w1 r W2 V2) as (d1 & Gd1).
  unfold module_partition. rewrite D2, S2, Gs1, Gd1. cbn [rbind partition_state p_states one_state].
  rewrite (filter_sub s1 aux _ Ws1 Ha). reflexivity.
Qed.

Lemma aux_step_ok wrt pr aux pa D sgd (f : prog pyval) w r diff w1 out params w2 v a b d t :
  to_predicate wrt = Ok pr -> by_class pr -> is_ellipsis wrt = false -> to_predicate aux = Ok pa -> differentiates D -> In "jax.Array" (w_nodes w) ->
  ok_prog f -> module_filter w r wrt [] = Ok (One diff) -> variables diff ->
  run f w [r] = (w1, Ok out) -> steady w w1 r -> split_by wrt aux r w w1 ->
  module_filter w1 r wrt [] = Ok (One params) -> variables params ->
  update_state w1 r (UStates (One (moved sgd (D (loss_with false f w r) diff) diff params))) = (w2, Ok tt) ->
  wf_world w -> valid w r -> names_ok w r -> live w r -> wf_world v -> w_nodes v = w_nodes w ->
  module_partition w r [wrt; FEllipsis] = Ok (mkPure (Many [a; b]) d) ->
  exists v' a' b', aux_step aux t D sgd d (user_fun f) v a b = (v', Ok (a', b')) /\
    module_partition w2 r [wrt; FEllipsis] = Ok (mkPure (Many [a'; b']) d) /\
    wf_world w2 /\ valid w2 r /\ names_ok w2 r /\ live w2 r /\ w_nodes w2 = w_nodes w /\
    all_unchanged v v' /\ wf_world v' /\ w_nodes v' = w_nodes v /\ w_trace v' = w_trace v.
Proof.
  intros Hpr BC He Hau HD J Hf Hdiff Vd Hrun Hst [Q1 Q2] Hpar Vp Hup W V N L Wv Nv Hp.
  destruct (step_state wrt pr D sgd f w r diff w1 out params w2 Hpr BC HD J Hf Hdiff Vd Hrun Hst Hpar Vp Hup W V N L)
    as (s & s1 & s2 & Gs & Gs1 & Gs2 & Ws & Ws1 & Ws2 & Ediff & Epar & O1 & O2 & Wr2 & Vr2 & Nr2 & Lr2 & Nw & (St1 & St2 & St3)).
  assert (Eq : params = diff) by congruence.
  destruct (chosen_parts w r pr W V) as (s' & d' & Gs' & _ & Gd & Ep). rewrite Gs in Gs'. injection Gs' as <-.
  rewrite (module_pred _ _ _ _ Hpr He) in Hp. pose proof Hp as P1. rewrite Ep in Hp. injection Hp as <- <- <-. rewrite <- Ediff in *.
  assert (PA := partition_parts _ w r _ W V P1).
  destruct (aux_loss_ok aux pa f w r v diff (left_over pr s) d' t w1 (Ok out) Hau Hf W V N L Wv Nv PA Hrun) as (v' & U & Wv' & Nv' & Tv' & El).
  rewrite Gs1 in El. cbn [rbind] in El. unfold aux_step. rewrite El.
  assert (EG : forall k x, D (fun d0 => match snd (aux_loss aux t (user_fun f) d' (left_over pr s) v d0) with Ok (y, _) => Some y | Err _ => None end) diff k x = D (loss_with false f w r) diff k x).
  { apply HD. intros d0 Pt. destruct (point_update w r _ _ diff (left_over pr s) d0 W V N L J P1 eq_refl Pt) as (wp & Eu & Wp & Vp' & Np & Lp & Nwp & PAp). cbn [p_def] in PAp.
    unfold loss_with. rewrite Eu. destruct (run f wp [r]) as [wq res] eqn:Er.
    destruct (aux_loss_ok aux pa f wp r v d0 (left_over pr s) d' t wq res Hau Hf Wp Vp' Np Lp Wv (eq_trans Nv (eq_sym Nwp)) PAp Er) as (vz & _ & _ & _ & _ & Ez). rewrite Ez. cbn [snd].
    destruct res as [y|e]; [|reflexivity]. destruct (run_live f wp r wq _ Hf Wp Vp' Np Lp Er) as (Wq & Vq & _). destruct (get_state_total wq r Wq Vq) as (sq & Gq & _). rewrite Gq. reflexivity. }
  rewrite (grad_tree_ext _ _ diff EG).
  assert (ND : NoDup (keys diff)). { rewrite Ediff. apply wf_NoDup. exact (filter_state pr s Ws). }
  rewrite (tree_map2_moved sgd _ diff diff); auto.
  2:{ clear -ND. induction diff as [|[k x] l IH]; [constructor|]. inversion ND as [|? ? _ N2]; subst. constructor; [split; [reflexivity|destruct x; cbn; auto]|now apply IH]. }
  2:{ intros k x Hx. rewrite Ediff in Hx. apply (filter_get s pr) in Hx as [Hx _]; [|now apply wf_NoDup]. apply (get_state_plain w r s W Gs k). now apply dget_In. }
  cbn [rbind]. destruct (chosen_parts w2 r pr Wr2 Vr2) as (s2' & d2 & Gs2' & _ & Gd2 & Ep2). rewrite Gs2 in Gs2'. injection Gs2' as <-.
  eexists v', _, _. split; [reflexivity|]. split.
  { rewrite (module_pred _ _ _ _ Hpr He), Ep2. assert (d2 = d') by congruence. subst d2. rewrite O1, O2, Eq. do 3 f_equal. f_equal. f_equal.
    unfold left_over, chosen. apply filter_ext_in. intros [k x] Hx. cbn. symmetry. apply (Q2 pr pa s1 k x Hpr Hau Gs1). apply In_dget; [now apply wf_NoDup|exact Hx]. }
  do 8 (split; [assumption|]). assumption.
Qed.

Lemma aux_loop_ok wrt aux pa D sgd r l : structural wrt -> to_predicate aux = Ok pa -> differentiates D ->
  forall w w' v a b d t, In "jax.Array" (w_nodes w) -> trained D sgd wrt (split_by wrt aux r) r w l w' ->
  wf_world w -> valid w r -> names_ok w r -> live w r -> wf_world v -> w_nodes v = w_nodes w ->
  module_partition w r [wrt; FEllipsis] = Ok (mkPure (Many [a; b]) d) ->
  exists v' a' b', aux_loop aux t D sgd d (map user_fun l) v a b = (v', Ok (a', b')) /\
    module_partition w' r [wrt; FEllipsis] = Ok (mkPure (Many [a'; b']) d) /\ all_unchanged v v' /\ w_trace v' = w_trace v /\
    wf_world w' /\ valid w' r /\ names_ok w' r /\ live w' r /\ wf_world v' /\ w_nodes v' = w_nodes w'.
Proof.
  intros (pr & Hpr & BC) Hau HD w w' v a b d t J T. revert v a b J. induction T as [w|w f diff w1 out params w2 l w3 Hf Hdiff Vd Hrun Hst HQ Hpar Vp Hup T IH]; intros v a b J W V N L Wv Nv Hp.
  - exists v, a, b. split; [reflexivity|]. split; [exact Hp|]. split; [intros x o Ho; exact Ho|]. split; [reflexivity|]. auto 8.
  - pose proof (not_ellipsis _ _ _ _ Hp) as He.
    destruct (aux_step_ok wrt pr aux pa D sgd f w r diff w1 out params w2 v a b d t Hpr BC He Hau HD J Hf Hdiff Vd Hrun Hst HQ Hpar Vp Hup W V N L Wv Nv Hp)
      as (v1 & a1 & b1 & E & P1 & W2 & V2 & N2 & L2 & Nw & U1 & Wv1 & Nv1 & T1).
    cbn [map aux_loop]. rewrite E. destruct (IH v1 a1 b1) as (v2 & a2 & b2 & E2 & P2 & U2 & T2 & R); auto; [now rewrite Nw|congruence|].
    exists v2, a2, b2. split; [exact E2|]. split; [exact P2|]. split; [intros x o Ho; apply U2, U1, Ho|]. split; [congruence|exact R].
Qed.
