(** FineTune_proofs: training on the selected part of a model does what training the model
    itself does, and leaves the rest. *)
From Coq Require Import Permutation Lia.
From Verif Require Import PyBase PyBaseFacts ValuesM Spec_Eq ValuesFacts FiltersM StateM Spec_State State_proofs ModuleM PureM Spec_Module Spec_Prog
  Graph_facts Dfs_proofs Build_proofs Bisim_proofs Skel_proofs RoundTrip_proofs Clone_proofs Update_proofs Write_proofs
  Laws_proofs Prog_proofs TransformM Transform_proofs History_proofs Leaf_proofs Scan_proofs Container_proofs ScanDeco_proofs Spec_Functional Functional_proofs
  GradFunM Spec_GradFun GradFun_proofs JitCacheM TrainLoopM Spec_TrainLoop TrainLoop_proofs FineTuneM Spec_FineTune.
Local Open Scope string_scope.
Local Open Scope list_scope.

Definition left_over (p : string -> attr -> bool) (s : state) : state := filter (fun ka => negb (p (fst ka) (snd ka))) s.

Lemma split_pred s wrt p : to_predicate wrt = Ok p -> is_ellipsis wrt = false ->
  partition_state s [wrt; FEllipsis] = partition_state s [FPred p; FEllipsis].
Proof.
  intros Hp He. unfold partition_state, state_partition, split_state. cbn [ellipsis_misplaced is_ellipsis rmapM]. rewrite He, Hp. reflexivity.
Qed.
Lemma not_ellipsis w r wrt p : module_partition w r [wrt; FEllipsis] = Ok p -> is_ellipsis wrt = false.
Proof.
  unfold module_partition. destruct (get_module_def w r); [|discriminate]. destruct (get_state w r); [|discriminate]. cbn [rbind].
  destruct wrt; try reflexivity. cbn. discriminate.
Qed.
Lemma module_pred w r wrt p : to_predicate wrt = Ok p -> is_ellipsis wrt = false ->
  module_partition w r [wrt; FEllipsis] = module_partition w r [FPred p; FEllipsis].
Proof. intros Hp He. unfold module_partition. destruct (get_module_def w r); [|reflexivity]. destruct (get_state w r); [|reflexivity]. cbn [rbind]. now rewrite (split_pred _ _ _ Hp He). Qed.

Lemma chosen_parts w r pr : wf_world w -> valid w r ->
  exists s d, get_state w r = Ok s /\ wf_state s /\ get_module_def w r = Ok d /\
    module_partition w r [FPred pr; FEllipsis] = Ok (mkPure (Many [chosen pr s; left_over pr s]) d).
Proof.
  intros W V. destruct (grad_parts w r (FPred pr) pr W V eq_refl) as (diff & nondiff & p & H1 & H2 & H3).
  destruct (parts_two w r _ p W V H1) as (s & diff' & nondiff' & Gs & Ws & Es & W1 & W2 & D1 & D2). rewrite H2 in Es. injection Es as <- <-.
  destruct (partition_ok_iff_state w r [FPred pr; FEllipsis] W V) as (d & s' & Hd & Hs & _ & E). rewrite Gs in Hs. injection Hs as <-.
  exists s, d. split; [exact Gs|]. split; [exact Ws|]. split; [exact Hd|].
  assert (ND := wf_NoDup _ Ws).
  assert (X : diff = chosen pr s /\ nondiff = left_over pr s).
  { split; apply state_ext; auto.
    - exact (filter_state pr s Ws).
    - intros k. destruct (dget k diff) as [a|] eqn:Ea.
      + symmetry. apply (filter_get s pr k a ND). now apply D1.
      + destruct (dget k (chosen pr s)) as [a|] eqn:Eb; [|reflexivity]. apply (filter_get s pr k a ND) in Eb. apply D1 in Eb. congruence.
    - exact (filter_state (fun k a => negb (pr k a)) s Ws).
    - intros k. destruct (dget k nondiff) as [a|] eqn:Ea.
      + symmetry. apply (filter_get s (fun k a => negb (pr k a)) k a ND). apply D2 in Ea as [Q1 Q2]. rewrite Q2. auto.
      + destruct (dget k (left_over pr s)) as [a|] eqn:Eb; [|reflexivity]. apply (filter_get s (fun k a => negb (pr k a)) k a ND) in Eb as [Q1 Q2].
        apply negb_true_iff in Q2. assert (dget k nondiff = Some a) by (apply D2; auto). congruence. }
  destruct X as [-> ->]. rewrite H1. f_equal. rewrite H1 in E.
  destruct p as [x y]. cbn in H2. subst x. destruct (partition_state s [FPred pr; FEllipsis]) as [z|]; [|discriminate]. cbn in E. injection E as -> ->. reflexivity.
Qed.

Lemma over_chosen pr w s d : by_class pr -> wf_state s -> fits w s d -> variables (chosen pr s) -> keys d = keys (chosen pr s) ->
  chosen pr (on_values (over d) s) = d /\ left_over pr (on_values (over d) s) = left_over pr s.
Proof.
  intros BC Ws [ND F] V K.
  assert (G : forall s0, (forall k a, In (k, a) s0 -> dget k s = Some a) ->
     map fst (chosen pr (on_values (over d) s0)) = map fst (chosen pr s0) /\ left_over pr (on_values (over d) s0) = left_over pr s0 /\
     (forall k b, In (k, b) (chosen pr (on_values (over d) s0)) -> dget k d = Some b)).
  { induction s0 as [|[k a] s0 IH]; intros H; [repeat split; contradiction|]. destruct IH as (I1 & I2 & I3); [intros j b Hj; apply H; now right|].
    assert (Ha : dget k s = Some a) by (apply H; now left). unfold chosen, left_over in *. cbn [on_values map filter fst snd]. change (map (fun ka => (fst ka, over d (fst ka) (snd ka))) s0) with (on_values (over d) s0).
    destruct (dget k d) as [b|] eqn:Eb.
    - assert (Ip : dget k (chosen pr s) = Some a).
      { destruct (dget k (chosen pr s)) as [a'|] eqn:Ea'; [apply (filter_get s pr) in Ea' as [Q _]; [congruence|now apply wf_NoDup]|].
        apply dget_None in Ea'. unfold chosen in Ea'. rewrite <- K in Ea'. apply dget_None in Ea'. congruence. }
      destruct (F k b Eb) as (a' & Ha' & Sh & _). assert (a' = a) by congruence. subst a'. assert (IS : pr k b = pr k a) by (apply shape_chosen; [exact BC|exact Sh|left; apply (V k a Ip)]).
      apply (filter_get s pr) in Ip as [_ Ip]; [|now apply wf_NoDup]. assert (EO : over d k a = b) by (unfold over; now rewrite Eb).
      cbn [fst snd]. rewrite EO, IS, Ip. cbn [negb map fst]. split; [now rewrite I1|]. split; [exact I2|]. intros j c [[= <- <-]|Hj]; [exact Eb|now apply I3].
    - assert (Ip : pr k a = false).
      { destruct (pr k a) eqn:Ei; [|reflexivity]. assert (Q : dget k (chosen pr s) = Some a) by (apply (filter_get s pr); [now apply wf_NoDup|auto]).
        apply dget_In_keys in Q. unfold chosen in Q. rewrite <- K in Q. apply dget_None in Eb. contradiction. }
      assert (EO : over d k a = a) by (unfold over; now rewrite Eb). cbn [fst snd]. rewrite EO, Ip. cbn [negb]. split; [exact I1|]. split; [now rewrite I2|exact I3]. }
  destruct (G s) as (G1 & G2 & G3); [intros k a Hk; apply In_dget; [now apply wf_NoDup|exact Hk]|]. split; [|exact G2].
  apply dict_ext.
  - change (NoDup (map fst (chosen pr (on_values (over d) s)))). rewrite G1. change (NoDup (keys (chosen pr s))). rewrite <- K. exact ND.
  - change (map fst (chosen pr (on_values (over d) s)) = keys d). rewrite G1. now symmetry.
  - intros k. destruct (dget k (chosen pr (on_values (over d) s))) as [b|] eqn:Eb; [symmetry; apply G3; now apply dget_In|].
    symmetry. apply dget_None. rewrite K. apply dget_None in Eb. unfold keys in *. rewrite <- G1. exact Eb.
Qed.

Lemma part_loss_ok (f : prog pyval) w r v a b d t w1 out : ok_prog f -> wf_world w -> valid w r -> names_ok w r -> live w r -> wf_world v -> w_nodes v = w_nodes w ->
  parts_of (mkPure (Many [a; b]) d) w r -> run f w [r] = (w1, out) ->
  exists v', all_unchanged v v' /\ wf_world v' /\ w_nodes v' = w_nodes v /\ w_trace v' = w_trace v /\ part_loss t (user_fun f) d b v a = (v', out).
Proof.
  intros Hf W V N L Wv Nv P E. assert (H : holds v w r v (mkPure (Many [a; b]) d)). { constructor; auto. intros x o Ho; exact Ho. }
  destruct (run_parts f v w r v _ t Hf H) as (w1' & res & v1 & v2 & E1 & Hm & E2 & W2 & V2 & L2 & N2 & Wv2 & Nv2 & U & S2 & D2).
  rewrite E in E1. injection E1 as <- <-. exists (set_trace v2 (w_trace v)). split; [exact U|]. split; [now apply set_trace_wf|]. split; [cbn; congruence|]. split; [reflexivity|].
  unfold part_loss, mdef_apply. unfold pure_merge in Hm. cbn [p_def p_states sts_list] in Hm. rewrite Hm. unfold user_fun. rewrite E2. destruct out as [y|e]; [|reflexivity].
  destruct (get_state_total w1 r W2 V2) as (s1 & Gs1 & Ws1). destruct (get_module_def_total w1 r W2 V2) as (d1 & Gd1).
  unfold module_partition. rewrite D2, S2, Gs1, Gd1. cbn [rbind partition_state]. reflexivity.
Qed.

(** what one step of training makes of the State *)
Lemma step_state wrt pr D sgd (f : prog pyval) w r diff w1 out params w2 :
  to_predicate wrt = Ok pr -> by_class pr -> differentiates D -> In "jax.Array" (w_nodes w) ->
  ok_prog f -> module_filter w r wrt [] = Ok (One diff) -> variables diff ->
  run f w [r] = (w1, Ok out) -> steady w w1 r ->
  module_filter w1 r wrt [] = Ok (One params) -> variables params ->
  update_state w1 r (UStates (One (moved sgd (D (loss_with false f w r) diff) diff params))) = (w2, Ok tt) ->
  wf_world w -> valid w r -> names_ok w r -> live w r ->
  exists s s1 s2, get_state w r = Ok s /\ get_state w1 r = Ok s1 /\ get_state w2 r = Ok s2 /\ wf_state s /\ wf_state s1 /\ wf_state s2 /\
    diff = chosen pr s /\ params = chosen pr s1 /\
    chosen pr s2 = moved sgd (D (loss_with false f w r) diff) diff params /\ left_over pr s2 = left_over pr s1 /\
    wf_world w2 /\ valid w2 r /\ names_ok w2 r /\ live w2 r /\ w_nodes w2 = w_nodes w /\ steady w w2 r.
Proof.
  intros Hpr BC HD J Hf Hdiff Vd Hrun Hst Hpar Vp Hup W V N L.
  assert (HS : structural wrt) by (exists pr; auto).
  destruct (step_like wrt D sgd f w r diff w1 out params w2 w r (0, 0) HS HD J Hf Hdiff Vd Hrun Hst Hpar Vp Hup (like_refl w r W V N L)) as (wy & _ & LK2 & _ & Nw & St & G2).
  destruct (run_live f w r w1 _ Hf W V N L Hrun) as (W1 & V1 & L1 & N1).
  destruct (get_state_total w r W V) as (s & Gs & Ws). destruct (get_state_total w1 r W1 V1) as (s1 & Gs1 & Ws1).
  pose proof LK2 as [Wr2 Vr2 Nr2 Lr2 _ _ _ _ _ _ _]. destruct (get_state_total w2 r Wr2 Vr2) as (s2 & Gs2 & Ws2).
  assert (Ediff : diff = chosen pr s). { unfold module_filter in Hdiff. rewrite Gs in Hdiff. cbn [rbind] in Hdiff. rewrite (filter_sub s wrt _ Ws Hpr) in Hdiff. now injection Hdiff as <-. }
  assert (Epar : params = chosen pr s1). { unfold module_filter in Hpar. rewrite Gs1 in Hpar. cbn [rbind] in Hpar. rewrite (filter_sub s1 wrt _ Ws1 Hpr) in Hpar. now injection Hpar as <-. }
  pose proof (G2 s1 Gs1) as G2'. rewrite Gs2 in G2'. injection G2' as E2.
  assert (FM : fits w1 s1 (moved sgd (D (loss_with false f w r) diff) diff params)). { rewrite Epar. apply (moved_fits pr w1 r); auto. now rewrite Epar in Vp. }
  destruct (over_chosen pr w1 s1 _ BC Ws1 FM) as [O1 O2]; [now rewrite <- Epar|rewrite moved_keys; now rewrite Epar|]. rewrite <- E2 in O1, O2.
  exists s, s1, s2. do 15 (split; [assumption|]). assumption.
Qed.

Lemma tune_step_ok wrt pr D sgd (f : prog pyval) w r diff w1 out params w2 v a b d t :
  to_predicate wrt = Ok pr -> by_class pr -> is_ellipsis wrt = false -> differentiates D -> In "jax.Array" (w_nodes w) ->
  ok_prog f -> module_filter w r wrt [] = Ok (One diff) -> variables diff ->
  run f w [r] = (w1, Ok out) -> steady w w1 r -> quiet r w w1 ->
  module_filter w1 r wrt [] = Ok (One params) -> variables params ->
  update_state w1 r (UStates (One (moved sgd (D (loss_with false f w r) diff) diff params))) = (w2, Ok tt) ->
  wf_world w -> valid w r -> names_ok w r -> live w r -> wf_world v -> w_nodes v = w_nodes w ->
  module_partition w r [wrt; FEllipsis] = Ok (mkPure (Many [a; b]) d) ->
  exists v' a', tune_step t D sgd d b (user_fun f) v a = (v', Ok a') /\
    module_partition w2 r [wrt; FEllipsis] = Ok (mkPure (Many [a'; b]) d) /\
    wf_world w2 /\ valid w2 r /\ names_ok w2 r /\ live w2 r /\ w_nodes w2 = w_nodes w /\
    all_unchanged v v' /\ wf_world v' /\ w_nodes v' = w_nodes v /\ w_trace v' = w_trace v.
Proof.
  intros Hpr BC He HD J Hf Hdiff Vd Hrun Hst HQ Hpar Vp Hup W V N L Wv Nv Hp.
  destruct (step_state wrt pr D sgd f w r diff w1 out params w2 Hpr BC HD J Hf Hdiff Vd Hrun Hst Hpar Vp Hup W V N L)
    as (s & s1 & s2 & Gs & Gs1 & Gs2 & Ws & Ws1 & Ws2 & Ediff & Epar & O1 & O2 & Wr2 & Vr2 & Nr2 & Lr2 & Nw & (St1 & St2 & St3)).
  unfold quiet in HQ. assert (s1 = s) by congruence. subst s1.
  destruct (chosen_parts w r pr W V) as (s' & d' & Gs' & _ & Gd & Ep). rewrite Gs in Gs'. injection Gs' as <-.
  rewrite (module_pred _ _ _ _ Hpr He) in Hp. pose proof Hp as P1. rewrite Ep in Hp. injection Hp as <- <- <-. rewrite <- Ediff in *.
  assert (PA := partition_parts _ w r _ W V P1).
  destruct (part_loss_ok f w r v diff (left_over pr s) d' t w1 (Ok out) Hf W V N L Wv Nv PA Hrun) as (v' & U & Wv' & Nv' & Tv' & El).
  unfold tune_step. rewrite El.
  assert (EG : forall k x, D (fun d0 => match snd (part_loss t (user_fun f) d' (left_over pr s) v d0) with Ok y => Some y | Err _ => None end) diff k x = D (loss_with false f w r) diff k x).
  { apply HD. intros d0 Pt. destruct (point_update w r _ _ diff (left_over pr s) d0 W V N L J P1 eq_refl Pt) as (wp & Eu & Wp & Vp' & Np & Lp & Nwp & PAp). cbn [p_def] in PAp.
    unfold loss_with. rewrite Eu. destruct (run f wp [r]) as [wq res] eqn:Er.
    destruct (part_loss_ok f wp r v d0 (left_over pr s) d' t wq res Hf Wp Vp' Np Lp Wv (eq_trans Nv (eq_sym Nwp)) PAp Er) as (vz & _ & _ & _ & _ & Ez). rewrite Ez. cbn [snd].
    destruct res as [y|e]; reflexivity. }
  rewrite (grad_tree_ext _ _ diff EG).
  assert (ND : NoDup (keys diff)). { rewrite Ediff. apply wf_NoDup. exact (filter_state pr s Ws). }
  rewrite (tree_map2_moved sgd _ diff diff); auto.
  2:{ clear -ND. induction diff as [|[k x] l IH]; [constructor|]. inversion ND as [|? ? _ N2]; subst. constructor; [split; [reflexivity|destruct x; cbn; auto]|now apply IH]. }
  2:{ intros k x Hx. rewrite Ediff in Hx. apply (filter_get s pr) in Hx as [Hx _]; [|now apply wf_NoDup]. apply (get_state_plain w r s W Gs k). now apply dget_In. }
  destruct (chosen_parts w2 r pr Wr2 Vr2) as (s2' & d2 & Gs2' & _ & Gd2 & Ep2). rewrite Gs2 in Gs2'. injection Gs2' as <-.
  eexists v', _. split; [reflexivity|]. split.
  { rewrite (module_pred _ _ _ _ Hpr He), Ep2. assert (d2 = d') by congruence. subst d2. rewrite O1, O2. now rewrite Epar. }
  do 8 (split; [assumption|]). assumption.
Qed.

Lemma tune_loop_ok wrt D sgd r l : structural wrt -> differentiates D -> forall w w' v a b d t, In "jax.Array" (w_nodes w) -> trained D sgd wrt (quiet r) r w l w' ->
  wf_world w -> valid w r -> names_ok w r -> live w r -> wf_world v -> w_nodes v = w_nodes w ->
  module_partition w r [wrt; FEllipsis] = Ok (mkPure (Many [a; b]) d) ->
  exists v' a', tune_loop t D sgd d b (map user_fun l) v a = (v', Ok a') /\
    module_partition w' r [wrt; FEllipsis] = Ok (mkPure (Many [a'; b]) d) /\ all_unchanged v v' /\ w_trace v' = w_trace v.
Proof.
  intros (pr & Hpr & BC) HD w w' v a b d t J T. revert v a J. induction T as [w|w f diff w1 out params w2 l w3 Hf Hdiff Vd Hrun Hst HQ Hpar Vp Hup T IH]; intros v a J W V N L Wv Nv Hp.
  - exists v, a. repeat split; auto. intros x o Ho. exact Ho.
  - pose proof (not_ellipsis _ _ _ _ Hp) as He.
    destruct (tune_step_ok wrt pr D sgd f w r diff w1 out params w2 v a b d t Hpr BC He HD J Hf Hdiff Vd Hrun Hst HQ Hpar Vp Hup W V N L Wv Nv Hp)
      as (v1 & a1 & E & P1 & W2 & V2 & N2 & L2 & Nw & U1 & Wv1 & Nv1 & T1).
    cbn [map tune_loop]. rewrite E. destruct (IH v1 a1) as (v2 & a2 & E2 & P2 & U2 & T2); auto; [now rewrite Nw|congruence|].
    exists v2, a2. split; [exact E2|]. split; [exact P2|]. split; [intros x o Ho; apply U2, U1, Ho|congruence].
Qed.

(** an entry that the filter does not select *)
Lemma frozen_ok wrt pr D sgd r k l : to_predicate wrt = Ok pr -> by_class pr -> differentiates D -> forall w w' a, In "jax.Array" (w_nodes w) -> trained D sgd wrt (keeps r k) r w l w' ->
  wf_world w -> valid w r -> names_ok w r -> live w r -> has_entry w r k a -> pr k a = false -> has_entry w' r k a.
Proof.
  intros Hpr BC HD w w' a J T. revert J. induction T as [w|w f diff w1 out params w2 l w3 Hf Hdiff Vd Hrun Hst HQ Hpar Vp Hup T IH]; intros J W V N L (s0 & G0 & Hk) Ha.
  - exists s0. auto.
  - destruct (step_state wrt pr D sgd f w r diff w1 out params w2 Hpr BC HD J Hf Hdiff Vd Hrun Hst Hpar Vp Hup W V N L)
      as (s & s1 & s2 & Gs & Gs1 & Gs2 & Ws & Ws1 & Ws2 & Ediff & Epar & O1 & O2 & Wr2 & Vr2 & Nr2 & Lr2 & Nw & _).
    apply IH; auto; [now rewrite Nw|]. assert (s0 = s) by congruence. subst s0. exists s2. split; [exact Gs2|].
    assert (H1 : dget k s1 = Some a) by (rewrite (HQ s s1 Gs Gs1); exact Hk).
    assert (H2 : dget k (left_over pr s1) = Some a). { apply (filter_get s1 (fun k a => negb (pr k a))); [now apply wf_NoDup|]. now rewrite Ha. }
    rewrite <- O2 in H2. apply (filter_get s2 (fun k a => negb (pr k a))) in H2 as [H2 _]; [exact H2|now apply wf_NoDup].
Qed.

(** *** Forward passes that write anything *)
Lemma step_alone wrt pr D sgd (f : prog pyval) w r diff w1 out v a b d t :
  to_predicate wrt = Ok pr -> by_class pr -> is_ellipsis wrt = false -> differentiates D -> In "jax.Array" (w_nodes w) ->
  ok_prog f -> module_filter w r wrt [] = Ok (One diff) -> variables diff ->
  run f w [r] = (w1, Ok out) ->
  wf_world w -> valid w r -> names_ok w r -> live w r -> wf_world v -> w_nodes v = w_nodes w ->
  module_partition w r [wrt; FEllipsis] = Ok (mkPure (Many [a; b]) d) ->
  exists v' a' w2, tune_step t D sgd d b (user_fun f) v a = (v', Ok a') /\
    update_state w r (UStates (One (moved sgd (D (loss_with false f w r) diff) diff diff))) = (w2, Ok tt) /\
    module_partition w2 r [wrt; FEllipsis] = Ok (mkPure (Many [a'; b]) d) /\
    wf_world w2 /\ valid w2 r /\ names_ok w2 r /\ live w2 r /\ w_nodes w2 = w_nodes w /\
    all_unchanged v v' /\ wf_world v' /\ w_nodes v' = w_nodes v /\ w_trace v' = w_trace v.
Proof.
  intros Hpr BC He HD J Hf Hdiff Vd Hrun W V N L Wv Nv Hp.
  destruct (chosen_parts w r pr W V) as (s & d' & Gs & Ws & Gd & Ep).
  assert (Ediff : diff = chosen pr s). { unfold module_filter in Hdiff. rewrite Gs in Hdiff. cbn [rbind] in Hdiff. rewrite (filter_sub s wrt _ Ws Hpr) in Hdiff. now injection Hdiff as <-. }
  rewrite (module_pred _ _ _ _ Hpr He) in Hp. pose proof Hp as P1. rewrite Ep in Hp. injection Hp as <- <- <-. rewrite <- Ediff in *.
  assert (PA := partition_parts _ w r _ W V P1).
  destruct (part_loss_ok f w r v diff (left_over pr s) d' t w1 (Ok out) Hf W V N L Wv Nv PA Hrun) as (v' & U & Wv' & Nv' & Tv' & El).
  set (new := moved sgd (D (loss_with false f w r) diff) diff diff).
  assert (FM : fits w s new). { unfold new. rewrite Ediff at 3. apply (moved_fits pr w r); auto. now rewrite <- Ediff. }
  destruct (adopt w r s new W V N L Gs FM) as (w2 & Eu & W2 & V2 & N2 & L2 & G2 & D2 & T2 & Nw2 & _ & _).
  destruct (over_chosen pr w s new BC Ws FM) as [O1 O2]; [now rewrite <- Ediff|unfold new; rewrite moved_keys; now rewrite Ediff|].
  unfold tune_step. rewrite El.
  assert (EG : forall k x, D (fun d0 => match snd (part_loss t (user_fun f) d' (left_over pr s) v d0) with Ok y => Some y | Err _ => None end) diff k x = D (loss_with false f w r) diff k x).
  { apply HD. intros d0 Pt. destruct (point_update w r _ _ diff (left_over pr s) d0 W V N L J P1 eq_refl Pt) as (wp & Eu' & Wp & Vp' & Np & Lp & Nwp & PAp). cbn [p_def] in PAp.
    unfold loss_with. rewrite Eu'. destruct (run f wp [r]) as [wq res] eqn:Er.
    destruct (part_loss_ok f wp r v d0 (left_over pr s) d' t wq res Hf Wp Vp' Np Lp Wv (eq_trans Nv (eq_sym Nwp)) PAp Er) as (vz & _ & _ & _ & _ & Ez). rewrite Ez. cbn [snd].
    destruct res as [y|e]; reflexivity. }
  rewrite (grad_tree_ext _ _ diff EG).
  assert (ND : NoDup (keys diff)). { rewrite Ediff. apply wf_NoDup. exact (filter_state pr s Ws). }
  rewrite (tree_map2_moved sgd _ diff diff); auto.
  2:{ clear -ND. induction diff as [|[k x] l IH]; [constructor|]. inversion ND as [|? ? _ N2]; subst. constructor; [split; [reflexivity|destruct x; cbn; auto]|now apply IH]. }
  2:{ intros k x Hx. rewrite Ediff in Hx. apply (filter_get s pr) in Hx as [Hx _]; [|now apply wf_NoDup]. apply (get_state_plain w r s W Gs k). now apply dget_In. }
  destruct (chosen_parts w2 r pr W2 V2) as (s2 & d2 & Gs2 & _ & Gd2 & Ep2). rewrite G2 in Gs2. injection Gs2 as <-.
  exists v', new, w2. split; [reflexivity|]. split; [exact Eu|]. split.
  { rewrite (module_pred _ _ _ _ Hpr He), Ep2. assert (d2 = d') by congruence. subst d2. now rewrite O1, O2. }
  do 8 (split; [assumption|]). assumption.
Qed.

Lemma tune_any wrt D sgd r l more : structural wrt -> differentiates D -> forall w w' v a b d t, In "jax.Array" (w_nodes w) -> stepped D sgd wrt r w l w' ->
  wf_world w -> valid w r -> names_ok w r -> live w r -> wf_world v -> w_nodes v = w_nodes w ->
  module_partition w r [wrt; FEllipsis] = Ok (mkPure (Many [a; b]) d) ->
  exists v' a', tune_loop t D sgd d b (map user_fun (l ++ more)) v a = tune_loop t D sgd d b (map user_fun more) v' a' /\
    module_partition w' r [wrt; FEllipsis] = Ok (mkPure (Many [a'; b]) d) /\ all_unchanged v v' /\ w_trace v' = w_trace v /\
    wf_world w' /\ valid w' r /\ names_ok w' r /\ live w' r /\ w_nodes w' = w_nodes w /\ wf_world v' /\ w_nodes v' = w_nodes v.
Proof.
  intros (pr & Hpr & BC) HD w w' v a b d t J T. revert v a J. induction T as [w|w f diff w1 out w2 l w3 Hf Hdiff Vd Hrun Hup T IH]; intros v a J W V N L Wv Nv Hp.
  - exists v, a. split; [reflexivity|]. split; [exact Hp|]. split; [intros x o Ho; exact Ho|]. do 7 (split; [first [assumption|reflexivity]|]). first [assumption|reflexivity].
  - pose proof (not_ellipsis _ _ _ _ Hp) as He.
    destruct (step_alone wrt pr D sgd f w r diff w1 out v a b d t Hpr BC He HD J Hf Hdiff Vd Hrun W V N L Wv Nv Hp)
      as (v1 & a1 & w2' & E & Eu & P1 & W2 & V2 & N2 & L2 & Nw & U1 & Wv1 & Nv1 & T1).
    rewrite Hup in Eu. injection Eu as <-.
    cbn [map app tune_loop]. rewrite E. destruct (IH v1 a1) as (v2 & a2 & E2 & P2 & U2 & T2 & A1 & A2 & A3 & A4 & A5 & A6 & A7); auto; [now rewrite Nw|congruence|].
    exists v2, a2. split; [exact E2|]. split; [exact P2|]. split; [intros x o Ho; apply U2, U1, Ho|]. split; [congruence|].
    repeat (split; [first [assumption|congruence]|]). congruence.
Qed.
Lemma stepped_frozen wrt pr D sgd r k l : to_predicate wrt = Ok pr -> by_class pr -> forall w w' a, stepped D sgd wrt r w l w' ->
  wf_world w -> valid w r -> names_ok w r -> live w r -> has_entry w r k a -> pr k a = false -> has_entry w' r k a.
Proof.
  intros Hpr BC w w' a T. induction T as [w|w f diff w1 out w2 l w3 Hf Hdiff Vd Hrun Hup T IH]; intros W V N L (s & Gs & Hk) Ha.
  - exists s. auto.
  - destruct (get_state_total w r W V) as (s' & Gs' & Ws). rewrite Gs in Gs'. injection Gs' as <-.
    assert (Ediff : diff = chosen pr s). { unfold module_filter in Hdiff. rewrite Gs in Hdiff. cbn [rbind] in Hdiff. rewrite (filter_sub s wrt _ Ws Hpr) in Hdiff. now injection Hdiff as <-. }
    set (new := moved sgd (D (loss_with false f w r) diff) diff diff) in *.
    assert (FM : fits w s new). { unfold new. rewrite Ediff at 3. apply (moved_fits pr w r); auto. now rewrite <- Ediff. }
    destruct (adopt w r s new W V N L Gs FM) as (w2' & Eu & W2 & V2 & N2 & L2 & G2 & _).
    destruct (over_chosen pr w s new BC Ws FM) as [O1 O2]; [now rewrite <- Ediff|unfold new; rewrite moved_keys; now rewrite Ediff|].
    rewrite Hup in Eu. injection Eu as <-. apply IH; auto. exists (on_values (over new) s). split; [exact G2|].
    assert (H2 : dget k (left_over pr s) = Some a). { apply (filter_get s (fun k a => negb (pr k a))); [now apply wf_NoDup|]. now rewrite Ha. }
    rewrite <- O2 in H2. destruct (get_state_total w2 r W2 V2) as (s2 & Gs2 & Ws2). rewrite G2 in Gs2. injection Gs2 as <-.
    apply (filter_get _ (fun k a => negb (pr k a))) in H2 as [H2 _]; [exact H2|now apply wf_NoDup].
Qed.
