(** Proofs about HandScanM. *)
From Coq Require Import ZArith Lia.
From Verif Require Import PyBase PyBaseFacts ValuesM Spec_Eq ValuesFacts FiltersM StateM Spec_State State_proofs ModuleM SpmdM ContextM TransformM ScanM ScanInitM HandScanM.
From Verif Require Import Spec_Module Spec_Prog Spec_Context Spec_Scan Spec_ScanInit Spec_HandScan.
From Verif Require Import Graph_facts Dfs_proofs Bisim_proofs Mdef_proofs RoundTrip_proofs Clone_proofs Laws_proofs History_proofs Prog_proofs Context_proofs Transform_proofs Scan_proofs ScanRng_proofs ScanInit_proofs.
Local Open Scope string_scope.
Local Open Scope list_scope.

Lemma wf_same_keys (s s' : state) : keys s' = keys s -> wf_state s -> wf_state s'.
Proof. unfold wf_state, keys_increasing, keys. now intros ->. Qed.

Lemma partition_covered g s : wf_state s -> valid_filter g -> covered g s -> partition_state s [g] = Ok (One s).
Proof.
  intros W V C. cbn [partition_state]. destruct (proj2 (partition_ok_iff s g [] W)) as [x E].
  { split; [repeat constructor; exact V|]. split; [|intros k v D; exists g; split; [now left|exact (C k v D)]].
    apply misplaced_spec. destruct g; reflexivity. }
  rewrite E. destruct (partition_inv _ _ _ _ W E) as (ps & _ & _ & _ & _ & P). destruct (partition_entries _ _ _ _ W E) as [L N].
  pose proof (partition_outputs_wf _ _ _ _ W E) as O. destruct (sts_list x) as [|y [|? ?]]; try discriminate. inversion O as [|? ? O1 _]; subst.
  cbn [pack]. do 2 f_equal. rewrite mk_state_id by exact O1. apply state_ext; auto. intros k.
  destruct (dget k s) as [a|] eqn:D.
  - apply (N 0 y k a eq_refl). split; [exact D|]. split; [exists g; split; [reflexivity|now apply C]|]. intros j; lia.
  - destruct (dget k y) as [a|] eqn:Dy; [|reflexivity]. apply (N 0 y k a eq_refl) in Dy as [Dy _]. congruence.
Qed.

Lemma partition_uncovered g s k a : wf_state s -> valid_filter g -> dget k s = Some a -> ~ matches g k a -> partition_state s [g] = Err ValueError.
Proof.
  intros W V D N. cbn [partition_state]. destruct (state_partition s g []) as [x|e] eqn:E.
  - exfalso. destruct (proj1 (partition_ok_iff s g [] W) (ex_intro _ x E)) as (_ & _ & H). destruct (H k a D) as (h & [<-|[]] & M). contradiction.
  - destruct (partition_error _ _ _ _ W E) as [->|[_ H]]; [reflexivity|]. exfalso. apply H. repeat constructor. exact V.
Qed.

Lemma ctx_merges name stm fl n i cur : exists y, pctx_merge cur (turn_ctx name stm fl n i) [] = Ok y.
Proof. unfold pctx_merge, turn_ctx. cbn [pc_keys pc_counts merge_streams dget]. rewrite String.eqb_refl. eexists. reflexivity. Qed.

Lemma hand_key_one cur name ctx j stm ss : x_rngs ctx = [(name, j)] -> nth_error ss j = Some stm -> x_trace ctx = cur ->
  hand_key cur name ctx ss = (Ok (mkPctx [(name, s_key stm)] [(name, s_path stm ++ [s_count stm])] (x_flags ctx), s_key stm), list_set j (bump stm) ss).
Proof.
  intros R E T. unfold hand_key, context_partition. rewrite T. replace (trace_ok cur cur) with true by (unfold trace_ok; now rewrite !Nat.eqb_refl).
  cbn [negb]. rewrite R. cbn [fork_all]. rewrite E. cbn. now rewrite String.eqb_refl.
Qed.

Section Hand.
Context (J : arrays) (name : string) (g : filt) (f : pctx -> pyval -> prog pyval).
Context (HJ : arrays_ok J) (Hf : forall pc x, ok_prog (f pc x)) (Hg : valid_filter g).
Context (w : world) (r : nat) (d : mdef) (s : state).
Context (Hw : wf_world w) (Hr : valid w r) (Hd : get_module_def w r = Ok d) (Hs : get_state w r = Ok s).
Definition hf : layer_fn := fun pc x => user_fun (f pc x).

Lemma hand_graph : exists L, graph w r d L.
Proof. destruct (graph_exists w r Hw Hr) as (d' & L & G). exists L. pose proof (get_module_def_graph _ _ _ _ Hw Hr G). congruence. Qed.
Lemma hand_wf_s : wf_state s.
Proof. destruct (get_state_total w r Hw Hr) as (s' & E & W). congruence. Qed.

Lemma in_turn_steps x layers outs x' : in_turn w d f x layers outs x' ->
  Forall (fun l => exists stm fl n i, fst l = turn_ctx name stm fl n i) layers ->
  Forall (fun l => plain_st (snd l)) layers -> Forall (covered g) outs ->
  forall wb, wf_world wb -> w_nodes wb = w_nodes w ->
  exists w2, hand_steps g hf d wb x layers = (w2, Ok (x', outs)) /\ good_after wb w2 /\ Forall wf_state outs /\ Forall plain_st outs.
Proof.
  destruct hand_graph as [L HL]. induction 1 as [x|x pc s0 x1 s1 rest outs x2 Hc Ht IH]; intros Hx Hp Ho wb Hwb Hn.
  - exists wb. split; [reflexivity|]. split; [now apply good_refl|auto].
  - inversion Hx as [|? ? (stm & fl & n & i & Hpc) Hx']; subst. inversion Hp as [|? ? Hp1 Hp']; subst. inversion Ho as [|? ? Ho1 Ho']; subst. cbn [fst snd] in *.
    destruct (call_transfer (f pc x) w r d L w wb [s0] x1 s1) as (m & w1 & w2 & M & F & G & W2 & V2 & U & T & N); auto.
    { constructor; [exact Hp1|constructor]. }
    assert (Hws : wf_state s1). { destruct (get_state_total w2 m W2 V2) as (s' & E & W). congruence. }
    assert (Hps : plain_st s1) by (eapply state_plain; eauto).
    destruct (IH Hx' Hp' Ho' w2 W2) as (w3 & E3 & G3 & O3 & P3); [congruence|].
    exists w3. split; [|split; [eapply good_trans; [|exact G3]; constructor; auto|auto]].
    cbn [hand_steps]. unfold hand_step. cbn [fst snd]. rewrite Hpc. destruct (ctx_merges name stm fl n i (w_trace wb)) as [y ->]. rewrite M. unfold hf at 1. rewrite <- Hpc, F.
    destruct (get_module_def_total w2 m W2 V2) as [d' Hd']. unfold module_partition. rewrite Hd', G. cbn [rbind].
    rewrite (partition_covered g s1 Hws Hg Ho1). cbn [rbind p_states]. rewrite E3. reflexivity.
Qed.
Lemma plain_slice n i big small : is_slice J 0 n i big small -> i < n -> plain_st big -> NoDup (keys big) -> plain_st small.
Proof.
  intros K3 Hlt P1 W1. pose proof K3 as [Ha Hsl]. apply Forall_forall. intros [k a'] Hin. cbn.
  assert (D : dget k small = Some a') by (apply In_dget; [rewrite <- (alike_keys _ _ Ha); exact W1|exact Hin]).
  destruct (alike_get _ _ k a' (alike_sym _ _ Ha) D) as (a & Da & Hk).
  destruct (Hsl k (val_of a)) as (ls & x & E1 & E2 & E3 & a'' & E4 & E5). { exists a. split; [exact Da|destruct a; reflexivity]. }
  assert (a'' = a') by congruence. subst a''. pose proof (ao_slices J HJ _ _ _ _ E1 (nth_error_In _ _ E3)) as Hm.
  apply dget_In in Da. unfold plain_st in P1. rewrite Forall_forall in P1. destruct (P1 _ Da) as [Q1 Q2].
  destruct a as [v|c], a' as [v'|c']; try contradiction.
  - subst x. destruct v'; try contradiction; split; try exact Logic.I; reflexivity.
  - split; [|reflexivity]. cbn in Q1 |- *. destruct Hk as [H1 H2]. destruct c as [c1 c2 c3], c' as [d1 d2 d3]. cbn in *. subst. exact Q1.
Qed.

Definition turn_ok (ctx : context) (stm : stream) (layers : list (pctx * state)) : Prop :=
  forall i l, nth_error layers i = Some l ->
    fst l = turn_ctx name stm (x_flags ctx) (List.length layers) i /\ is_slice J 0 (List.length layers) i s (snd l).

Lemma turn_inputs ctx stm layers : layers <> [] -> turn_ok ctx stm layers ->
  exists sl, slice_state J 0 s = Ok sl /\ forallb (fun e => Nat.eqb (List.length (snd (snd e))) (List.length layers)) sl = true /\
    map (fun i => (turn_ctx name stm (x_flags ctx) (List.length layers) i, slice_at i sl)) (seq 0 (List.length layers)) = layers.
Proof.
  intros Hne Hok. pose proof (wf_NoDup _ hand_wf_s) as ND.
  destruct layers as [|l0 ls]; [congruence|]. set (layers := l0 :: ls) in *. destruct (Hok 0 l0 eq_refl) as [_ S0].
  destruct (slice_state_ok J 0 (List.length layers) 0 s ND (snd l0) S0) as (sl & E1 & E2 & E3 & E4); [cbn; lia|].
  exists sl. split; [exact E1|]. split.
  - apply forallb_forall. intros e He. rewrite Forall_forall in E3. apply Nat.eqb_eq. now apply E3.
  - apply nth_error_ext. intros i. destruct (nth_error layers i) as [l|] eqn:El.
    + assert (Hi : i < List.length layers) by (apply nth_error_Some; congruence). rewrite nth_error_map_seq by exact Hi. f_equal.
      destruct (Hok i l El) as [H1 H2]. destruct l as [lp lst]. cbn [fst snd] in *. rewrite H1. f_equal. symmetry. eapply is_slice_len; eauto.
    + apply nth_error_None in El. apply nth_error_None. now rewrite map_length, seq_length.
Qed.

Lemma hand_call_ok t x ctx j stm ss layers outs x' :
  names_ok w r -> live w r -> (forall k v l, dget k s = Some (ARaw v) -> node_value w (ARaw (a_stack J 0 l))) ->
  covered g s -> x_rngs ctx = [(name, j)] -> nth_error ss j = Some stm -> x_trace ctx = w_trace w ->
  layers <> [] -> turn_ok ctx stm layers ->
  in_turn w d f x layers outs x' -> Forall (covered g) outs -> Forall (alike s) outs ->
  exists w' s', hand_call J (List.length layers) name g t hf w r x ctx ss = (w', list_set j (bump stm) ss, Ok x') /\
    get_state w' r = Ok s' /\ is_stack J 0 outs s' /\ keys s' = keys s /\
    get_module_def w' r = Ok d /\ w_trace w' = w_trace w /\ (forall p, follow w' r p = follow w r p) /\
    (forall y ob, get_obj w y = Some ob -> ~ reaches w r y -> get_obj w' y = Some ob) /\
    wf_world w' /\ names_ok w' r /\ live w' r /\ w_nodes w' = w_nodes w.
Proof.
  intros Hno Hlive Hnode Hcov Hrng Hstm Htr Hne Hok Ht Hco Hal.
  pose proof hand_wf_s as Ws. pose proof (wf_NoDup _ Ws) as ND. pose proof (state_plain _ _ _ Hw Hs) as Pls.
  destruct (turn_inputs ctx stm layers Hne Hok) as (sl & S1 & S2 & S3).
  destruct (in_turn_steps x layers outs x' Ht) with (wb := set_trace w t) as (w1 & E1 & G1 & O1 & O2).
  { apply Forall_forall. intros l Hl. apply In_nth_error in Hl as [i Hi]. destruct (Hok i l Hi) as [H1 _]. eauto. }
  { apply Forall_forall. intros l Hl. apply In_nth_error in Hl as [i Hi]. destruct (Hok i l Hi) as [_ H2]. eapply plain_slice; eauto.
    apply nth_error_Some. congruence. }
  { exact Hco. } { now apply set_trace_wf. } { reflexivity. }
  apply good_trace in G1. set (w3 := set_trace w1 (w_trace w)) in *. destruct G1 as [W3 U3 T3 N3].
  destruct (unchanged_state w w3 r Hw W3 Hr U3 N3) as [Us Ud].
  assert (Hno' : outs <> []) by (destruct Ht; [congruence|discriminate]).
  destruct (stack_states_ok J 0 outs Hno') as (st & K1 & K2 & _).
  { exact O2. }
  { intros y z Hy Hz. rewrite Forall_forall in Hal. eapply alike_trans; [apply alike_sym, Hal; exact Hy|now apply Hal]. }
  { apply Forall_forall. intros y Hy. rewrite Forall_forall in O1. apply wf_NoDup. now apply O1. }
  assert (Ast : alike s st).
  { destruct outs as [|o outs]; [congruence|]. eapply alike_trans; [inversion Hal; eassumption|]. apply K2. now left. }
  destruct (update_state_effect w3 r (UStates (One st)) [st] s) as (w4 & E4 & UE); auto.
  { destruct (get_obj_ex _ _ Hr) as [ob Ho]. eapply get_obj_lt. apply U3. exact Ho. }
  { apply (unchanged_names w w3); auto. }
  { intros y ob Hy Ho. apply (unchanged_reaches w w3) in Hy; auto. rewrite (unchanged_get w w3 r y U3 Hy) in Ho. rewrite T3. eapply Hlive; eauto. }
  { congruence. }
  { discriminate. }
  { constructor; [|constructor]. rewrite <- (alike_keys _ _ Ast). exact ND. }
  { intros k a Hla. cbn in Hla. assert (D : dget k st = Some a) by (destruct (dget k st); congruence). clear Hla.
    destruct (alike_get _ _ k a (alike_sym _ _ Ast) D) as (old & Dold & Hk).
    pose proof (dget_In _ _ _ Dold) as Iold. unfold plain_st in Pls. rewrite Forall_forall in Pls. destruct (Pls _ Iold) as [Q1 Q2]. cbn in Q1, Q2.
    assert (Hcls : node_value w old) by (eapply get_state_nodes; eauto).
    destruct K2 as [_ B2]. destruct (B2 k (val_of a)) as (vs & _ & Ev). { exists a. split; [exact D|destruct a; reflexivity]. }
    destruct old as [v0|c0], a as [v|ca]; try contradiction.
    - cbn in Ev. subst v. pose proof (ao_stack J HJ 0 vs) as Hm.
      split; [destruct (a_stack J 0 vs); try contradiction; exact Logic.I|]. split; [destruct (a_stack J 0 vs); try contradiction; reflexivity|].
      exists (ARaw v0), (ARaw (a_stack J 0 vs)). split; [exact Dold|]. split; [reflexivity|]. destruct (Hnode k v0 vs Dold) as (tn & T1 & T2). exists tn. rewrite N3. auto.
    - split. { cbn in Q1 |- *. destruct Hk as [H1 H2]. destruct ca as [x1 x2 x3], c0 as [y1 y2 y3]. cbn in *. subst. exact Q1. }
      split; [reflexivity|]. exists (ACont c0), (ACont (mkCont (c_cls c0) (c_meta c0) (c_val ca))). split; [exact Dold|]. destruct Hk as [H1 H2].
      split; [cbn; repeat split; [congruence|rewrite <- H2; apply same_meta_refl]|]. destruct Hcls as (tn & T1 & T2). exists tn. rewrite N3. auto. }
  destruct (ue_state _ _ _ _ _ UE) as (s' & Q1 & Q2 & Q3).
  assert (Es' : s' = st).
  { assert (Ws' : wf_state s'). { destruct (get_state_total w4 r (ue_wf _ _ _ _ _ UE)) as (s'' & E & W); [|congruence]. unfold valid. destruct (ue_global _ _ _ _ _ UE) as (_ & _ & _ & ->).
      destruct (get_obj_ex _ _ Hr) as [ob Ho]. eapply get_obj_lt. apply U3. exact Ho. }
    assert (Wst : wf_state st). { unfold wf_state, keys_increasing in *. unfold keys in *. pose proof (alike_keys _ _ Ast) as AK. unfold keys in AK. rewrite <- AK. exact Ws. }
    apply state_ext; auto. intros k. destruct (dget k st) as [a|] eqn:D.
    - destruct (alike_get _ _ k a (alike_sym _ _ Ast) D) as (old & Dold & Hk). destruct (Q3 k old Dold) as (res & R1 & R2). rewrite R1. f_equal.
      cbn in R2. rewrite D in R2. destruct old as [v0|c0], a as [v|ca]; try contradiction; cbn in R2; [exact R2|]. destruct R2 as (_ & _ & ->). destruct Hk as [H1 H2].
      destruct ca as [x1 x2 x3], c0 as [y1 y2 y3]. cbn in *. now subst.
    - apply dget_None. rewrite Q2, (alike_keys _ _ Ast). now apply dget_None. }
  exists w4, s'. split.
  { unfold hand_call. rewrite (hand_key_one _ name ctx j stm ss Hrng Hstm Htr). unfold module_partition. rewrite Hd, Hs. cbn [rbind].
    rewrite (partition_covered g s Ws Hg Hcov). cbn [rbind p_states]. rewrite S1. cbn [rbind]. destruct (Nat.eqb_spec (List.length layers) 0) as [E0|_]; [destruct layers; [congruence|discriminate]|].
    rewrite S2. cbn [p_def]. unfold hand_ctx. cbn [pc_counts pc_flags]. unfold turn_ctx in S3. rewrite S3. rewrite E1, K1. fold w3. rewrite E4. reflexivity. }
  split; [exact Q1|]. split; [rewrite Es'; exact K2|]. split; [exact Q2|].
  split. { rewrite (ue_def _ _ _ _ _ UE), Ud. exact Hd. }
  split. { destruct (ue_global _ _ _ _ _ UE) as (_ & Q & _). congruence. }
  split. { intros p. rewrite (ue_follow _ _ _ _ _ UE). now apply unchanged_follow. }
  split. { intros y ob Ho Hy. rewrite (ue_frame _ _ _ _ _ UE); [now apply U3|]. intros Q. apply (unchanged_reaches w w3) in Q; auto. }
  split; [apply (ue_wf _ _ _ _ _ UE)|]. split; [apply (ue_names _ _ _ _ _ UE)|].
  destruct (ue_global _ _ _ _ _ UE) as (_ & Q4 & Q5 & _). split; [|congruence].
  intros y ob [p Hp] Ho. rewrite (ue_follow _ _ _ _ _ UE) in Hp. assert (Hx : reaches w r y) by (apply (unchanged_reaches w w3); auto; exists p; exact Hp).
  destruct (get_obj w y) as [ox|] eqn:Ex; [|destruct Hx as [q Hq]; apply follow_valid in Hq as [ob' Hq]; congruence].
  destruct (ue_objs _ _ _ _ _ UE y ox (U3 _ _ Ex)) as [dd Hdd]. assert (ob = set_vars ox dd) by congruence. subst ob. cbn. rewrite Q4, T3. eapply Hlive; eauto.
Qed.
End Hand.

(** ** The same as [nnx.scan] *)
Definition same_opts (g : filt) (name : string) (n : nat) : scan_opts :=
  mkScan [(g, 0%Z)] FNone FEllipsis (RStr name) 0%Z 0%Z (Some n) false None.

Lemma partition_three g s : wf_state s -> valid_filter g -> g <> FEllipsis -> covered g s ->
  partition_state s [g; FNone; FEllipsis] = Ok (Many [s; []; []]).
Proof.
  intros W V Ng C. cbn [partition_state]. destruct (proj2 (partition_ok_iff s g [FNone; FEllipsis] W)) as [x E].
  { split; [repeat constructor; exact V|]. split; [|intros k v D; exists g; split; [now left|exact (C k v D)]].
    intros [|[|[|i]]] H; cbn in H; try discriminate; [congruence|reflexivity|]. destruct i; discriminate. }
  rewrite E. destruct (partition_inv _ _ _ _ W E) as (ps & _ & _ & _ & _ & P). destruct (partition_entries _ _ _ _ W E) as [L N].
  pose proof (partition_outputs_wf _ _ _ _ W E) as O. destruct (sts_list x) as [|y [|y1 [|y2 [|? ?]]]]; try discriminate.
  inversion O as [|? ? O1 O']; subst. inversion O' as [|? ? O2 O'']; subst. inversion O'' as [|? ? O3 _]; subst.
  cbn [pack map]. rewrite !mk_state_id by assumption.
  assert (Ey : y = s).
  { apply state_ext; auto. intros k. destruct (dget k s) as [a|] eqn:D.
    - apply (N 0 y k a eq_refl). split; [exact D|]. split; [exists g; split; [reflexivity|now apply C]|]. intros j; lia.
    - destruct (dget k y) as [a|] eqn:Dy; [|reflexivity]. apply (N 0 y k a eq_refl) in Dy as [Dy _]. congruence. }
  assert (E1 : forall i z, nth_error [y; y1; y2] (S i) = Some z -> z = []).
  { intros i z Hz. destruct z as [|[k a] z]; [reflexivity|]. exfalso.
    assert (D : dget k ((k, a) :: z) = Some a) by (cbn; now rewrite String.eqb_refl).
    apply (N (S i) _ k a Hz) in D as [D [_ M]]. apply (M 0 g); [lia|reflexivity|now apply C]. }
  rewrite Ey, (E1 0 y1 eq_refl), (E1 1 y2 eq_refl). reflexivity.
Qed.

Lemma merge_pad w d (s : state) : merge w d ([s] ++ [[]; []]) = merge w d [s].
Proof. reflexivity. Qed.

Lemma call_scans w d h f pc x s x1 s1 : scans h f -> call_on w d [s] (f pc x) = Some (x1, s1) ->
  call_on w d ([s] ++ [[]; []]) (h (Some pc) x []) = Some ((x1, []), s1).
Proof.
  intros H C. unfold call_on in *. rewrite merge_pad. destruct (merge w d [s]) as [[m w1]|]; [|discriminate]. rewrite H.
  destruct (user_fun (f pc x) w1 m) as [w2 [y|e]]; [|discriminate]. destruct (get_state w2 m); [|discriminate]. now injection C as -> ->.
Qed.

Definition lift_in (l : pctx * state) : step_in := (Some (fst l), [snd l], []).
Lemma in_turn_loop w d h f g x layers outs x' name n : scans h f -> valid_filter g -> g <> FEllipsis ->
  in_turn w d f x layers outs x' -> Forall (covered g) outs -> Forall wf_state outs ->
  loop w d (o_filters (same_opts g name n)) h [] [] x (map lift_in layers) (map (fun o => ([o], [])) outs) (map (fun _ => []) outs) x'.
Proof.
  intros Hs Hv Hg. induction 1 as [x|x pc s0 x1 s1 rest outs x2 Hc Ht IH]; intros Ho Hw; [constructor|].
  inversion Ho; inversion Hw; subst. cbn [map]. unfold lift_in at 1. cbn [fst snd]. eapply loop_step.
  - apply (call_scans w d h f); eauto.
  - exact (partition_three g s1 H5 Hv Hg H1).
  - auto.
Qed.

Lemma arrays_at_fun k l v1 : Forall2 (array_at k) l v1 -> forall v2, Forall2 (array_at k) l v2 -> v1 = v2.
Proof.
  induction 1 as [|y v l l1 (a1 & X1 & X2) F1 IH]; intros v2 F2; inversion F2 as [|? v' ? l2 (a2 & Y1 & Y2) F3]; subst; [reflexivity|].
  assert (a1 = a2) by congruence. subst a2. f_equal. now apply IH.
Qed.
Lemma is_stack_unique J ax l s1 s2 : l <> [] -> is_stack J ax l s1 -> is_stack J ax l s2 -> wf_state s1 -> wf_state s2 -> s1 = s2.
Proof.
  intros Hne [A1 B1] [A2 B2] W1 W2. destruct l as [|o l]; [congruence|].
  assert (A : alike s1 s2) by (eapply alike_trans; [apply alike_sym, A1; now left|apply A2; now left]).
  apply state_ext; auto. intros k. destruct (dget k s1) as [a|] eqn:D1.
  - destruct (alike_get _ _ k a A D1) as (b & D2 & K). rewrite D2. f_equal.
    destruct (B1 k (val_of a)) as (v1 & F1 & E1). { exists a. split; [exact D1|destruct a; reflexivity]. }
    destruct (B2 k (val_of b)) as (v2 & F2 & E2). { exists b. split; [exact D2|destruct b; reflexivity]. }
    assert (V : v1 = v2).
    { eapply arrays_at_fun; eauto. }
    subst v2. destruct a as [v|ca], b as [v'|cb]; try contradiction; cbn in *; [congruence|]. destruct K as [K1 K2].
    destruct ca, cb. cbn in *. congruence.
  - symmetry. apply dget_None. rewrite <- (alike_keys _ _ A). now apply dget_None.
Qed.

(** ** The constructor *)
Lemma block_layer name n ctor w0 pc w1 r d s : block_made ctor w0 pc w1 r d s ->
  layer_made (same_opts (FNot FNone) name n) ctor w0 (Some pc) w1 r d s [s] [] [].
Proof.
  intros [B1 B2 B3 B4 B5 B6]. constructor; auto. destruct (get_state_total w1 r B2 B3) as (s' & E & W). assert (s' = s) by congruence. subst s'.
  apply partition_three; auto; [exact Logic.I|discriminate|]. intros k a _. cbn. tauto.
Qed.

Lemma create_block_ok ctor w0 name stm fl n i w1 r d s : block_made ctor w0 (turn_ctx name stm fl n i) w1 r d s ->
  create_block ctor (turn_ctx name stm fl n i) w0 = (w1, Ok (d, s)).
Proof.
  intros [B1 B2 B3 B4 B5 B6]. unfold create_block. destruct (ctx_merges name stm fl n i (w_trace w0)) as [y ->]. rewrite B1. unfold module_partition. now rewrite B5, B6.
Qed.

Lemma merge_pads w d (l : list state) : merge w d (l ++ [[]; []]) = merge w d l.
Proof. unfold merge, update_module. cbn [fold_left]. rewrite fold_left_app. reflexivity. Qed.

Lemma hand_init_is_scan_init J n name t ctor w ctx j stm ss lw lr d st : 0 < n ->
  x_rngs ctx = [(name, j)] -> nth_error ss j = Some stm -> x_trace ctx = w_trace w ->
  (forall i, i < n -> block_made ctor (set_trace w t) (turn_ctx name stm (x_flags ctx) n i) (lw i) (lr i) d (st i)) ->
  let pc := mkPctx [(name, s_key stm)] [(name, s_path stm ++ [s_count stm])] (x_flags ctx) in
  scan_ctx (w_trace w) (RStr name) (Some ctx) ss = (Ok (Some (pc, fun x => String.eqb x name)), list_set j (bump stm) ss) /\
  (forall i, lane_keys (fun x => String.eqb x name) n pc i = turn_ctx name stm (x_flags ctx) n i) /\
  (forall i, step_keys (fun x => String.eqb x name) n pc i = turn_ctx name stm (x_flags ctx) n i) /\
  hand_init J n name t ctor w ctx ss = scan_init J (same_opts (FNot FNone) name n) t ctor w (Some ctx) ss.
Proof.
  intros Hn Hrng Hstm Htr HM pc. pose proof (hand_key_one _ name ctx j stm ss Hrng Hstm Htr) as HK.
  assert (HC : scan_ctx (w_trace w) (RStr name) (Some ctx) ss = (Ok (Some (pc, fun x => String.eqb x name)), list_set j (bump stm) ss)).
  { unfold scan_ctx. clear HM. unfold hand_key in HK.
    destruct (context_partition (w_trace w) ctx ss) as [[pc0|e] ss0]; [|discriminate]. destruct (dget name (pc_keys pc0)); [|discriminate]. injection HK as -> _ ->. reflexivity. }
  assert (HL : forall i, lane_keys (fun x => String.eqb x name) n pc i = turn_ctx name stm (x_flags ctx) n i).
  { intros i. unfold lane_keys, turn_ctx, pc. cbn. now rewrite String.eqb_refl. }
  assert (HS : forall i, step_keys (fun x => String.eqb x name) n pc i = turn_ctx name stm (x_flags ctx) n i).
  { intros i. unfold step_keys, turn_ctx, pc. cbn. now rewrite String.eqb_refl. }
  split; [exact HC|]. split; [exact HL|]. split; [exact HS|].
  unfold hand_init. rewrite HK. unfold scan_init. cbn [same_opts o_axes o_length o_split]. unfold same_opts in *. cbn [o_axes o_length o_split]. rewrite HC. cbn [option_map fst snd].
  destruct n as [|n']; [lia|]. cbn [vmap_init]. set (n := S n') in *. rewrite HL.
  change (hand_ctx name (mkPctx [(name, s_key stm)] [(name, s_path stm ++ [s_count stm])] (x_flags ctx)) (s_key stm) n 0) with (turn_ctx name stm (x_flags ctx) n 0).
  rewrite (create_block_ok _ _ _ _ _ _ _ _ _ _ _ (HM 0 ltac:(lia))).
  assert (IL : forall i, i < n -> init_lane (mkScan [(FNot FNone, 0%Z)] FNone FEllipsis (RStr name) 0%Z 0%Z (Some n) false None) ctor (Some (turn_ctx name stm (x_flags ctx) n i)) (set_trace w t) = (lw i, Ok (d, ([st i], [], [])))).
  { intros i Hi. destruct (block_layer name n _ _ _ _ _ _ _ (HM i Hi)) as [M1 M2 M3 M4 M5 M6 M7]. unfold init_lane. rewrite M1. unfold module_partition. rewrite M5, M6. cbn [rbind].
    unfold same_opts in M7. rewrite M7. reflexivity. }
  rewrite (IL 0 ltac:(lia)).
  rewrite (rmapM_map (fun i => snd (create_block ctor (hand_ctx name (mkPctx [(name, s_key stm)] [(name, s_path stm ++ [s_count stm])] (x_flags ctx)) (s_key stm) n i) (set_trace w t))) (fun i => (d, st i))).
  2:{ intros i Hi. apply in_seq in Hi. change (hand_ctx name _ (s_key stm) n i) with (turn_ctx name stm (x_flags ctx) n i). now rewrite (create_block_ok _ _ _ _ _ _ _ _ _ _ _ (HM i ltac:(lia))). }
  rewrite (rmapM_map _ (fun i => (d, ([st i], [], [])) : lane)).
  2:{ intros i Hi. apply in_seq in Hi. rewrite HL. now rewrite (IL i ltac:(lia)). }
  cbn [rbind]. replace (forallb _ _) with true.
  2:{ symmetry. apply forallb_forall. intros l Hl. apply in_map_iff in Hl as (i & <- & _). reflexivity. }
  cbn [stack_axes o_axes]. rewrite !map_map. cbn [fst snd map nth]. rewrite map_map. cbn [nth].
  destruct (stack_states J 0 (st 0 :: map st (seq 1 n'))) as [u|e]; cbn [rbind leave_axes o_partition]; [|reflexivity].
  rewrite merge_pads. destruct (merge _ d [u]) as [[m w2]|e]; reflexivity.
Qed.

Lemma fork_keys items : forall ss fs ss', fork_all items ss = (Ok fs, ss') -> keys fs = keys items.
Proof.
  induction items as [|[name i] t IH]; intros ss fs ss' H; cbn in H; [injection H as <- _; reflexivity|].
  destruct (nth_error ss i); [|discriminate]. destruct (fork_all t _) as [[fs1|e] ss1] eqn:E; [|discriminate]. cbn in H. injection H as <- _.
  unfold keys in *. cbn. f_equal. eapply IH; eauto.
Qed.
