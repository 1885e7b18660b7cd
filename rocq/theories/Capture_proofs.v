(** Capture_proofs: [pop_state] on a module and on its parts. *)
From Coq Require Import Permutation Lia Sorted.
From Verif Require Import PyBase PyBaseFacts ValuesM Spec_Eq ValuesFacts FiltersM StateM Spec_State State_proofs ModuleM PureM Spec_Module Spec_Path Spec_Prog
  Graph_facts Dfs_proofs Mdef_proofs Build_proofs Pop_proofs Clone_proofs Laws_proofs Pure_proofs Assign_proofs Path_proofs Prop_Path
  TransformM Container_proofs Scan_proofs Spec_Functional Functional_proofs Spec_Capture.
Local Open Scope string_scope.
Local Open Scope list_scope.

(** ** worlds that differ in node attributes only *)
Section Thin.
Variables w w' : world.
Hypothesis Hw : wf_world w.
Hypothesis Hw' : wf_world w'.
Hypothesis Hn : w_nodes w' = w_nodes w.
Hypothesis Hl : List.length (w_heap w') = List.length (w_heap w).
Hypothesis Hh : forall y o, get_obj w y = Some o -> exists d, get_obj w' y = Some (set_vars o d) /\
  (forall n a, dget n d = Some a -> dget n (m_vars o) = Some a) /\
  (forall n a, dget n (m_vars o) = Some a -> dget n d = Some a \/ node_attr w y n a).

Lemma thin_none y : get_obj w y = None -> get_obj w' y = None.
Proof. intros H. destruct (get_obj w' y) as [o|] eqn:E; [|reflexivity]. apply get_obj_lt in E. unfold valid in E. rewrite Hl in E. apply get_obj_ex in E as [? ?]. congruence. Qed.

Lemma thin_sub y o d n c : get_obj w y = Some o -> get_obj w' y = Some (set_vars o d) ->
  (dget n d = Some (ARaw (PyMod c)) <-> dget n (m_vars o) = Some (ARaw (PyMod c))).
Proof.
  intros Ho Hd. destruct (Hh y o Ho) as (d1 & H1 & A & B). assert (d1 = d) by (rewrite Hd in H1; now injection H1). subst d1.
  split; [apply A|]. intros H. destruct (B _ _ H) as [|(q & _ & _ & F & _)]; [assumption|discriminate].
Qed.
Lemma thin_submods y o d : get_obj w y = Some o -> get_obj w' y = Some (set_vars o d) ->
  submods (sort_by_key d) = submods (sort_by_key (m_vars o)).
Proof.
  intros Ho Hd. apply (submods_edit w w' y o (set_vars o d) Hw Hw' Ho Hd). intros n c. now apply (thin_sub y).
Qed.
Lemma thin_statics y o d : get_obj w y = Some o -> get_obj w' y = Some (set_vars o d) ->
  statics (w_nodes w) (sort_by_key d) = statics (w_nodes w) (sort_by_key (m_vars o)).
Proof.
  intros Ho Hd. pose proof (wfo_names _ _ (wf_objs _ Hw _ _ Ho)) as N. pose proof (wfo_names _ _ (wf_objs _ Hw' _ _ Hd)) as N'. cbn [m_vars set_vars] in N'.
  pose proof (statics_sorted (w_nodes w) _ (sort_strict _ N)) as S1. pose proof (statics_sorted (w_nodes w) _ (sort_strict _ N')) as S2.
  assert (I : forall n a, In (n, a) (statics (w_nodes w) (sort_by_key d)) <-> In (n, a) (statics (w_nodes w) (sort_by_key (m_vars o)))).
  { intros n a. rewrite !statics_dget by (apply NoDup_keys_sort; assumption). rewrite !dget_sort by assumption.
    destruct (Hh y o Ho) as (d1 & H1 & A & B). assert (d1 = d) by (rewrite Hd in H1; now injection H1). subst d1. split.
    - intros (H & R). split; [now apply A|exact R].
    - intros (H & R). split; [|exact R]. destruct (B _ _ H) as [|(q & _ & _ & F & t & Ht & Hc)]; [assumption|].
      exfalso. destruct R as (_ & R & _). apply (proj1 (is_node_false _ _) R t Ht Hc). }
  assert (F : Forall2 (fun a b => fst a = fst b /\ snd a = snd b) (statics (w_nodes w) (sort_by_key d)) (statics (w_nodes w) (sort_by_key (m_vars o)))).
  { apply (sorted_sync eq _ _ S2 S1); [intros n c Hc; exists c; split; [now apply I|reflexivity]|intros n c Hc; exists c; now apply I]. }
  clear -F. induction F as [|[] [] ? ? [E1 E2] ? IH]; [reflexivity|]. cbn in *. now subst.
Qed.
Lemma thin_make fuel : forall r mi, make_def fuel w' r mi = make_def fuel w r mi.
Proof.
  induction fuel as [|fuel IH]; intros r mi; [reflexivity|]. cbn [make_def].
  assert (F : forall l mi, def_fields (make_def fuel w') l mi = def_fields (make_def fuel w) l mi).
  { intros l. induction l as [|[n c] l IHl]; intros m; [reflexivity|]. cbn [def_fields]. rewrite IH. destruct (make_def fuel w c m) as [[d m1]|]; [|reflexivity].
    cbn [rbind]. now rewrite IHl. }
  destruct (get_obj w r) as [o|] eqn:Ho; [|now rewrite thin_none].
  destruct (Hh r o Ho) as (d & Hd & _). rewrite Hd. cbn [m_id m_cls m_init m_vars set_vars]. destruct (index_of (m_id o) mi); [reflexivity|].
  rewrite !make_fields_split, F, Hn, (thin_submods r o d Ho Hd), (thin_statics r o d Ho Hd). reflexivity.
Qed.
Lemma thin_def r : get_module_def w' r = get_module_def w r.
Proof. unfold get_module_def, dfs_fuel. now rewrite Hl, thin_make. Qed.

Lemma thin_follow p : forall r, follow w' r p = follow w r p.
Proof.
  induction p as [|n p IH]; intros r; cbn [follow]; (destruct (get_obj w r) as [o|] eqn:Ho; [|now rewrite thin_none]);
    destruct (Hh r o Ho) as (d & Hd & _); rewrite Hd; [reflexivity|]. cbn [m_vars set_vars].
  pose proof (fun c => thin_sub r o d n c Ho Hd) as T.
  destruct (dget n d) as [[[]|]|] eqn:E1, (dget n (m_vars o)) as [[[]|]|] eqn:E2; try reflexivity;
    try (destruct (T r0) as [T1 T2]; first [specialize (T1 eq_refl); congruence|specialize (T2 eq_refl); congruence]).
Qed.
Lemma thin_reaches r y : reaches w' r y <-> reaches w r y.
Proof. unfold reaches. split; intros [p H]; exists p; [rewrite <- thin_follow|rewrite thin_follow]; exact H. Qed.
Lemma thin_direct r p y : direct_path w' r p y <-> direct_path w r p y.
Proof.
  unfold direct_path. rewrite thin_follow. split; intros [A B]; (split; [exact A|]); intros q1 q2 q3 E N; specialize (B q1 q2 q3 E N); rewrite ?thin_follow in *; exact B.
Qed.
Lemma thin_first r p y : first_path w' r p y <-> first_path w r p y.
Proof.
  unfold first_path. rewrite thin_direct. split; intros [A B]; (split; [exact A|]); intros q Q; apply B; now apply thin_direct.
Qed.
Lemma thin_names r : names_ok w r -> names_ok w' r.
Proof.
  intros H x o n a Hx Ho Hd. apply thin_reaches in Hx. destruct (reaches_valid _ _ _ Hx) as [q Hq]. destruct (Hh x q Hq) as (d & H1 & A & _).
  assert (o = set_vars q d) by congruence. subst o. cbn [m_vars set_vars] in Hd. apply A in Hd. destruct (H x q n a Hx Hq Hd) as (B1 & B2 & B3).
  split; [exact B1|]. split.
  - intros (_ & _ & _ & S1 & S2). apply B2. exists q. rewrite <- Hn. auto.
  - intros (_ & _ & _ & S1 & S2). apply B3. exists q. rewrite <- Hn. auto.
Qed.
End Thin.

(** ** after [pop_state] *)
Lemma pop_thin w w' r fs out path : pop_effect w w' r fs out path ->
  forall y o, get_obj w y = Some o -> Forall valid_filter fs -> exists d, get_obj w' y = Some (set_vars o d) /\
    (forall n a, dget n d = Some a -> dget n (m_vars o) = Some a) /\
    (forall n a, dget n (m_vars o) = Some a -> dget n d = Some a \/ node_attr w y n a).
Proof.
  intros P y o Ho Hv. destruct (pe_left _ _ _ _ _ _ P y o Ho) as (d & Hd & I). exists d. split; [exact Hd|]. split; [intros n a H; now apply I|].
  intros n a H. destruct (is_submodule a) eqn:Bs; [left; apply I; split; [exact H|]; intros (_ & (q & _ & _ & F & _) & _); congruence|].
  destruct (is_node (w_nodes w) a) eqn:Bn.
  - right. exists o. split; [exact Ho|]. split; [exact H|]. split; [exact Bs|]. unfold is_node in Bn. apply existsb_exists in Bn as (t & T1 & T2).
    exists t. split; [exact T1|]. now apply smem_In.
  - left. apply I. split; [exact H|]. intros (_ & (q & _ & _ & _ & t & T1 & T2) & _). exact (proj1 (is_node_false _ _) Bn t T1 T2).
Qed.

Lemma unpack_pack l : pack l = unpack (sts_list (pack l)).
Proof. destruct l as [|a [|b l]]; reflexivity. Qed.
Lemma misplaced_none fs : (forall g, In g fs -> g <> FEllipsis) -> ellipsis_misplaced (fs ++ [FEllipsis]) = false.
Proof.
  induction fs as [|g fs IH]; intros H; [reflexivity|]. cbn [app]. assert (E : fs ++ [FEllipsis] <> []) by (destruct fs; discriminate).
  cbn [ellipsis_misplaced]. destruct (fs ++ [FEllipsis]) eqn:Q; [congruence|]. rewrite IH by (intros h Hh; apply H; now right).
  assert (K : g <> FEllipsis) by (apply H; now left). destruct g; try reflexivity. congruence.
Qed.
Lemma rmapM_app_err {A B} (f : A -> result B) l m e : rmapM f l = Err e -> rmapM f (l ++ m) = Err e.
Proof.
  revert e. induction l as [|x l IH]; intros e H; [discriminate|]. cbn [rmapM app] in *. destruct (f x); [|exact H]. cbn [rbind] in *.
  destruct (rmapM f l); [discriminate|]. cbn [rbind] in *. rewrite (IH e0 eq_refl). exact H.
Qed.

Lemma pop_state_pack fuel w r fs w' x : pop_state fuel w r fs = (w', Ok x) -> x = unpack (sts_list x).
Proof.
  unfold pop_state. destruct fs; [discriminate|]. destruct (rmapM to_predicate _); [|discriminate].
  destruct (pop_rec _ _ _ _ _ _ _) as [w1 [[mi l]|]]; [|discriminate]. intros [= _ <-]. apply unpack_pack.
Qed.

(** The popped module and the popped State. *)
Lemma pop_both w r fs s : wf_world w -> valid w r -> names_ok w r -> acyclic w r -> same_names w r -> get_state w r = Ok s ->
  fs <> [] -> Forall valid_filter fs -> (forall g, In g fs -> g <> FEllipsis) ->
  exists f gs w' x rest, fs = f :: gs /\ pop_state (S (List.length (w_heap w))) w r fs = (w', Ok x) /\
    state_partition s f (gs ++ [FEllipsis]) = Ok (Many (sts_list x ++ [rest])) /\ x = unpack (sts_list x) /\ wf_state rest /\
    wf_world w' /\ get_state w' r = Ok rest /\ get_module_def w' r = get_module_def w r /\ names_ok w' r /\
    (live w r -> live w' r) /\ w_nodes w' = w_nodes w /\ w_trace w' = w_trace w /\ List.length (w_heap w') = List.length (w_heap w).
Proof.
  intros Hw Hr Hno Hac Hsn Hs Hfs Hv Hne.
  destruct (pop_state_acyclic w r fs (S (List.length (w_heap w))) Hw Hr Hno Hac Hfs Hv) as (w' & x & path & E & P); [lia|].
  destruct fs as [|f gs]; [congruence|]. clear Hfs.
  destruct (get_state_total w r Hw Hr) as (s1 & Hs1 & Ws). rewrite Hs in Hs1. injection Hs1 as <-.
  destruct (C93_first_path w r Hw Hr Hno) as (s1 & Hs1 & Ds). rewrite Hs in Hs1. injection Hs1 as <-.
  assert (Dp : forall y p n a, node_attr w y n a -> first_path w r p y -> path y = p).
  { intros y p n a Na Fp. apply (Hsn (path y) p y); [|exact Fp]. apply (pe_path _ _ _ _ _ _ P y n a); [|exact Na]. exists p. apply Fp. }
  assert (Fp : forall y, reaches w r y -> exists p, first_path w r p y) by (intros y Ry; destruct (C93_one_path w r y Hw Hr Ry) as (p & Hp & _); eauto).
  destruct (pe_global _ _ _ _ _ _ P) as (_ & Gt & Gn & Gl).
  pose proof (pe_wf _ _ _ _ _ _ P) as Hw'.
  pose proof (fun y o Ho => pop_thin _ _ _ _ _ _ P y o Ho Hv) as Hth.
  assert (HF : exists q, state_filter s f gs = Ok q).
  { apply filter_ok_iff; auto. split; [exact Hv|]. intros i Hi. exfalso. eapply Hne; [|reflexivity]. eapply nth_error_In; eauto. }
  destruct HF as [q Hq]. destruct (filter_partition s f gs q Ws Hne Hq) as (rest & Hp & Hrest).
  destruct (filter_entries _ _ _ _ Ws Hq) as [Lq Eq]. pose proof (filter_outputs_wf _ _ _ _ Ws Hq) as Wq.
  assert (Wrest : wf_state rest).
  { pose proof (partition_outputs_wf _ _ _ _ Ws Hp) as W. cbn [sts_list] in W. apply Forall_app in W as [_ W]. now inversion W. }
  assert (EX : sts_list x = sts_list q).
  { apply wf_states_eq; [apply P|exact Wq|rewrite (pe_len _ _ _ _ _ _ P), Lq; reflexivity|].
    intros i a b k v Ha Hb. rewrite (Eq i b k v Hb), (pe_out _ _ _ _ _ _ P i a k v Ha), Ds. split.
    - intros (y & n & Ry & Na & Ek & Fm). split; [|exact Fm]. destruct (Fp y Ry) as [p Hp1]. exists p, y, n. split; [exact Hp1|]. split; [exact Na|]. now rewrite <- (Dp y p n v Na Hp1).
    - intros [(p & y & n & Hp1 & Na & Ek) Fm]. exists y, n. split; [exists p; apply Hp1|]. split; [exact Na|]. rewrite (Dp y p n v Na Hp1). auto. }
  assert (No' : names_ok w' r) by (eapply thin_names; eauto).
  assert (Hr' : valid w' r) by (unfold valid; rewrite Gl; exact Hr).
  exists f, gs, w', x, rest. split; [reflexivity|]. split; [exact E|]. split; [rewrite EX; exact Hp|]. split; [eapply pop_state_pack; eauto|].
  split; [exact Wrest|]. split; [exact Hw'|]. split.
  { destruct (C93_first_path w' r Hw' Hr' No') as (s' & Gs' & Ds'). destruct (get_state_total w' r Hw' Hr') as (s2 & G2 & Ws').
    rewrite Gs' in G2. injection G2 as <-. rewrite Gs'. f_equal. apply state_ext; auto.
    assert (OPT : forall k v, dget k s' = Some v <-> dget k rest = Some v).
    { intros k v. rewrite Ds', Hrest, Ds. split.
      - intros (p & y & n & Hp1 & Na & Ek). apply (thin_first w w' Gl Hth) in Hp1. destruct Na as (o' & Ho' & Hd & B1 & t & B2 & B3). rewrite Gn in B2.
        assert (Ry : reaches w r y) by (exists p; apply Hp1). destruct (reaches_valid _ _ _ Ry) as [o Ho].
        destruct (pe_left _ _ _ _ _ _ P y o Ho) as (d & Hd1 & I). rewrite Hd1 in Ho'. injection Ho' as <-. cbn [m_vars set_vars] in Hd. apply I in Hd as [Hd Nm].
        assert (Na : node_attr w y n v) by (exists o; split; [exact Ho|]; split; [exact Hd|]; split; [exact B1|exists t; auto]).
        split; [exists p, y, n; auto|]. intros g Hg Mg. apply Nm. split; [exact Ry|]. split; [exact Na|]. rewrite (Dp y p n v Na Hp1), <- Ek.
        apply first_match_exists; [exact Hv|]. eauto.
      - intros [(p & y & n & Hp1 & Na & Ek) Nm]. exists p, y, n. split; [now apply (thin_first w w' Gl Hth)|]. split; [|exact Ek].
        pose proof Na as (o & Ho & Hd & B1 & t & B2 & B3). destruct (pe_left _ _ _ _ _ _ P y o Ho) as (d & Hd1 & I). exists (set_vars o d). split; [exact Hd1|].
        split; [|split; [exact B1|exists t; rewrite Gn; auto]]. cbn [m_vars set_vars]. apply I. split; [exact Hd|]. intros (_ & _ & i & Fm).
        rewrite (Dp y p n v Na Hp1), <- Ek in Fm. apply first_match_some in Fm as (g & Hg & Mg). exact (Nm g Hg Mg). }
    intros k. destruct (dget k s') as [v|] eqn:D1; [symmetry; now apply OPT|]. destruct (dget k rest) as [v|] eqn:D2; [|reflexivity].
    apply OPT in D2. congruence. }
  split; [eapply thin_def; eauto|]. split; [exact No'|]. split; [|auto].
  intros L y o Ry Ho. apply (thin_reaches w w' Gl Hth) in Ry. destruct (reaches_valid _ _ _ Ry) as [o1 Ho1]. destruct (Hth y o1 Ho1) as (d & Hd & _).
  assert (o = set_vars o1 d) by congruence. subst o. cbn [m_trace set_vars]. rewrite Gt. exact (L y o1 Ry Ho1).
Qed.

(** ** programs *)
Lemma capture_step {A} v0 w r v p (s : step A) : good_step r w s -> holds v0 w r v p ->
  exists v1 p1, step_on_parts v p s = (v1, p1, snd (step_on_module r w s)) /\ holds v0 (fst (step_on_module r w s)) r v1 p1.
Proof.
  intros G H. destruct s as [s|f fs]; cbn [good_step step_on_parts step_on_module] in *.
  - destruct (step_parts v0 w r v p s G H) as (v1 & p1 & E & H1). rewrite E. destruct (on_module r w s) as [w1 x]. cbn [fst snd] in *. eauto.
  - destruct G as (Ga & Gn & Ge). pose proof H as [Hw Hr Hno Hlive Hv Hn Ht Hold [Hd Hs]].
    destruct (get_state_total w r Hw Hr) as (s & Gs & Ws). rewrite Gs in Hs. unfold pure_pop_state. rewrite <- Hs. cbn [rbind].
    destruct (rmapM to_predicate (f :: fs)) as [ps|e] eqn:Ep.
    + assert (Vf : Forall valid_filter (f :: fs)) by (apply rmapM_preds; eauto).
      destruct (pop_both w r (f :: fs) s Hw Hr Hno Ga Gn Gs) as (f1 & gs & w' & x & rest & [= <- <-] & E & E2 & Ex & Wr & W' & G' & D' & N' & L' & Nn & Nt & Nl); auto; [discriminate|].
      rewrite E, E2. cbn [rbind rmap fst snd sts_list]. rewrite removelast_last, last_last, <- Ex. eexists _, _. split; [reflexivity|].
      constructor; auto.
      * unfold valid. rewrite Nl. exact Hr.
      * congruence.
      * split; cbn [p_def p_states]; [congruence|]. unfold pure_get_state. cbn [p_states]. exact G'.
    + assert (E1 : state_partition s f (fs ++ [FEllipsis]) = Err e).
      { unfold state_partition, split_state. change (f :: fs ++ [FEllipsis]) with ((f :: fs) ++ [FEllipsis]). rewrite misplaced_none by exact Ge.
        now rewrite (rmapM_app_err _ _ _ _ Ep). }
      rewrite E1. unfold pop_state. rewrite Ep. cbn [rbind rmap fst snd]. eauto.
Qed.

Theorem capture_program {A} r (l : list (step A)) : forall v0 w v p, good_steps r w l -> holds v0 w r v p ->
  exists v1 p1, run_on_parts l v p = (v1, p1, snd (run_on_module r l w)) /\ holds v0 (fst (run_on_module r l w)) r v1 p1.
Proof.
  induction l as [|s l IH]; intros v0 w v p G H; cbn [good_steps run_on_parts run_on_module] in *; [eauto|]. destruct G as [G1 G2].
  destruct (capture_step v0 w r v p s G1 H) as (v1 & p1 & E & H1). rewrite E. destruct (step_on_module r w s) as [w1 x]. cbn [fst snd] in *.
  destruct (IH v0 w1 v1 p1 G2 H1) as (v2 & p2 & E2 & H2). rewrite E2. destruct (run_on_module r l w1) as [w2 xs]. eauto.
Qed.
