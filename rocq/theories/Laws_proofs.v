(** Consequences of the graph lemmas in the form the property files state them. *)
From Coq Require Import Permutation.
From Verif Require Import PyBase PyBaseFacts ValuesM Spec_Eq ValuesFacts FiltersM StateM Spec_State State_proofs ModuleM PureM Spec_Module Spec_History
  Graph_facts Dfs_proofs Build_proofs Bisim_proofs RoundTrip_proofs Clone_proofs Skel_proofs Update_proofs Mdef_proofs Write_proofs Pop_proofs
  ForEach_proofs History_proofs Call_proofs.
Local Open Scope string_scope.
Local Open Scope list_scope.

(** looking at [r] only reads what is reachable from [r] *)
Lemma look_frame w w' p : wf_world w -> forall r, valid w r -> (forall y, reaches w r y -> get_obj w' y = get_obj w y) -> look w' r p = look w r p.
Proof.
  intros Hw. induction p as [|n p IH]; intros r Hr H; destruct (get_obj_ex _ _ Hr) as [o Ho]; cbn [look];
    rewrite (H r (reaches_refl _ _ _ Ho)), Ho; [reflexivity|].
  destruct (dget n (m_vars o)) as [a|] eqn:Ed; [|reflexivity]. destruct a as [[]|]; auto.
  assert (Hc : child w r n r0) by (exists o; auto).
  apply IH; [eapply wfo_refs; [apply (wf_objs _ Hw _ _ Ho)|exact Ed]|].
  intros y Hy. apply H. eapply reaches_trans; [|exact Hy]. eapply reaches_child; eauto.
Qed.

Lemma merged_valid w r d L wb wb' objs : graph w r d L -> merged w L wb wb' objs -> valid wb' (List.length (w_heap wb)).
Proof.
  intros Hg Hm. unfold valid. rewrite (mg_heap _ _ _ _ _ Hm), app_length. pose proof (mg_len _ _ _ _ _ Hm).
  destruct (graph_root _ _ _ _ Hg) as (t & -> & _). cbn in *. lia.
Qed.

(** names carry over to bisimilar modules *)
Lemma bisim_names w w' R r s : bisim w w' R -> w_nodes w = w_nodes w' -> R r s -> names_ok w r -> names_ok w' s.
Proof.
  intros HR Hnt Hrs Hno y o' n b Hy Ho' Hd.
  destruct (bisim_reaches _ _ _ _ _ _ (bisim_sym _ _ _ HR) Hrs Hy) as (x & Hx & Hxy).
  destruct (bi_obj _ _ _ HR _ _ Hxy) as (o & o1 & Ho & Ho1 & _ & _ & Ha). assert (o1 = o') by congruence. subst o1.
  specialize (Ha n). rewrite Hd in Ha. destruct (dget n (m_vars o)) as [a|] eqn:Ed; [|destruct b as [[]|]; destruct Ha].
  destruct (Hno x o n a Hx Ho Ed) as (N1 & N2 & N3). destruct (is_submodule a) eqn:Es.
  - destruct (is_sub_inv _ Es) as [z ->]. destruct (orel_mod _ _ _ Ha) as (z' & [= ->] & _). split; [auto|]. split.
    + intros (o2 & _ & _ & H & _). discriminate.
    + intros (o2 & _ & _ & H & _). discriminate.
  - apply orel_val in Ha; [|exact Es]. injection Ha as ->. split; [intros; congruence|]. split.
    + intros (o2 & H1 & H2 & H3 & t & H4 & H5). apply N2. exists o. rewrite Hnt. repeat split; eauto.
    + intros (o2 & H1 & H2 & H3 & H4). apply N3. exists o. rewrite Hnt. repeat split; eauto.
Qed.

Lemma merged_faithful w r d L wb wb' objs : wf_world w -> valid w r -> graph w r d L -> merged w L wb wb' objs ->
  faithful_copy w r wb wb' (List.length (w_heap wb)).
Proof.
  intros Hw Hr Hg Hm. pose proof (mg_bisim _ _ _ _ _ Hm) as Hb. pose proof (merged_root _ _ _ _ _ _ _ Hr Hg Hm) as Hroot.
  constructor.
  - intros p. symmetry. exact (bisim_look _ _ _ p Hb _ _ Hroot).
  - intros p. pose proof (bisim_follow_iff _ _ _ p Hb _ _ Hroot) as H.
    destruct (follow w r p), (follow wb' (List.length (w_heap wb)) p); try tauto; split; intros [x E]; try discriminate; eauto.
  - intros p q. symmetry. exact (bisim_alias _ _ _ _ _ p q Hb Hroot).
  - intros Hn Hwb. symmetry. eapply (bisim_get_state _ _ _ _ _ Hw (merged_wf _ _ _ _ _ _ _ Hw Hwb Hr Hg Hm) Hb); [|exact Hroot].
    rewrite (mg_nodes _ _ _ _ _ Hm). congruence.
  - intros Hn Hwb. symmetry. eapply (bisim_module_def _ _ _ _ _ Hw (merged_wf _ _ _ _ _ _ _ Hw Hwb Hr Hg Hm) Hb); [|exact Hroot].
    rewrite (mg_nodes _ _ _ _ _ Hm). congruence.
  - intros y o. apply extends_get. eapply merged_extends; eauto.
  - intros y Hy. apply (merged_fresh _ _ _ _ _ _ _ _ Hw Hr Hg Hm) in Hy. apply nth_error_None. exact Hy.
  - intros y o Hy Ho. apply (merged_fresh _ _ _ _ _ _ _ _ Hw Hr Hg Hm) in Hy.
    unfold get_obj in Ho. rewrite (mg_heap _ _ _ _ _ Hm), nth_error_app2 in Ho by assumption. apply nth_error_In in Ho.
    pose proof (mg_otrace _ _ _ _ _ Hm) as G. rewrite Forall_forall in G. now apply G.
  - intros Hwb. split; [exact (merged_wf _ _ _ _ _ _ _ Hw Hwb Hr Hg Hm)|exact (merged_valid _ _ _ _ _ _ _ Hg Hm)].
  - intros Hn. apply (bisim_names _ _ _ _ _ Hb); [|exact Hroot]. rewrite (mg_nodes _ _ _ _ _ Hm). congruence.
Qed.

Theorem partition_merge_faithful w r fs p wb states : wf_world w -> valid w r -> names_ok w r -> module_partition w r fs = Ok p ->
  Permutation states (sts_list (p_states p)) ->
  exists m wb', merge wb (p_def p) states = Ok (m, wb') /\ faithful_copy w r wb wb' m.
Proof.
  intros Hw Hr Hno Hp Hperm. destruct (partition_merge_bisim w r fs p wb states Hw Hr Hno Hp Hperm) as (d & L & wb' & objs & Hg & E & Hmg & Hm).
  exists (List.length (w_heap wb)), wb'. rewrite E. split; [exact Hmg|]. eapply merged_faithful; eauto.
Qed.

Theorem clone_faithful w r : wf_world w -> valid w r -> names_ok w r ->
  exists m w', clone w r = Ok (m, w') /\ faithful_copy w r w w' m.
Proof.
  intros Hw Hr Hno. destruct (clone_bisim w r Hw Hr Hno) as (d & L & w' & objs & Hg & Hc & Hm).
  exists (List.length (w_heap w)), w'. split; [exact Hc|]. eapply merged_faithful; eauto.
Qed.

(** ** get_state *)
Theorem get_state_entries w r : wf_world w -> valid w r -> names_ok w r ->
  exists s (path : nat -> string -> list string), get_state w r = Ok s /\ keys_increasing s /\
    (forall x n a, reaches w r x -> node_attr w x n a -> follow w r (path x n) = Some x) /\
    (forall k a, dget k s = Some a <-> exists x n, reaches w r x /\ node_attr w x n a /\ k = join_path (path x n ++ [n])) /\
    (forall x n a y m b, reaches w r x -> node_attr w x n a -> reaches w r y -> node_attr w y m b ->
       join_path (path x n ++ [n]) = join_path (path y m ++ [m]) -> x = y /\ n = m).
Proof.
  intros Hw Hr Hno. destruct (graph_exists w r Hw Hr) as (d & L & Hg).
  destruct (get_state_graph w r d L Hw Hr Hg Hno) as (E & s & Hs & Hwf & (HE1 & HE2 & HE3) & HEf & HPE & HND & Hsl).
  set (path := fun x n => match find (fun i => Nat.eqb (i_own i) x && String.eqb (i_name i) n) E with Some i => i_path i | None => [] end).
  assert (HP : forall i, In i E -> path (i_own i) (i_name i) = i_path i).
  { intros i Hi. unfold path. clear - Hi HE3. induction E as [|j E IH]; [destruct Hi|]. cbn [find].
    destruct (Nat.eqb_spec (i_own j) (i_own i)) as [E1|E1]; cbn [andb].
    - destruct (String.eqb_spec (i_name j) (i_name i)) as [E2|E2].
      + destruct Hi as [->|Hi]; [reflexivity|]. exfalso. cbn in HE3. inversion HE3 as [|? ? N1 N2]; subst. apply N1.
        apply in_map_iff. exists i. split; [|exact Hi]. unfold i_slot. congruence.
      + destruct Hi as [->|Hi]; [congruence|]. apply IH; [|exact Hi]. cbn in HE3. now inversion HE3.
    - destruct Hi as [->|Hi]; [congruence|]. apply IH; [|exact Hi]. cbn in HE3. now inversion HE3. }
  assert (HL : forall x, In x L <-> reaches w r x) by (intros x; apply (graph_reaches _ _ _ _ Hw Hr Hg)).
  assert (HI : forall x n a, reaches w r x -> node_attr w x n a -> exists i, In i E /\ i_own i = x /\ i_name i = n /\ i_val i = a /\ path x n = i_path i).
  { intros x n a Hx Ha. apply HL in Hx. destruct (HE2 x n a Hx Ha) as (i & Hi & <- & <- & <-). exists i. repeat split; auto. }
  exists s, path. split; [exact Hs|]. split; [exact Hwf|]. split.
  - intros x n a Hx Ha. destruct (HI x n a Hx Ha) as (i & Hi & <- & <- & <- & ->). auto.
  - split.
    + intros k a. rewrite (state_item E s HND HPE). split.
      * intros (i & Hi & -> & ->). destruct (HE1 i Hi) as [O1 O2]. exists (i_own i), (i_name i). split; [now apply HL|]. split; [exact O2|]. now rewrite HP.
      * intros (x & n & Hx & Ha & ->). destruct (HI x n a Hx Ha) as (i & Hi & E1 & E2 & E3 & ->). exists i. subst. auto.
    + intros x n a y m b Hx Ha Hy Hb Heq. destruct (HI x n a Hx Ha) as (i & Hi & E1 & E2 & E3 & E4). destruct (HI y m b Hy Hb) as (j & Hj & F1 & F2 & F3 & F4).
      rewrite E4, F4 in Heq. destruct (Hsl i Hi) as [S1 S2]. destruct (Hsl j Hj) as [T1 T2]. subst n m.
      apply join_key_inj in Heq as [K1 K2]; auto. split; [|exact K2]. pose proof (HEf i Hi) as Q1. pose proof (HEf j Hj) as Q2. congruence.
Qed.

(** ** update_state, any form of update *)
Theorem update_state_effect w r u us s : wf_world w -> valid w r -> names_ok w r -> live w r -> get_state w r = Ok s ->
  updates_states w u = Ok us ->
  (forall r2, u = UModule r2 -> exists o o2, get_obj w r = Some o /\ get_obj w r2 = Some o2 /\ m_cls o = m_cls o2) ->
  Forall (fun u : state => NoDup (keys u)) us ->
  (forall k a, latest k us = Some a -> wf_attr a /\ is_submodule a = false /\
     exists old res, dget k s = Some old /\ overwrites old a res /\ node_value w res) ->
  exists w', update_state w r u = (w', Ok tt) /\ update_effect w w' r s us.
Proof.
  intros Hw Hr Hno Hl Hs Hu Hc Hnd Hlat. destruct (update_module_effect w r s us Hw Hr Hno Hl Hs Hnd Hlat) as (w' & E & F).
  exists w'. split; [|exact F]. unfold update_state. rewrite Hs. destruct u as [r2|p|x]; cbn in Hu.
  - destruct (Hc r2 eq_refl) as (o & o2 & -> & -> & ->). rewrite cls_eqb_refl. destruct (get_state w r2) as [s2|]; [|discriminate].
    cbn in Hu. injection Hu as <-. exact E.
  - injection Hu as <-. exact E.
  - injection Hu as <-. exact E.
Qed.

(** whatever the outcome *)
Lemma update_state_safe w r u w' res : wf_world w -> plain_updates w u -> update_state w r u = (w', res) -> update_safe w w' r.
Proof.
  intros Hw Hu H. unfold update_state in H. destruct (get_state w r) as [cur|] eqn:Ec; [|injection H as <- _; now apply update_safe_refl].
  pose proof (get_state_plain _ _ _ Hw Ec) as Pc.
  assert (G : forall us, Forall plain_state us -> update_module w r cur us = (w', res) -> update_safe w w' r).
  { intros us Hus Hm. eapply update_loop_safe; [exact Hw| |exact Hm]. apply plain_fold; [|constructor]. constructor; [now apply plain_state_items|].
    eapply Forall_impl; [|exact Hus]. apply plain_state_items. }
  destruct u as [r2|p|x]; cbn in Hu.
  - destruct (get_obj w r) as [o|]; [|injection H as <- _; now apply update_safe_refl]. destruct (get_obj w r2) as [o2|]; [|injection H as <- _; now apply update_safe_refl].
    destruct (cls_eqb (m_cls o) (m_cls o2)); [|injection H as <- _; now apply update_safe_refl].
    destruct (get_state w r2) as [s2|] eqn:E2; [|injection H as <- _; now apply update_safe_refl]. eapply G; [|exact H]. constructor; [|constructor]. eapply get_state_plain; eauto.
  - eapply G; eauto.
  - eapply G; eauto.
Qed.

Lemma update_state_guard w r u s : wf_world w -> valid w r -> names_ok w r -> get_state w r = Ok s -> s <> [] ->
  (forall r2, u = UModule r2 -> exists o o2, get_obj w r = Some o /\ get_obj w r2 = Some o2 /\ m_cls o = m_cls o2) ->
  (forall x o, reaches w r x -> get_obj w x = Some o -> m_trace o <> w_trace w) ->
  update_state w r u = (w, Err TraceContextError).
Proof.
  intros Hw Hr Hno Hs Hne Hc Ht. unfold update_state. rewrite Hs.
  assert (G : forall us, update_module w r s us = (w, Err TraceContextError)) by (intros; apply update_module_foreign; auto).
  destruct u as [r2|p|x]; auto. destruct (Hc r2 eq_refl) as (o & o2 & -> & H2 & ->). rewrite H2, cls_eqb_refl.
  destruct (get_state_total w r2 Hw) as (s2 & -> & _); [eapply get_obj_lt; eauto|]. apply G.
Qed.

(** a write to one module is not seen from a module that cannot reach it *)
Lemma setattr_unseen w x n a w' r p : wf_world w -> valid w r -> setattr w x n a = Ok w' -> ~ reaches w r x -> look w' r p = look w r p.
Proof.
  intros Hw Hr Hs Hx. apply look_frame; auto. intros y Hy. destruct (setattr_shape _ _ _ _ _ Hs) as (_ & _ & _ & _ & H & _). apply H. congruence.
Qed.
Lemma delattr_unseen w x n w' r p : wf_world w -> valid w r -> delattr w x n = Ok w' -> ~ reaches w r x -> look w' r p = look w r p.
Proof.
  intros Hw Hr Hs Hx. apply look_frame; auto. intros y Hy. apply delattr_inv in Hs as (o & Ho & _ & ->). apply get_put_other. congruence.
Qed.

(** ** pop_state: with filters that do not look at the path nothing matching is left *)
Lemma pop_reaches w w' r fs out path y : pop_effect w w' r fs out path -> reaches w' r y -> reaches w r y.
Proof.
  intros P [q Hq]. revert r Hq P. assert (G : forall q r, follow w' r q = Some y -> (forall x n z, child w' x n z -> child w x n z) ->
    (forall x o, get_obj w' x = Some o -> exists o', get_obj w x = Some o') -> follow w r q = Some y).
  { induction q0 as [|n q0 IH]; intros r Hf Hc Hg.
    - cbn in *. destruct (get_obj w' r) eqn:E; [|discriminate]. destruct (Hg _ _ E) as [o' ->]. exact Hf.
    - apply follow_cons_child in Hf as (z & Hz & Hf). apply Hc in Hz. rewrite (child_follow _ _ _ _ _ Hz). auto. }
  intros r Hq P. exists q. apply G; auto.
  - intros x n z (o & Ho & Hd). destruct (get_obj w x) as [o0|] eqn:E.
    + destruct (pe_left _ _ _ _ _ _ P _ _ E) as (d & Hd' & Hi). rewrite Hd' in Ho. injection Ho as <-. cbn in Hd. apply Hi in Hd as [Hd _]. exists o0. auto.
    + apply get_obj_lt in Ho. destruct (pe_global _ _ _ _ _ _ P) as (_ & _ & _ & El). rewrite El in Ho. apply get_obj_ex in Ho as [? ?]. congruence.
  - intros x o Ho. apply get_obj_lt in Ho. destruct (pe_global _ _ _ _ _ _ P) as (_ & _ & _ & El). rewrite El in Ho. now apply get_obj_ex.
Qed.

Lemma matches_dec f k a : valid_filter f -> matches f k a \/ ~ matches f k a.
Proof.
  intros Hf. apply to_predicate_ok_iff in Hf as [p Hp]. rewrite <- (to_predicate_spec f p Hp k a). destruct (p k a); [left|right]; congruence.
Qed.
Lemma first_match_exists fs k a : Forall valid_filter fs -> (exists f, In f fs /\ matches f k a) -> exists i, first_match fs i k a.
Proof.
  induction fs as [|g fs IH]; intros Hv (f & Hf & Hm); [destruct Hf|]. inversion Hv as [|? ? V1 V2]; subst. destruct (matches_dec g k a V1) as [Hg|Hg].
  - exists 0. split; [exists g; auto|]. intros j h Hj. lia.
  - destruct Hf as [->|Hf]; [contradiction|]. destruct (IH V2) as (i & (f' & F1 & F2) & F3); [eauto|]. exists (S i). split; [exists f'; auto|].
    intros [|j] h Hj Hh; cbn in Hh; [congruence|]. apply (F3 j); auto. lia.
Qed.
Lemma first_match_some fs i k a : first_match fs i k a -> exists f, In f fs /\ matches f k a.
Proof. intros [(f & F1 & F2) _]. exists f. split; [eapply nth_error_In; eauto|exact F2]. Qed.

Theorem pop_leaves_none w w' r fs out path : pop_effect w w' r fs out path -> Forall valid_filter fs ->
  (forall f k k' a, In f fs -> matches f k a -> matches f k' a) ->
  forall y n a k f, reaches w' r y -> node_attr w' y n a -> In f fs -> ~ matches f k a.
Proof.
  intros P Hv Hpi y n a k f Hy (o' & Ho' & Hd & Hs & Ht) Hf Hm. pose proof (pop_reaches _ _ _ _ _ _ _ P Hy) as Hy0.
  destruct (reaches_valid _ _ _ Hy0) as [o Ho]. destruct (pe_left _ _ _ _ _ _ P _ _ Ho) as (d & E & Hi). rewrite E in Ho'. injection Ho' as <-.
  cbn in Hd. apply Hi in Hd as [Hd Hn]. apply Hn. split; [exact Hy0|]. destruct (pe_global _ _ _ _ _ _ P) as (_ & _ & Hw & _). split.
  - exists o. rewrite <- Hw. auto.
  - apply first_match_exists; [exact Hv|]. exists f. split; [exact Hf|]. eapply Hpi; eauto.
Qed.

(** ** init *)
Theorem init_bracket {A} w r (body : world -> world * result A) w1 w2 res : wf_world w -> valid w r ->
  set_init_all true w r = Ok w1 -> body w1 = (w2, res) -> wf_world w2 -> valid w2 r ->
  exists w3, init_call w r body = (w3, res) /\ flags_set true w r w1 /\ flags_set false w2 r w3.
Proof.
  intros Hw Hr H1 Hb Hw2 Hr2. destruct (set_init_all_flags true w r Hw Hr) as (w1' & E1 & F1). assert (w1' = w1) by congruence. subst w1'.
  destruct (set_init_all_flags false w2 r Hw2 Hr2) as (w3 & E3 & F3). exists w3. split; [|auto]. unfold init_call. now rewrite H1, Hb, E3.
Qed.

(** ** sow on an attribute it cannot extend *)
Theorem sow_rejects h w r vt n v o a : get_obj w r = Some o -> dget n (m_vars o) = Some a ->
  ~ (exists c l, a = ACont c /\ In "Variable" (c_cls c) /\ c_cls c = vt /\ c_val c = PyTuple l) -> sow h w r vt n v = Err ValueError.
Proof.
  intros Ho Hd Hn. unfold sow. rewrite Ho. unfold dmem. rewrite Hd. cbn [orb]. destruct a as [u|c]; [reflexivity|].
  destruct (smem "Variable" (c_cls c)) eqn:E1; cbn [negb]; [|reflexivity]. destruct (cls_eqb (c_cls c) vt) eqn:E2; cbn [negb]; [|reflexivity].
  destruct (c_val c) as [ | | | |l| |] eqn:E3; try reflexivity.
  exfalso; apply Hn; apply smem_In in E1; apply cls_eqb_eq in E2; eauto 10.
Qed.
Theorem sow_guard h w r vt n v o : get_obj w r = Some o -> m_trace o <> w_trace w -> exists e, sow h w r vt n v = Err e.
Proof.
  intros Ho Ht. unfold sow. rewrite Ho. pose proof (fun a => setattr_guard w r n a o Ho Ht) as G. destruct (dmem n (m_vars o) || h n).
  - destruct (dget n (m_vars o)) as [[u|c]|]; try (eexists; reflexivity). destruct (negb (smem "Variable" (c_cls c))); [eexists; reflexivity|].
    destruct (negb (cls_eqb (c_cls c) vt)); [eexists; reflexivity|]. destruct (c_val c); try (eexists; reflexivity). rewrite G. eauto.
  - destruct (container_call vt (CVal (PyTuple [v])) []); cbn; [rewrite G|]; eauto.
Qed.
