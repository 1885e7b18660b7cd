(** update_state with an entry that does not fit: ValueError. *)
From Coq Require Import Permutation.
From Verif Require Import PyBase PyBaseFacts ValuesM Spec_Eq ValuesFacts FiltersM StateM Spec_State State_proofs ModuleM Spec_Module Graph_facts
  Dfs_proofs Build_proofs Bisim_proofs Skel_proofs RoundTrip_proofs Clone_proofs Update_proofs PureM.
Local Open Scope string_scope.
Local Open Scope list_scope.

Lemma assign_cases old new : wf_attr old -> wf_attr new ->
  (exists res, assign_value (Some old) new = Ok res) \/ assign_value (Some old) new = Err ValueError.
Proof.
  intros Ho Hn. unfold assign_value. destruct old as [v|c].
  - destruct new as [v'|c']; [eauto|]. cbn in Hn. rewrite container_copy_id by assumption. cbn. eauto.
  - cbn in Ho. rewrite replace_value by assumption. destruct new as [v'|c']; [cbn; eauto|]. destruct (is_equivalent c c'); cbn; eauto.
Qed.

Definition entry_pre (w : world) (r : nat) (e : entry) : Prop :=
  follow w r (e_parts e) = Some (e_own e) /\
  Forall no_slash (e_parts e) /\ no_slash (e_name e) /\ e_name e <> "_module__state" /\
  is_submodule (e_val e) = false /\
  exists o, get_obj w (e_own e) = Some o /\ m_trace o = w_trace w /\
    (assign_value (dget (e_name e) (m_vars o)) (e_val e) = Ok (e_new e) \/ assign_value (dget (e_name e) (m_vars o)) (e_val e) = Err ValueError) /\
    (forall b, dget (e_name e) (m_vars o) = Some b -> is_submodule b = false).
Definition entry_bad (w : world) (e : entry) : Prop :=
  exists o, get_obj w (e_own e) = Some o /\ assign_value (dget (e_name e) (m_vars o)) (e_val e) = Err ValueError.

Lemma update_loop_refused es : forall w r,
  NoDup (map e_slot es) -> Forall (entry_pre w r) es -> Exists (entry_bad w) es ->
  exists w', update_loop w r (map (fun e => (e_key e, e_val e)) es) = (w', Err ValueError).
Proof.
  induction es as [|e es IH]; intros w r Hnd Hok Hbad; [inversion Hbad|].
  inversion Hok as [|? ? He Hes]; subst. cbn in Hnd. inversion Hnd as [|? ? Hni Hnd']; subst.
  destruct He as (Hf & Hs1 & Hs2 & Hres & Hsub & o & Ho & Ht & Ha & Hb).
  cbn [map update_loop]. unfold e_key at 1.
  assert (Esplit : split_slash (join_path (e_parts e ++ [e_name e])) = e_parts e ++ [e_name e]).
  { apply split_join; [destruct (e_parts e); discriminate|]. apply Forall_app. auto. }
  rewrite Esplit, (set_path_follow _ _ _ _ _ _ Hf).
  destruct Ha as [Ha|Ha].
  2:{ exists w. unfold setattr. rewrite Ho. replace (trace_valid w (m_trace o)) with true by (symmetry; rewrite Ht; apply trace_valid_iff; reflexivity). cbn [negb].
      destruct (String.eqb_spec (e_name e) "_module__state") as [E|_]; [contradiction|]. rewrite Ha. reflexivity. }
  rewrite (setattr_ok _ _ _ _ _ _ Ho Ht Hres Ha).
  set (w1 := put_obj w (e_own e) (set_vars o (dset (e_name e) (e_new e) (m_vars o)))).
  assert (Hw1 : wrote w w1 (single (e_own e) (e_name e) (e_new e))) by (now apply put_wrote).
  assert (Hp1 : plain_writes w (single (e_own e) (e_name e) (e_new e))).
  { intros x n a Hx. unfold single in Hx. destruct (Nat.eqb_spec (e_own e) x) as [<-|]; cbn in Hx; [|discriminate].
    destruct (String.eqb_spec n (e_name e)) as [->|]; [|discriminate]. injection Hx as <-.
    split; [eapply assign_not_sub; eauto|]. intros o' b Ho'. assert (o' = o) by congruence. subst o'. apply Hb. }
  assert (Hs : forall f, In f es -> single (e_own e) (e_name e) (e_new e) (e_own f) (e_name f) = None).
  { intros f Hf'. unfold single. destruct (Nat.eqb_spec (e_own e) (e_own f)) as [E1|E1]; [|reflexivity].
    destruct (String.eqb_spec (e_name f) (e_name e)) as [E2|E2]; [|reflexivity].
    exfalso. apply Hni. apply in_map_iff. exists f. split; [|assumption]. unfold e_slot. congruence. }
  apply IH; auto.
  - rewrite Forall_forall in Hes |- *. intros f Hf'. specialize (Hes f Hf').
    destruct Hes as (Gf & G1 & G2 & G3 & G4 & o2 & Go & Gt & Ga & Gb).
    split; [rewrite (wrote_follow _ _ _ _ Hw1 Hp1); exact Gf|]. split; [exact G1|]. split; [exact G2|].
    split; [exact G3|]. split; [exact G4|].
    destruct (wr_obj _ _ _ Hw1 _ _ Go) as (d & Hd1 & _ & _ & Hd2). exists (set_vars o2 d).
    split; [exact Hd1|]. split; [exact Gt|]. cbn. rewrite Hd2, (Hs f Hf'). auto.
  - inversion Hbad as [? ? (o2 & B1 & B2)|? ? B]; subst.
    + assert (o2 = o) by congruence. subst o2. congruence.
    + apply Exists_exists in B as (f & Hf' & o2 & B1 & B2). apply Exists_exists. exists f. split; [exact Hf'|].
      destruct (wr_obj _ _ _ Hw1 _ _ B1) as (d & Hd1 & _ & _ & Hd2). exists (set_vars o2 d). split; [exact Hd1|]. cbn. rewrite Hd2, (Hs f Hf'). exact B2.
Qed.

Theorem update_module_refused w r s us k0 a0 old0 :
  wf_world w -> valid w r -> names_ok w r -> live w r -> get_state w r = Ok s ->
  Forall (fun u : state => NoDup (keys u)) us ->
  (forall k a, latest k us = Some a -> wf_attr a /\ is_submodule a = false /\ In k (keys s)) ->
  latest k0 us = Some a0 -> dget k0 s = Some old0 -> (forall res, ~ overwrites old0 a0 res) ->
  exists w', update_module w r s us = (w', Err ValueError).
Proof.
  intros Hw Hr Hno Hlive Hs Hus Hcompat Hk0 Hold0 Hbad.
  destruct (graph_exists w r Hw Hr) as (d & L & Hg).
  destruct (get_state_graph w r d L Hw Hr Hg Hno) as (E & s0 & Hs0 & Hwf & (HE1 & HE2 & HE3) & HEf & HPE & HND & Hsl).
  rewrite Hs in Hs0. injection Hs0 as <-.
  pose proof (state_item E s HND HPE) as Hitem.
  set (given := fun i => match latest (join_path (i_path i ++ [i_name i])) us with Some a => a | None => i_val i end).
  set (newv := fun i => match assign_value (Some (i_val i)) (given i) with Ok a => a | Err _ => i_val i end).
  set (ent := fun i => mkE (i_path i) (i_own i) (i_name i) (given i) (newv i)).
  assert (Hwfi : forall i, In i E -> wf_attr (i_val i) /\ is_submodule (i_val i) = false /\ is_node (w_nodes w) (i_val i) = true /\
             exists o, get_obj w (i_own i) = Some o /\ dget (i_name i) (m_vars o) = Some (i_val i)).
  { intros i Hi. destruct (HE1 i Hi) as [_ G]. apply node_attr_iff in G as (o & G1 & G2 & G3 & G4).
    split; [exact (wfo_attrs _ _ (wf_objs _ Hw _ _ G1) _ _ G2)|]. eauto 6. }
  assert (Hgiven : forall i, In i E -> wf_attr (given i) /\ is_submodule (given i) = false).
  { intros i Hi. destruct (Hwfi i Hi) as (F1 & F2 & _). unfold given. destruct (latest (join_path (i_path i ++ [i_name i])) us) as [a|] eqn:El; [|auto].
    apply Hcompat in El as (G1 & G2 & _). split; assumption. }
  set (M := fold_left (fun acc s => dupdate acc s) (s :: us) []).
  assert (HM : Permutation M (map (fun e => (e_key e, e_val e)) (map ent E))).
  { assert (HndE : NoDup (keys (map (fun e => (e_key e, e_val e)) (map ent E)))).
    { unfold keys in *. rewrite !map_map in *. exact HND. }
    apply dget_ext_perm; auto.
    - apply fold_dupdate_NoDup. constructor.
    - intros k. unfold M. rewrite dget_merge_gen.
      2:{ constructor; [now apply wf_NoDup|exact Hus]. }
      change (last_value k (s :: us)) with (match latest k us with Some a => Some a | None => dget k s end). cbn [dget].
      assert (Hk : forall a, dget k s = Some a -> dget k (map (fun e => (e_key e, e_val e)) (map ent E)) =
                 Some (match latest k us with Some b => b | None => a end)).
      { intros a Ha. apply Hitem in Ha as (i & Hi & Ek & ->). apply In_dget; [exact HndE|].
        rewrite map_map. apply in_map_iff. exists i. split; [|exact Hi]. rewrite Ek. unfold e_key, ent, given.
        cbn [e_parts e_name e_val]. destruct (latest (join_path (i_path i ++ [i_name i])) us); reflexivity. }
      destruct (dget k s) as [a|] eqn:Ea.
      + rewrite (Hk a eq_refl). destruct (latest k us); reflexivity.
      + destruct (latest k us) as [b|] eqn:El.
        * apply Hcompat in El as (_ & _ & G). apply dget_Some_keys in G as [x G]. congruence.
        * symmetry. apply dget_None. intros Hi. unfold keys in Hi. rewrite !map_map in Hi. apply in_map_iff in Hi as (i & Ek & Hi).
          assert (dget k s = Some (i_val i)) by (apply Hitem; exists i; auto). congruence. }
  apply Permutation_map_inv in HM. destruct HM as (ES & HM & HpES).
  assert (HES : forall e, In e ES -> exists i, In i E /\ e = ent i).
  { intros e He. apply (Permutation_in _ (Permutation_sym HpES)) in He. apply in_map_iff in He as (i & <- & Hi). eauto. }
  assert (HndES : NoDup (map e_slot ES)).
  { eapply Permutation_NoDup; [apply Permutation_map; exact HpES|]. rewrite map_map. exact HE3. }
  destruct (update_loop_refused ES w r HndES) as (w' & Hrun).
  { apply Forall_forall. intros e He. destruct (HES e He) as (i & Hi & ->). destruct (Hwfi i Hi) as (F1 & F2 & F3 & o & Ho & Hd).
    destruct (Hgiven i Hi) as (G1 & G2). destruct (Hsl i Hi) as [S1 S2].
    unfold entry_pre, ent. cbn [e_parts e_own e_name e_val e_new].
    split; [now apply HEf|]. split; [exact S1|]. split; [exact S2|]. split.
    { intros Heq. apply (wfo_reserved _ _ (wf_objs _ Hw _ _ Ho)). rewrite <- Heq. eapply dget_In_keys; eauto. }
    split; [exact G2|]. exists o. split; [exact Ho|]. split.
    { apply (Hlive (i_own i)); auto. exists (i_path i). auto. }
    rewrite Hd. split; [|intros b [= <-]; exact F2]. unfold newv. destruct (assign_cases (i_val i) (given i) F1 G1) as [[x ->] | ->]; auto. }
  { apply Hitem in Hold0 as (i & Hi & Ek & Ev). apply Exists_exists. exists (ent i). split; [eapply Permutation_in; [exact HpES|]; now apply in_map|].
    destruct (Hwfi i Hi) as (F1 & F2 & F3 & o & Ho & Hd). destruct (Hgiven i Hi) as (G1 & G2). exists o. cbn. split; [exact Ho|]. rewrite Hd.
    destruct (assign_cases (i_val i) (given i) F1 G1) as [[x Hx] | ->]; [|reflexivity]. exfalso.
    apply assign_overwrites in Hx; auto. unfold given in Hx. rewrite <- Ek, Hk0, <- Ev in Hx. exact (Hbad _ Hx). }
  exists w'. unfold update_module. fold M. rewrite HM. exact Hrun.
Qed.

Theorem update_state_refused w r u us s k0 a0 old0 : wf_world w -> valid w r -> names_ok w r -> live w r -> get_state w r = Ok s ->
  updates_states w u = Ok us ->
  (forall r2, u = UModule r2 -> exists o o2, get_obj w r = Some o /\ get_obj w r2 = Some o2 /\ m_cls o = m_cls o2) ->
  Forall (fun u : state => NoDup (keys u)) us ->
  (forall k a, latest k us = Some a -> wf_attr a /\ is_submodule a = false /\ In k (keys s)) ->
  latest k0 us = Some a0 -> dget k0 s = Some old0 -> (forall res, ~ overwrites old0 a0 res) ->
  exists w', update_state w r u = (w', Err ValueError).
Proof.
  intros Hw Hr Hno Hl Hs Hu Hc Hnd Hlat H1 H2 H3. destruct (update_module_refused w r s us k0 a0 old0 Hw Hr Hno Hl Hs Hnd Hlat H1 H2 H3) as (w' & E).
  exists w'. unfold update_state. rewrite Hs. destruct u as [r2|p|x]; cbn in Hu.
  - destruct (Hc r2 eq_refl) as (o & o2 & -> & -> & ->). rewrite cls_eqb_refl. destruct (get_state w r2) as [s2|]; [|discriminate].
    cbn in Hu. injection Hu as <-. exact E.
  - injection Hu as <-. exact E.
  - injection Hu as <-. exact E.
Qed.
