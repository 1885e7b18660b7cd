(** update_state. *)
From Coq Require Import Permutation.
From Verif Require Import PyBase PyBaseFacts ValuesM Spec_Eq ValuesFacts FiltersM StateM Spec_State State_proofs ModuleM Spec_Module Graph_facts
  Dfs_proofs Build_proofs Bisim_proofs Skel_proofs RoundTrip_proofs Clone_proofs.
Local Open Scope string_scope.
Local Open Scope list_scope.

Lemma node_value_iff w a : node_value w a <-> is_node (w_nodes w) a = true.
Proof.
  unfold node_value, is_node, isinstance. rewrite existsb_exists. split; intros (t & H1 & H2); exists t; split; auto; now apply smem_In.
Qed.

Lemma assign_overwrites old new res : wf_attr old -> wf_attr new ->
  (assign_value (Some old) new = Ok res <-> overwrites old new res).
Proof.
  intros Ho Hn. unfold assign_value, overwrites. destruct old as [v|c].
  - destruct new as [v'|c']; [split; congruence|]. cbn in Hn. rewrite container_copy_id by assumption. cbn. split; congruence.
  - cbn in Ho. rewrite replace_value by assumption. destruct new as [v'|c'].
    + cbn. split; congruence.
    + cbn in Hn. destruct (is_equivalent c c') eqn:E.
      * apply is_equivalent_spec in E; auto. destruct E as [E1 E2]. cbn. split; [intros [= <-]; auto|intros (_ & _ & ->); reflexivity].
      * cbn. split; [discriminate|]. intros (H1 & H2 & _). exfalso.
        assert (is_equivalent c c' = true) by (apply is_equivalent_spec; auto). congruence.
Qed.

Lemma overwrites_refl a : wf_attr a -> overwrites a a a.
Proof. destruct a as [v|c]; cbn; [reflexivity|]. intros _. destruct c. repeat split. apply same_meta_refl. Qed.

Lemma overwrites_wf old new res : wf_attr old -> wf_attr new -> overwrites old new res -> wf_attr res.
Proof.
  destruct old as [v|c], new as [v'|c']; cbn; intros Ho Hn; [intros ->; exact I|intros ->; exact Hn| |].
  - intros ->. cbn. now apply wf_container_val.
  - intros (_ & _ & ->). cbn. now apply wf_container_val.
Qed.
Lemma overwrites_not_sub old new res : is_submodule new = false -> overwrites old new res -> is_submodule res = false.
Proof. destruct old as [v|c], new as [v'|c']; cbn; intros H; try (intros ->; auto); intros (_ & _ & ->); reflexivity. Qed.

Lemma wrote_wf w w' T : wf_world w -> wrote w w' T ->
  (forall x n a, T x n = Some a -> wf_attr a /\ is_submodule a = false /\ n <> "_module__state") -> wf_world w'.
Proof.
  intros Hw Hwr HT.
  assert (Hids : map m_id (w_heap w') = map m_id (w_heap w)).
  { apply nth_error_ext. intros i. rewrite !nth_error_map. change (nth_error (w_heap w') i) with (get_obj w' i).
    change (nth_error (w_heap w) i) with (get_obj w i). destruct (get_obj w i) as [o|] eqn:E.
    - destruct (wr_obj _ _ _ Hwr _ _ E) as (d & -> & _). reflexivity.
    - destruct (get_obj w' i) eqn:E'; [|reflexivity]. apply get_obj_lt in E'. rewrite (wr_len _ _ _ Hwr) in E'.
      apply get_obj_ex in E'. destruct E'. congruence. }
  constructor; [rewrite Hids; apply Hw|].
  intros r o' Ho'. assert (Hlt : r < List.length (w_heap w)). { rewrite <- (wr_len _ _ _ Hwr). eapply get_obj_lt; eauto. }
  apply get_obj_ex in Hlt as [o Ho]. destruct (wr_obj _ _ _ Hwr _ _ Ho) as (d & Ho2 & D1 & D2 & D3).
  assert (o' = set_vars o d) by congruence. subst o'. pose proof (wf_objs _ Hw _ _ Ho) as [W1 W2 W3 W4 W5].
  constructor; cbn.
  - rewrite (wr_uuid _ _ _ Hwr). exact W1.
  - auto.
  - intros Hi. destruct (D2 _ Hi) as [H|[a H]]; [auto|]. now apply HT in H as (_ & _ & H).
  - intros n x Hx. rewrite D3 in Hx. rewrite (wr_len _ _ _ Hwr). destruct (T r n) as [a|] eqn:E; [|eauto].
    injection Hx as ->. apply HT in E as (_ & E & _). discriminate.
  - intros n a Ha. rewrite D3 in Ha. destruct (T r n) as [b|] eqn:E; [|eauto]. injection Ha as ->. now apply HT in E.
Qed.

(** writes of nodes over nodes keep the skeleton *)
Lemma wrote_skel w w' T (P : nat -> Prop) : wf_world w -> wrote w w' T ->
  (forall x n y, P x -> child w x n y -> P y) ->
  (forall x, P x -> valid w x) ->
  (forall x n a, T x n = Some a -> is_submodule a = false /\ is_node (w_nodes w) a = true /\
     exists o b, get_obj w x = Some o /\ dget n (m_vars o) = Some b /\ is_submodule b = false /\ is_node (w_nodes w) b = true) ->
  skel w w' (fun x y => x = y /\ P x).
Proof.
  intros Hw Hwr Hcl HP HT. constructor.
  - intros x y [-> Hx]. destruct (get_obj_ex _ _ (HP _ Hx)) as [o Ho]. destruct (wr_obj _ _ _ Hwr _ _ Ho) as (d & Ho' & _ & _ & Hd).
    exists o, (set_vars o d). split; [exact Ho|]. split; [exact Ho'|]. split; [reflexivity|]. split; [reflexivity|].
    intros n. cbn. rewrite Hd. destruct (T y n) as [a|] eqn:E.
    + apply HT in E as (E1 & E2 & o2 & b & G1 & G2 & G3 & G4). assert (o2 = o) by congruence. subst. rewrite G2. cbn. right. left. auto.
    + destruct (dget n (m_vars o)) as [a|] eqn:Ea; [|exact I]. cbn. destruct (attr_cases (w_nodes w) a) as [[c ->]|[[S1 S2]|[S1 S2]]].
      * left. exists c, c. split; [reflexivity|]. split; [reflexivity|]. split; [reflexivity|]. apply (Hcl y n); auto. exists o. auto.
      * right. left. auto.
      * right. right. auto.
  - intros x y y' [-> _] [-> _]. reflexivity.
  - intros x x' y [-> _] [-> _]. reflexivity.
  - symmetry. apply Hwr.
Qed.

Lemma join_key_inj p n q m : Forall no_slash p -> no_slash n -> Forall no_slash q -> no_slash m ->
  join_path (p ++ [n]) = join_path (q ++ [m]) -> p = q /\ n = m.
Proof.
  intros H1 H2 H3 H4 E. apply join_inj in E; try (apply Forall_app; auto).
  - now apply app_inj_tail in E.
  - destruct p; discriminate.
  - destruct q; discriminate.
Qed.

(** values of the state are values of slots *)
Lemma state_item (E : list item) (s : state) : NoDup (keys (map (i_kv []) E)) -> Permutation s (map (i_kv []) E) ->
  forall k a, dget k s = Some a <-> exists i, In i E /\ k = join_path (i_path i ++ [i_name i]) /\ a = i_val i.
Proof.
  intros Hn Hp k a. rewrite (dget_perm k s (map (i_kv []) E)); auto.
  2:{ eapply NoDup_keys_perm; [symmetry; exact Hp|exact Hn]. }
  split.
  - intros H. apply dget_In in H. apply in_map_iff in H as (i & Hi & Hin). unfold i_kv in Hi. cbn in Hi. injection Hi as <- <-. eauto.
  - intros (i & Hi & -> & ->). apply In_dget; [exact Hn|]. apply in_map_iff. exists i. auto.
Qed.

Theorem update_module_effect w r s us :
  wf_world w -> valid w r -> names_ok w r -> live w r -> get_state w r = Ok s ->
  Forall (fun u : state => NoDup (keys u)) us ->
  (forall k a, latest k us = Some a -> wf_attr a /\ is_submodule a = false /\
     exists old res, dget k s = Some old /\ overwrites old a res /\ node_value w res) ->
  exists w', update_module w r s us = (w', Ok tt) /\ update_effect w w' r s us.
Proof.
  intros Hw Hr Hno Hlive Hs Hus Hcompat.
  destruct (graph_exists w r Hw Hr) as (d & L & Hg).
  destruct (get_state_graph w r d L Hw Hr Hg Hno) as (E & s0 & Hs0 & Hwf & (HE1 & HE2 & HE3) & HEf & HPE & HND & Hsl).
  rewrite Hs in Hs0. injection Hs0 as <-.
  pose proof (graph_reaches _ _ _ _ Hw Hr Hg) as Hreach.
  pose proof (state_item E s HND HPE) as Hitem.
  (* what gets assigned for each item *)
  set (given := fun i => match latest (join_path (i_path i ++ [i_name i])) us with Some a => a | None => i_val i end).
  set (newv := fun i => match assign_value (Some (i_val i)) (given i) with Ok a => a | Err _ => i_val i end).
  set (ent := fun i => mkE (i_path i) (i_own i) (i_name i) (given i) (newv i)).
  assert (Hwfi : forall i, In i E -> wf_attr (i_val i) /\ is_submodule (i_val i) = false /\ is_node (w_nodes w) (i_val i) = true /\
             exists o, get_obj w (i_own i) = Some o /\ dget (i_name i) (m_vars o) = Some (i_val i)).
  { intros i Hi. destruct (HE1 i Hi) as [_ G]. apply node_attr_iff in G as (o & G1 & G2 & G3 & G4).
    split; [exact (wfo_attrs _ _ (wf_objs _ Hw _ _ G1) _ _ G2)|]. eauto 6. }
  assert (Hgiven : forall i, In i E -> wf_attr (given i) /\ is_submodule (given i) = false /\ overwrites (i_val i) (given i) (newv i) /\
             is_node (w_nodes w) (newv i) = true /\ assign_value (Some (i_val i)) (given i) = Ok (newv i)).
  { intros i Hi. destruct (Hwfi i Hi) as (F1 & F2 & F3 & _).
    assert (Hbase : wf_attr (given i) /\ is_submodule (given i) = false /\
              exists res, overwrites (i_val i) (given i) res /\ is_node (w_nodes w) res = true).
    { unfold given. destruct (latest _ us) as [a|] eqn:El.
      - apply Hcompat in El as (G1 & G2 & old & res & G3 & G4 & G5). split; [exact G1|]. split; [exact G2|].
        apply Hitem in G3 as (j & Hj & Ek & ->). assert (Hji : i_val j = i_val i).
        { assert (Ha : dget (join_path (i_path i ++ [i_name i])) s = Some (i_val i)) by (apply Hitem; eauto).
          assert (Hb : dget (join_path (i_path i ++ [i_name i])) s = Some (i_val j)) by (apply Hitem; eauto). congruence. }
        rewrite Hji in G4. exists res. split; [exact G4|]. now apply node_value_iff.
      - split; [exact F1|]. split; [exact F2|]. exists (i_val i). split; [now apply overwrites_refl|exact F3]. }
    destruct Hbase as (B1 & B2 & res & B3 & B4). apply assign_overwrites in B3; auto. unfold newv. rewrite B3.
    split; [exact B1|]. split; [exact B2|]. split; [now apply assign_overwrites|]. auto. }
  (* the merged dict is a permutation of the entries *)
  set (M := fold_left (fun acc s => dupdate acc s) (s :: us) []).
  assert (HM : Permutation M (map (fun e => (e_key e, e_val e)) (map ent E))).
  { assert (HndE : NoDup (keys (map (fun e => (e_key e, e_val e)) (map ent E)))).
    { unfold keys in *. rewrite !map_map in *. exact HND. }
    apply dget_ext_perm; auto.
    - apply fold_dupdate_NoDup. constructor.
    - intros k. unfold M. rewrite dget_merge_gen.
      2:{ constructor; [now apply wf_NoDup|exact Hus]. }
      change (last_value k (s :: us)) with (match latest k us with Some a => Some a | None => dget k s end). cbn [dget].
      assert (Hk : forall a, dget k s = Some a -> dget k (map (fun e => (e_key e, e_val e)) (map ent E)) =
                 Some (match latest k us with Some b => b | None => a end)).
      { intros a Ha. apply Hitem in Ha as (i & Hi & Ek & ->). apply In_dget; [exact HndE|].
        rewrite map_map. apply in_map_iff. exists i. split; [|exact Hi]. rewrite Ek. unfold e_key, ent, given.
        cbn [e_parts e_name e_val]. destruct (latest _ us); reflexivity. }
      destruct (dget k s) as [a|] eqn:Ea.
      + rewrite (Hk a eq_refl). destruct (latest k us); reflexivity.
      + destruct (latest k us) as [b|] eqn:El.
        * apply Hcompat in El as (_ & _ & old & res & G & _). congruence.
        * symmetry. apply dget_None. intros Hi. unfold keys in Hi. rewrite !map_map in Hi. apply in_map_iff in Hi as (i & Ek & Hi).
          assert (dget k s = Some (i_val i)) by (apply Hitem; exists i; auto). congruence. }
  apply Permutation_map_inv in HM. destruct HM as (ES & HM & HpES).
  assert (HES : forall e, In e ES -> exists i, In i E /\ e = ent i).
  { intros e He. apply (Permutation_in _ (Permutation_sym HpES)) in He. apply in_map_iff in He as (i & <- & Hi). eauto. }
  assert (HndES : NoDup (map e_slot ES)).
  { eapply Permutation_NoDup; [apply Permutation_map; exact HpES|]. rewrite map_map. exact HE3. }
  destruct (update_loop_entries ES w r HndES) as (w' & Hrun & Hwr & Hpl).
  { apply Forall_forall. intros e He. destruct (HES e He) as (i & Hi & ->). destruct (Hwfi i Hi) as (F1 & F2 & F3 & o & Ho & Hd).
    destruct (Hgiven i Hi) as (G1 & G2 & G3 & G4 & G5). destruct (Hsl i Hi) as [S1 S2].
    unfold entry_ok, ent. cbn [e_parts e_own e_name e_val e_new].
    split; [now apply HEf|]. split; [exact S1|]. split; [exact S2|]. split.
    { intros Heq. apply (wfo_reserved _ _ (wf_objs _ Hw _ _ Ho)). rewrite <- Heq. eapply dget_In_keys; eauto. }
    split; [exact G2|]. exists o. split; [exact Ho|]. split.
    { apply (Hlive (i_own i)); auto. exists (i_path i). auto. }
    rewrite Hd. split; [exact G5|]. intros b [= <-]. exact F2. }
  exists w'. split.
  { unfold update_module. fold M. rewrite HM. exact Hrun. }
  (* consequences *)
  assert (HT : forall x n a, writes ES x n = Some a -> exists i, In i E /\ i_own i = x /\ i_name i = n /\ a = newv i).
  { intros x n a Hwa. apply writes_Some in Hwa as (e & He & E1 & E2 & E3). destruct (HES e He) as (i & Hi & ->). eauto 6. }
  assert (HTi : forall i, In i E -> writes ES (i_own i) (i_name i) = Some (newv i)).
  { intros i Hi. apply (writes_In ES (ent i) HndES). eapply Permutation_in; [exact HpES|]. apply in_map. exact Hi. }
  assert (Hwf' : wf_world w').
  { apply (wrote_wf w w' (writes ES)); auto. intros x n a Ha. apply HT in Ha as (i & Hi & <- & <- & ->).
    destruct (Hwfi i Hi) as (F1 & F2 & F3 & o & Ho & Hd). destruct (Hgiven i Hi) as (G1 & G2 & G3 & G4 & G5).
    split; [exact (overwrites_wf _ _ _ F1 G1 G3)|]. split; [exact (overwrites_not_sub _ _ _ G2 G3)|].
    intros Heq. apply (wfo_reserved _ _ (wf_objs _ Hw _ _ Ho)). rewrite <- Heq. eapply dget_In_keys; eauto. }
  assert (Hsk : skel w w' (fun x y => x = y /\ In x L)).
  { apply (wrote_skel w w' (writes ES)); auto.
    - intros x n y Hx Hc. apply Hreach. apply Hreach in Hx. eapply reaches_trans; [exact Hx|]. eapply reaches_child; eauto.
    - destruct (graph_NoDup _ _ _ _ Hw Hr Hg) as [_ HvL]. rewrite Forall_forall in HvL. exact HvL.
    - intros x n a Ha. apply HT in Ha as (i & Hi & <- & <- & ->).
      destruct (Hwfi i Hi) as (F1 & F2 & F3 & o & Ho & Hd). destruct (Hgiven i Hi) as (G1 & G2 & G3 & G4 & G5).
      split; [exact (overwrites_not_sub _ _ _ G2 G3)|]. split; [exact G4|]. exists o, (i_val i). auto. }
  assert (HrL : In r L). { apply Hreach. destruct (get_obj_ex _ _ Hr) as [o Ho]. eapply reaches_refl; eauto. }
  constructor.
  - exact Hwf'.
  - symmetry. apply (skel_module_def w w' _ r r Hw Hwf' Hsk). auto.
  - assert (Hr' : valid w' r). { unfold valid. rewrite (wr_len _ _ _ Hwr). exact Hr. }
    destruct (graph_exists w' r Hwf' Hr') as (d' & L' & Hg').
    assert (Hno' : names_ok w' r). { eapply skel_names_ok; eauto. cbn. auto. }
    destruct (iter_state_graph w r d L Hw Hr Hg) as (E0 & _ & _ & HI0).
    destruct (get_state_graph w' r d' L' Hwf' Hr' Hg' Hno') as (E2 & s2 & Hs2 & Hwf2 & (K1 & K2 & K3) & K4 & K5 & K6 & K7).
    pose proof (state_item E2 s2 K6 K5) as Hitem2.
    exists s2. split; [exact Hs2|].
    assert (Hkeys : forall k, In k (keys s2) <-> In k (keys s)).
    { unfold get_state in Hs, Hs2. rewrite HI0 in Hs. cbn in Hs. injection Hs as Hs.
      destruct (iter_state w' r) as [ys|] eqn:HI2; [|discriminate]. cbn in Hs2. injection Hs2 as Hs2.
      pose proof (skel_iter_keys w w' _ r r _ _ Hw Hwf' Hsk (conj eq_refl HrL) HI0 HI2) as HK.
      intros k. rewrite <- Hs2, <- Hs. unfold mk_state, dict_of. rewrite !In_keys_dupdate. cbn.
      assert (Hsort : forall l : list (string * attr), In k (keys (sort_by_key l)) <-> In k (keys l)).
      { intros l. unfold keys. split; apply Permutation_in, Permutation_map; [apply sort_perm|symmetry; apply sort_perm]. }
      rewrite !Hsort. unfold keys in *. rewrite HK. tauto. }
    split.
    { (* both sorted with the same keys *)
      assert (Hu : map (fun kv => (fst kv, tt)) s2 = map (fun kv => (fst kv, tt)) s).
      { apply strict_ext_eq.
        - apply keys_increasing_klt. unfold keys_increasing. rewrite map_map. exact Hwf2.
        - apply keys_increasing_klt. unfold keys_increasing. rewrite map_map. exact Hwf.
        - intros k. destruct (in_dec string_dec k (keys s)) as [Hi|Hi].
          + assert (Hi2 : In k (keys s2)) by (now apply Hkeys).
            destruct (dget_Some_keys k (map (fun kv => (fst kv, tt)) s)) as [[] H1].
            { unfold keys. rewrite map_map. exact Hi. }
            destruct (dget_Some_keys k (map (fun kv => (fst kv, tt)) s2)) as [[] H2].
            { unfold keys. rewrite map_map. exact Hi2. } congruence.
          + assert (Hi2 : ~ In k (keys s2)) by (now rewrite Hkeys).
            rewrite (proj2 (dget_None k (map (fun kv => (fst kv, tt)) s))), (proj2 (dget_None k (map (fun kv => (fst kv, tt)) s2))); auto.
            all: unfold keys; rewrite map_map; assumption. }
      apply (f_equal (map fst)) in Hu. rewrite !map_map in Hu. exact Hu. }
    intros k old Hk. pose proof Hk as Hk0. apply Hitem in Hk as (i & Hi & Ek & ->).
    assert (Hin2 : In k (keys s2)). { apply Hkeys. eapply dget_In_keys; eauto. }
    apply dget_Some_keys in Hin2 as [res Hres]. exists res. split; [exact Hres|].
    apply Hitem2 in Hres as (j & Hj & Ek2 & ->).
    destruct (Hsl i Hi) as [S1 S2]. destruct (K7 j Hj) as [S3 S4]. rewrite Ek in Ek2.
    apply join_key_inj in Ek2 as [Ep En]; auto.
    assert (Hown : i_own j = i_own i).
    { pose proof (K4 j Hj) as F. rewrite <- Ep in F. rewrite (wrote_follow w w' _ _ Hwr Hpl) in F. rewrite (HEf i Hi) in F. congruence. }
    destruct (K1 j Hj) as [_ Hna]. destruct Hna as (oj & Hoj & Hdj & _). rewrite Hown, <- En in *.
    destruct (Hwfi i Hi) as (F1 & F2 & F3 & o & Ho & Hd). destruct (wr_obj _ _ _ Hwr _ _ Ho) as (dd & Hdd1 & _ & _ & Hdd2).
    assert (oj = set_vars o dd) by congruence. subst oj. cbn in Hdj. rewrite Hdd2, (HTi i Hi) in Hdj. injection Hdj as <-.
    destruct (Hgiven i Hi) as (G1 & G2 & G3 & G4 & G5). unfold newv, given in *. rewrite <- Ek in *.
    destruct (latest k us) as [a|]; [exact G3|].
    assert (G6 : overwrites (i_val i) (i_val i) (i_val i)) by (now apply overwrites_refl). apply assign_overwrites in G6; auto. now rewrite G6.
  - intros p. apply (wrote_follow w w' _ _ Hwr Hpl).
  - intros x o Ho. destruct (wr_obj _ _ _ Hwr _ _ Ho) as (dd & H & _). eauto.
  - intros x Hx. apply (wr_same _ _ _ Hwr). intros n. destruct (writes ES x n) as [a|] eqn:Ea; [|reflexivity].
    apply HT in Ea as (i & Hi & <- & _). destruct Hx. exists (i_path i). auto.
  - split; [apply Hwr|]. split; [apply Hwr|]. split; apply Hwr.
  - eapply skel_names_ok; eauto. cbn. auto.
Qed.
