(** The leaves of [mutable_state_dict]. *)
From Coq Require Import Permutation.
From Verif Require Import PyBase PyBaseFacts ValuesM Spec_Eq ValuesFacts FiltersM StateM Spec_State State_proofs ModuleM PureM Spec_Module Spec_History Spec_Leaf
  Graph_facts Dfs_proofs Build_proofs Clone_proofs Skel_proofs Update_proofs Mdef_proofs Write_proofs Laws_proofs Refuse_proofs.
Local Open Scope string_scope.
Local Open Scope list_scope.

Lemma value_path_follow w p : forall r x, follow w r p = Some x -> value_path w r p = Ok x.
Proof.
  induction p as [|n p IH]; intros r x H; cbn in *; destruct (get_obj w r) as [o|]; try discriminate; [congruence|].
  destruct (dget n (m_vars o)) as [[[]|]|]; try discriminate. auto.
Qed.
Lemma value_path_app w p q : forall r, forall x, value_path w r p = Ok x -> value_path w r (p ++ q) = value_path w x q.
Proof.
  induction p as [|n p IH]; intros r x H; [inversion H; reflexivity|]. cbn [value_path app] in *. destruct (get_obj w r) as [o|]; [|discriminate].
  destruct (dget n (m_vars o)) as [[[]|]|]; try (destruct p; discriminate). apply IH, H.
Qed.
Lemma mutable_leaf_at w r p n x : follow w r p = Some x -> Forall no_slash p -> no_slash n ->
  mutable_leaf w r (join_path (p ++ [n])) = Ok (x, n).
Proof.
  intros H Hp Hn. unfold mutable_leaf. rewrite split_join; [|destruct p; discriminate|apply Forall_app; auto].
  cbv zeta. rewrite removelast_last, last_last, (value_path_follow _ _ _ _ H). reflexivity.
Qed.

Definition i_leaf (i : item) : string * (nat * string) := (join_path (i_path i ++ [i_name i]), (i_own i, i_name i)).
Lemma leaf_dict w r d L : wf_world w -> valid w r -> graph w r d L -> names_ok w r ->
  exists E s, get_state w r = Ok s /\ items_spec w L E /\ (forall i, In i E -> follow w r (i_path i) = Some (i_own i)) /\
    Permutation s (map (i_kv []) E) /\ NoDup (keys (map (i_kv []) E)) /\
    (forall i, In i E -> Forall no_slash (i_path i) /\ no_slash (i_name i)) /\
    mutable_state_dict w r = Ok (map i_leaf E).
Proof.
  intros Hw Hr Hg Hno. destruct (iter_state_graph w r d L Hw Hr Hg) as (E & H1 & H2 & H3).
  destruct (items_keys _ _ _ _ _ Hw Hr Hg Hno H1 H2) as [H4 H5].
  exists E, (mk_state (map (i_kv []) E)). unfold get_state. rewrite H3. cbn [rbind]. split; [reflexivity|]. split; [exact H1|]. split; [exact H2|].
  split; [rewrite mk_state_NoDup by assumption; apply sort_perm|]. split; [exact H5|]. split; [exact H4|].
  unfold mutable_state_dict. rewrite H3. cbn [rbind].
  assert (Q : rmapM (fun kv : string * attr => do l <- mutable_leaf w r (fst kv); Ok (fst kv, l)) (map (i_kv []) E) = Ok (map i_leaf E)).
  { apply rmapM_ok_iff. clear -H2 H4. induction E as [|i E IH]; cbn [map]; constructor.
    - destruct (H4 i (or_introl eq_refl)). cbn [i_kv fst app]. rewrite (mutable_leaf_at w r _ _ (i_own i)); auto. apply H2. now left.
    - apply IH; intros j Hj; [apply H2|apply H4]; now right. }
  rewrite Q. cbn [rbind]. f_equal. apply dict_of_nodup. unfold keys in *. rewrite map_map in *. exact H5.
Qed.

Lemma leaf_entry w r s dl k x n : wf_world w -> valid w r -> names_ok w r -> get_state w r = Ok s -> mutable_state_dict w r = Ok dl ->
  dget k dl = Some (x, n) ->
  exists p a, k = join_path (p ++ [n]) /\ follow w r p = Some x /\ Forall no_slash p /\ no_slash n /\ node_attr w x n a /\ dget k s = Some a.
Proof.
  intros Hw Hr Hno Hs Hd Hk. destruct (graph_exists w r Hw Hr) as (d & L & Hg).
  destruct (leaf_dict w r d L Hw Hr Hg Hno) as (E & s0 & Hs0 & (H1 & _ & _) & H2 & H3 & H4 & H5 & H6).
  rewrite Hs in Hs0. injection Hs0 as <-. rewrite Hd in H6. injection H6 as ->.
  apply dget_In in Hk. apply in_map_iff in Hk as (i & Ei & Hi). injection Ei as <- <- <-. exists (i_path i), (i_val i). destruct (H5 i Hi), (H1 i Hi).
  repeat split; auto. apply (state_item E s H4 H3). eauto.
Qed.

Lemma leaves_inj w r dl k k' l : wf_world w -> valid w r -> names_ok w r -> mutable_state_dict w r = Ok dl ->
  dget k dl = Some l -> dget k' dl = Some l -> k = k'.
Proof.
  intros Hw Hr Hno Hd Hk Hk'. destruct (graph_exists w r Hw Hr) as (d & L & Hg).
  destruct (leaf_dict w r d L Hw Hr Hg Hno) as (E & s0 & _ & (_ & _ & H1) & _ & _ & _ & _ & H6). rewrite Hd in H6. injection H6 as ->.
  apply dget_In in Hk, Hk'. apply in_map_iff in Hk as (i & Ei & Hi). apply in_map_iff in Hk' as (j & Ej & Hj).
  assert (i_slot i = i_slot j) by (unfold i_leaf in Ei, Ej; unfold i_slot; congruence).
  assert (i = j). { clear -H1 Hi Hj H. induction E as [|e E IH]; [destruct Hi|]. cbn in H1. inversion H1 as [|? ? N1 N2]; subst.
    destruct Hi as [->|Hi], Hj as [->|Hj]; auto; exfalso; apply N1; apply in_map_iff; eauto. }
  subst j. congruence.
Qed.

Lemma leaves_keys w r s : wf_world w -> valid w r -> names_ok w r -> get_state w r = Ok s ->
  exists dl, mutable_state_dict w r = Ok dl /\ NoDup (keys dl) /\ Permutation (keys dl) (keys s).
Proof.
  intros Hw Hr Hno Hs. destruct (graph_exists w r Hw Hr) as (d & L & Hg).
  destruct (leaf_dict w r d L Hw Hr Hg Hno) as (E & s0 & Hs0 & H1 & H2 & H3 & H4 & H5 & H6).
  rewrite Hs in Hs0. injection Hs0 as <-. exists (map i_leaf E). split; [exact H6|].
  assert (K : keys (map i_leaf E) = keys (map (i_kv []) E)) by (unfold keys; rewrite !map_map; reflexivity).
  rewrite K. split; [exact H4|]. symmetry. now apply Permutation_map.
Qed.

(** writing back what is there changes nothing *)
Lemma setattr_same w x n o a : get_obj w x = Some o -> m_trace o = w_trace w -> n <> "_module__state" -> dget n (m_vars o) = Some a -> wf_attr a ->
  setattr w x n a = Ok w.
Proof.
  intros Ho Ht Hn Hd Ha. unfold setattr. rewrite Ho, (proj2 (trace_valid_iff _ _) Ht). cbn [negb]. rewrite (proj2 (String.eqb_neq _ _) Hn), Hd.
  rewrite (proj2 (assign_overwrites a a a Ha Ha) (overwrites_refl a Ha)). cbn [rbind]. rewrite dset_id by exact Hd. rewrite set_vars_id. f_equal.
  unfold put_obj, set_heap. rewrite list_set_id by exact Ho. now destruct w.
Qed.
Lemma update_loop_one w w' r k v l1 l2 : (forall k' a', In (k', a') l1 -> set_path w r (split_slash k') a' = Ok w) ->
  set_path w r (split_slash k) v = Ok w' -> (forall k' a', In (k', a') l2 -> set_path w' r (split_slash k') a' = Ok w') ->
  update_loop w r (l1 ++ (k, v) :: l2) = (w', Ok tt).
Proof.
  intros H1 H H2. induction l1 as [|[k1 a1] l1 IH]; cbn [app update_loop].
  - rewrite H. clear H H1. induction l2 as [|[k2 a2] l2 IH]; cbn [update_loop]; [reflexivity|].
    rewrite (H2 k2 a2) by (now left). apply IH. intros k' a' Hi. apply H2. now right.
  - rewrite (H1 k1 a1) by (now left). apply IH. intros k' a' Hi. apply H1. now right.
Qed.

(** an assignment through a leaf is update_state with that entry *)
Lemma leaf_update w r s dl k x n v w' : wf_world w -> valid w r -> names_ok w r -> live w r -> get_state w r = Ok s -> mutable_state_dict w r = Ok dl ->
  dget k dl = Some (x, n) -> wf_attr v -> is_submodule v = false -> leaf_set w (x, n) v = Ok w' ->
  update_module w r s [[(k, v)]] = (w', Ok tt).
Proof.
  intros Hw Hr Hno Hl Hs Hd Hk Hv Hsub Hset. cbn [leaf_set fst snd] in Hset. unfold leaf_set in Hset. cbn [fst snd] in Hset.
  destruct (leaf_entry _ _ _ _ _ _ _ Hw Hr Hno Hs Hd Hk) as (p & old & Ek & Hf & Hp & Hn & Ha & Hold).
  unfold update_module. cbn [fold_left]. change (dupdate [] s) with (dict_of s). assert (Hwf : wf_state s) by (destruct (get_state_total w r Hw Hr) as (s1 & S1 & S2); congruence).
  assert (HN : NoDup (keys s)) by now apply wf_NoDup. rewrite dict_of_nodup by exact HN. change (dupdate s [(k, v)]) with (dset k v s).
  assert (G : forall k' a', dget k' s = Some a' -> exists p' n' x' o', k' = join_path (p' ++ [n']) /\ Forall no_slash p' /\ no_slash n' /\ follow w r p' = Some x' /\
            get_obj w x' = Some o' /\ dget n' (m_vars o') = Some a' /\ wf_attr a' /\ is_submodule a' = false /\ n' <> "_module__state" /\ dget k' dl = Some (x', n')).
  { intros k' a' H. destruct (leaves_keys _ _ _ Hw Hr Hno Hs) as (dl' & Hd' & Nd & Pk). rewrite Hd in Hd'. injection Hd' as <-.
    assert (I : In k' (keys dl)) by (apply (Permutation_in _ (Permutation_sym Pk)); eapply dget_In_keys; eauto).
    apply dget_Some_keys in I as [[x' n'] I]. destruct (leaf_entry _ _ _ _ _ _ _ Hw Hr Hno Hs Hd I) as (p' & b & E' & F' & P' & N' & A' & S').
    rewrite H in S'. injection S' as <-. destruct A' as (o' & O' & D' & B' & _). exists p', n', x', o'. repeat split; auto.
    - exact (wfo_attrs _ _ (wf_objs _ Hw _ _ O') _ _ D').
    - intros Heq. apply (wfo_reserved _ _ (wf_objs _ Hw _ _ O')). rewrite <- Heq. eapply dget_In_keys; eauto. }
  assert (Hdup : exists l1 l2, s = l1 ++ (k, old) :: l2 /\ dset k v s = l1 ++ (k, v) :: l2 /\ ~ In k (keys l1) /\ ~ In k (keys l2)).
  { clear -HN Hold. induction s as [|[k1 a1] s IH]; [discriminate|]. cbn [dget dset] in *. cbn in HN. inversion HN as [|? ? N1 N2]; subst.
    destruct (String.eqb_spec k k1) as [->|Hne].
    - injection Hold as ->. exists [], s. repeat split; auto.
    - destruct (IH Hold N2) as (l1 & l2 & E1 & E2 & E3 & E4). exists ((k1, a1) :: l1), l2. rewrite E1 at 1. rewrite E2. repeat split; auto.
      cbn. intros [H|H]; congruence || auto. }
  destruct Hdup as (l1 & l2 & E1 & E2 & E3 & E4). rewrite E2.
  assert (Hin : forall k' a', In (k', a') l1 \/ In (k', a') l2 -> dget k' s = Some a' /\ k' <> k).
  { intros k' a' H. split.
    - apply In_dget; [exact HN|]. rewrite E1. apply in_or_app. cbn. tauto.
    - intros ->. destruct H as [H|H]; apply (in_map fst) in H; [now apply E3|now apply E4]. }
  apply setattr_inv in Hset as (o & res & Ho & Ht & Hrs & Has & Ew).
  assert (Hsame : forall k' a', In (k', a') l1 \/ In (k', a') l2 -> set_path w r (split_slash k') a' = Ok w /\ set_path w' r (split_slash k') a' = Ok w').
  { intros k' a' H. destruct (Hin _ _ H) as [H1 H2]. destruct (G _ _ H1) as (p' & n' & x' & o' & Q1 & Q2 & Q3 & Q4 & Q5 & Q6 & Q7 & Q8 & Q9 & Q10).
    rewrite Q1, split_join by (first [destruct p'; discriminate|apply Forall_app; auto]).
    assert (T' : m_trace o' = w_trace w) by (apply (Hl x'); auto; exists p'; auto).
    split.
    - rewrite (set_path_setattr _ _ _ _ _ _ Q4). eapply setattr_same; eauto.
    - destruct Ha as (o1 & O1 & D1 & B1 & _). rewrite Ho in O1. injection O1 as <-.
      assert (Ok1 : entry_ok w r (mkE p x n v res)).
      { unfold entry_ok. cbn [e_parts e_own e_name e_val e_new]. repeat split; auto. exists o. repeat split; auto. intros b D. rewrite D1 in D. injection D as <-. exact B1. }
      destruct (update_loop_entries [mkE p x n v res] w r) as (w2 & L2 & Wr & Pl); [repeat constructor; auto|constructor; [exact Ok1|constructor]|].
      cbn [map update_loop e_key e_parts e_name e_val] in L2. unfold e_key in L2. cbn [e_parts e_name] in L2.
      rewrite split_join in L2 by (first [destruct p; discriminate|apply Forall_app; auto]).
      rewrite (set_path_setattr _ _ _ _ _ _ Hf) in L2.
      assert (S2 : setattr w x n v = Ok w'). { unfold setattr. rewrite Ho, (proj2 (trace_valid_iff _ _) Ht). cbn [negb]. rewrite (proj2 (String.eqb_neq _ _) Hrs), Has. cbn [rbind]. now rewrite Ew. }
      rewrite S2 in L2. injection L2 as <-.
      assert (F' : follow w' r p' = Some x') by now rewrite (wrote_follow _ _ _ _ Wr Pl).
      rewrite (set_path_setattr _ _ _ _ _ _ F'). destruct (wr_obj _ _ _ Wr _ _ Q5) as (dd & D2 & _ & _ & D3).
      eapply setattr_same; [exact D2| |exact Q9| |exact Q7].
      + cbn. rewrite (wr_trace _ _ _ Wr). exact T'.
      + cbn. rewrite D3. rewrite writes_None; [exact Q6|]. cbn. intros [X|[]]. injection X as X1 X2. subst x' n'.
        (* the same slot twice: the keys would be equal *)
        exact (H2 (leaves_inj _ _ _ _ _ _ Hw Hr Hno Hd Q10 Hk)). }
  apply update_loop_one.
  - intros k' a' H. apply Hsame. now left.
  - rewrite Ek, split_join by (first [destruct p; discriminate|apply Forall_app; auto]). rewrite (set_path_setattr _ _ _ _ _ _ Hf).
    unfold setattr. rewrite Ho, (proj2 (trace_valid_iff _ _) Ht). cbn [negb]. rewrite (proj2 (String.eqb_neq _ _) Hrs), Has. cbn [rbind]. now rewrite Ew.
  - intros k' a' H. apply Hsame. now right.
Qed.

(** the same leaves after an update *)
Lemma leaves_kept w w' r s us dl : wf_world w -> valid w r -> names_ok w r -> get_state w r = Ok s -> mutable_state_dict w r = Ok dl ->
  update_effect w w' r s us -> exists dl', mutable_state_dict w' r = Ok dl' /\ forall k, dget k dl' = dget k dl.
Proof.
  intros Hw Hr Hno Hs Hd U. destruct (ue_state _ _ _ _ _ U) as (s' & Hs' & Ks & _). pose proof (ue_wf _ _ _ _ _ U) as Hw'. pose proof (ue_names _ _ _ _ _ U) as Hno'.
  assert (Hr' : valid w' r). { unfold valid. destruct (ue_global _ _ _ _ _ U) as (_ & _ & _ & ->). exact Hr. }
  destruct (leaves_keys _ _ _ Hw' Hr' Hno' Hs') as (dl' & Hd' & Nd' & Pk'). destruct (leaves_keys _ _ _ Hw Hr Hno Hs) as (dl1 & Hd1 & Nd & Pk).
  rewrite Hd in Hd1. injection Hd1 as <-. exists dl'. split; [exact Hd'|]. intros k.
  assert (I : In k (keys dl') <-> In k (keys dl)).
  { split; intros H.
    - apply (Permutation_in _ (Permutation_sym Pk)). rewrite <- Ks. apply (Permutation_in _ Pk'). exact H.
    - apply (Permutation_in _ (Permutation_sym Pk')). rewrite Ks. apply (Permutation_in _ Pk). exact H. }
  destruct (dget k dl) as [[x n]|] eqn:E.
  - destruct (dget_Some_keys k dl') as [[x' n'] E']; [apply I; eapply dget_In_keys; eauto|]. rewrite E'.
    destruct (leaf_entry _ _ _ _ _ _ _ Hw Hr Hno Hs Hd E) as (p & a & K & F & P & N & _).
    destruct (leaf_entry _ _ _ _ _ _ _ Hw' Hr' Hno' Hs' Hd' E') as (p' & a' & K' & F' & P' & N' & _).
    rewrite K in K'. apply join_key_inj in K' as [-> ->]; auto. rewrite (ue_follow _ _ _ _ _ U) in F'. congruence.
  - apply dget_None. rewrite I. now apply dget_None.
Qed.

Lemma leaf_write w r s dl k x n v old res : wf_world w -> valid w r -> names_ok w r -> live w r -> get_state w r = Ok s -> mutable_state_dict w r = Ok dl ->
  dget k dl = Some (x, n) -> wf_attr v -> is_submodule v = false -> dget k s = Some old -> overwrites old v res -> node_value w res ->
  exists w', leaf_set w (x, n) v = Ok w' /\ update_state w r (UStates (One [(k, v)])) = (w', Ok tt) /\ update_effect w w' r s [[(k, v)]] /\
    (forall y, y <> x -> get_obj w' y = get_obj w y) /\
    exists o d, get_obj w x = Some o /\ get_obj w' x = Some (set_vars o d) /\ dget n d = Some res /\ forall m, m <> n -> dget m d = dget m (m_vars o).
Proof.
  intros Hw Hr Hno Hl Hs Hd Hk Hv Hsub Hold Hov Hnode.
  destruct (leaf_entry _ _ _ _ _ _ _ Hw Hr Hno Hs Hd Hk) as (p & a & Ek & Hf & Hp & Hn & Ha & Hs1). rewrite Hold in Hs1. injection Hs1 as <-.
  destruct Ha as (o & Ho & Hdn & _). pose proof (wf_objs _ Hw _ _ Ho) as W.
  assert (Ht : m_trace o = w_trace w) by (apply (Hl x); auto; exists p; auto).
  assert (Hrs : n <> "_module__state"). { intros ->. apply (wfo_reserved _ _ W). eapply dget_In_keys; eauto. }
  assert (S : leaf_set w (x, n) v = Ok (put_obj w x (set_vars o (dset n res (m_vars o))))).
  { unfold leaf_set, setattr. cbn [fst snd]. rewrite Ho, (proj2 (trace_valid_iff _ _) Ht). cbn [negb]. rewrite (proj2 (String.eqb_neq _ _) Hrs), Hdn.
    rewrite (proj2 (assign_overwrites old v res (wfo_attrs _ _ W _ _ Hdn) Hv) Hov). reflexivity. }
  pose proof (leaf_update _ _ _ _ _ _ _ _ _ Hw Hr Hno Hl Hs Hd Hk Hv Hsub S) as Q.
  eexists. split; [exact S|]. split; [unfold update_state; rewrite Hs; exact Q|].
  split.
  { destruct (update_module_effect w r s [[(k, v)]] Hw Hr Hno Hl Hs) as (w2 & Q2 & U).
    - constructor; [repeat constructor; auto|constructor].
    - intros k' a'. cbn. destruct (String.eqb_spec k' k) as [->|]; [|discriminate]. intros E. injection E as <-. split; [exact Hv|]. split; [exact Hsub|]. eauto.
    - rewrite Q in Q2. injection Q2 as <-. exact U. }
  split; [intros y Hy; apply get_put_other; congruence|].
  exists o, (dset n res (m_vars o)). split; [exact Ho|]. split; [eapply get_put_same; eauto|]. split; [apply dget_dset_same|]. intros m Hm. now apply dget_dset_other.
Qed.

Lemma leaf_refused w r s dl k x n v old : wf_world w -> valid w r -> names_ok w r -> get_state w r = Ok s -> mutable_state_dict w r = Ok dl ->
  dget k dl = Some (x, n) -> wf_attr v -> dget k s = Some old -> (forall res, ~ overwrites old v res) ->
  live w r -> leaf_set w (x, n) v = Err ValueError.
Proof.
  intros Hw Hr Hno Hs Hd Hk Hv Hold Hov Hl.
  destruct (leaf_entry _ _ _ _ _ _ _ Hw Hr Hno Hs Hd Hk) as (p & a & Ek & Hf & Hp & Hn & Ha & Hs1). rewrite Hold in Hs1. injection Hs1 as <-.
  destruct Ha as (o & Ho & Hdn & _). pose proof (wf_objs _ Hw _ _ Ho) as W.
  assert (Ht : m_trace o = w_trace w) by (apply (Hl x); auto; exists p; auto).
  assert (Hrs : n <> "_module__state"). { intros ->. apply (wfo_reserved _ _ W). eapply dget_In_keys; eauto. }
  unfold leaf_set, setattr. cbn [fst snd]. rewrite Ho, (proj2 (trace_valid_iff _ _) Ht). cbn [negb]. rewrite (proj2 (String.eqb_neq _ _) Hrs), Hdn.
  destruct (assign_cases old v (wfo_attrs _ _ W _ _ Hdn) Hv) as [[z E] | ->]; [|reflexivity].
  apply (assign_overwrites old v z (wfo_attrs _ _ W _ _ Hdn) Hv) in E. destruct (Hov _ E).
Qed.

(** ** Histories of assignments through leaves obtained once *)
Lemma write_all_ext dl dl' ws : (forall k, dget k dl' = dget k dl) -> forall w, write_all dl' w ws = write_all dl w ws.
Proof.
  intros H. induction ws as [|[k v] ws IH]; intros w; cbn [write_all]; [reflexivity|]. rewrite H. destruct (dget k dl); [|reflexivity].
  destruct (leaf_set w p (ARaw v)); cbn [rbind]; auto.
Qed.
Lemma effect_live w w' r s us : live w r -> update_effect w w' r s us -> live w' r.
Proof.
  intros Hl U x o' [p Hp] Ho'. rewrite (ue_follow _ _ _ _ _ U) in Hp. destruct (get_obj w x) as [o|] eqn:Ho.
  - destruct (ue_objs _ _ _ _ _ U _ _ Ho) as [d Hd]. rewrite Hd in Ho'. injection Ho' as <-. cbn. destruct (ue_global _ _ _ _ _ U) as (_ & -> & _).
    apply (Hl x); auto. now exists p.
  - exfalso. assert (reaches w r x) as Hx by now exists p. destruct (reaches_valid _ _ _ Hx). congruence.
Qed.
Lemma effect_refl w r s : wf_world w -> names_ok w r -> get_state w r = Ok s -> update_effect w w r s [].
Proof.
  intros Hw Hno Hs. constructor; auto.
  - exists s. split; [exact Hs|]. split; [reflexivity|]. intros k old H. exists old. split; [exact H|reflexivity].
  - intros x o Ho. exists (m_vars o). now rewrite set_vars_id.
Qed.
Definition kind_kept (old res : attr) : Prop :=
  match old, res with
  | ACont c, ACont c' => c_cls c = c_cls c' /\ c_meta c = c_meta c'
  | ARaw _, ARaw _ => True
  | _, _ => False
  end.
Lemma raw_kind old v res : overwrites old (ARaw v) res -> kind_kept old res.
Proof. destruct old; cbn; intros ->; cbn; auto. Qed.
Lemma raw_through old mid v res : kind_kept old mid -> (overwrites mid (ARaw v) res <-> overwrites old (ARaw v) res).
Proof. destruct old as [?|c], mid as [?|c']; cbn; try tauto. intros [-> ->]. tauto. Qed.

Lemma latest_raw k ws a : latest k (raws ws) = Some a -> exists v, a = ARaw v.
Proof.
  induction ws as [|[k' v] ws IH]; cbn [raws map latest fst snd]; [discriminate|]. fold (raws ws). destruct (latest k (raws ws)); [exact IH|].
  cbn. destruct (String.eqb k k'); [|discriminate]. intros E. injection E as <-. eauto.
Qed.
Lemma effect_trans w w1 w2 r s s1 k v ws : get_state w1 r = Ok s1 -> update_effect w w1 r s [[(k, ARaw v)]] -> update_effect w1 w2 r s1 (raws ws) ->
  update_effect w w2 r s (raws ((k, v) :: ws)).
Proof.
  intros Hs1 U V. constructor.
  - apply V.
  - rewrite (ue_def _ _ _ _ _ V). apply U.
  - destruct (ue_state _ _ _ _ _ U) as (s1' & S1 & K1 & E1). rewrite Hs1 in S1. injection S1 as <-.
    destruct (ue_state _ _ _ _ _ V) as (s2 & S2 & K2 & E2). exists s2. split; [exact S2|]. split; [congruence|]. intros k' old H.
    destruct (E1 _ _ H) as (mid & M1 & M2). destruct (E2 _ _ M1) as (res & R1 & R2). exists res. split; [exact R1|].
    cbn [raws map fst snd latest]. fold (raws ws). cbn [latest] in M2. destruct (latest k' (raws ws)) as [a|] eqn:El.
    + destruct (latest_raw _ _ _ El) as (u & ->). destruct (dget k' [(k, ARaw v)]) as [b|] eqn:Ed.
      * cbn in Ed. destruct (String.eqb k' k); [|discriminate]. injection Ed as <-. apply (raw_through old mid); [eapply raw_kind; eauto|exact R2].
      * subst mid. exact R2.
    + subst res. exact M2.
  - intros p. rewrite (ue_follow _ _ _ _ _ V). apply U.
  - intros x o Ho. destruct (ue_objs _ _ _ _ _ U _ _ Ho) as [d Hd]. destruct (ue_objs _ _ _ _ _ V _ _ Hd) as [d' Hd']. exists d'. exact Hd'.
  - intros x Hx. rewrite (ue_frame _ _ _ _ _ V), (ue_frame _ _ _ _ _ U); auto. intros [p Hp]. apply Hx. exists p. now rewrite <- (ue_follow _ _ _ _ _ U).
  - destruct (ue_global _ _ _ _ _ U) as (A1 & A2 & A3 & A4), (ue_global _ _ _ _ _ V) as (B1 & B2 & B3 & B4). repeat split; congruence.
  - apply V.
Qed.
Lemma write_history dl ws : forall w r s, wf_world w -> valid w r -> names_ok w r -> live w r -> get_state w r = Ok s -> mutable_state_dict w r = Ok dl ->
  Forall (fun kv => is_submodule (ARaw (snd kv)) = false /\ exists old res, dget (fst kv) s = Some old /\ overwrites old (ARaw (snd kv)) res /\ node_value w res) ws ->
  exists w', write_all dl w ws = Ok w' /\ update_effect w w' r s (raws ws).
Proof.
  intros w r s Hw Hr Hno Hl Hs Hd H. revert dl w s Hw Hr Hno Hl Hs Hd H. induction ws as [|[k v] ws IH]; intros dl w s Hw Hr Hno Hl Hs Hd H.
  - exists w. split; [reflexivity|]. now apply effect_refl.
  - inversion H as [|? ? (Hv & old & res & H1 & H2 & H3) H']; subst. cbn [fst snd] in *. cbn [write_all].
    destruct (leaves_keys _ _ _ Hw Hr Hno Hs) as (dl1 & Hd1 & _ & Pk). rewrite Hd in Hd1. injection Hd1 as <-.
    destruct (dget_Some_keys k dl) as [[x n] Hk]. { apply (Permutation_in _ (Permutation_sym Pk)). eapply dget_In_keys; eauto. }
    rewrite Hk. destruct (leaf_write w r s dl k x n (ARaw v) old res Hw Hr Hno Hl Hs Hd Hk I Hv H1 H2 H3) as (w1 & S1 & _ & U & _).
    rewrite S1. cbn [rbind]. destruct (ue_state _ _ _ _ _ U) as (s1 & Hs1 & Ks & Es). destruct (leaves_kept _ _ _ _ _ _ Hw Hr Hno Hs Hd U) as (dl1 & Hd1 & El).
    assert (Hr1 : valid w1 r). { unfold valid. destruct (ue_global _ _ _ _ _ U) as (_ & _ & _ & ->). exact Hr. }
    destruct (IH dl1 w1 s1 (ue_wf _ _ _ _ _ U) Hr1 (ue_names _ _ _ _ _ U) (effect_live _ _ _ _ _ Hl U) Hs1 Hd1) as (w2 & W2 & V).
    { rewrite Forall_forall in H' |- *. intros [k' v'] Hi. destruct (H' _ Hi) as (Hv' & old' & res' & G1 & G2 & G3). cbn [fst snd] in *. split; [exact Hv'|].
      destruct (Es _ _ G1) as (mid & M1 & M2). exists mid, res'. split; [exact M1|]. split.
      - apply (raw_through old' mid); [|exact G2]. cbn [latest] in M2. destruct (dget k' [(k, ARaw v)]) as [b|] eqn:Ed.
        + cbn in Ed. destruct (String.eqb k' k); [|discriminate]. injection Ed as <-. eapply raw_kind; eauto.
        + subst mid. destruct old'; cbn; auto.
      - destruct G3 as (t & T1 & T2). exists t. destruct (ue_global _ _ _ _ _ U) as (_ & _ & -> & _). auto. }
    exists w2. split; [rewrite <- W2; symmetry; now apply write_all_ext|]. eapply effect_trans; eauto.
Qed.

Lemma look_slot w r q n x o a : follow w r q = Some x -> get_obj w x = Some o -> dget n (m_vars o) = Some a -> is_submodule a = false ->
  look w r (q ++ [n]) = SValue a.
Proof.
  intros H Ho Hd Ha. revert r H. induction q as [|m q IH]; intros r H; cbn in *.
  - destruct (get_obj w r) as [o'|] eqn:E; [|discriminate]. injection H as ->. rewrite Ho in E. injection E as <-. rewrite Hd. destruct a as [[]|]; try reflexivity. discriminate.
  - destruct (get_obj w r) as [o'|]; [|discriminate]. destruct (dget m (m_vars o')) as [[[]|]|]; try discriminate. auto.
Qed.
