(** Undo_proofs: update_state with a State read before, after any attributes but the
    submodules have been written, added or deleted. *)
From Coq Require Import Permutation Sorted Lia.
From Verif Require Import PyBase PyBaseFacts ValuesM Spec_Eq ValuesFacts FiltersM StateM Spec_State State_proofs ModuleM Spec_Module Spec_Prog Spec_Path Graph_facts
  Dfs_proofs Build_proofs Bisim_proofs Skel_proofs RoundTrip_proofs Clone_proofs Update_proofs Grow_proofs Path_proofs Prop_Path
  Leaf_proofs Revalue_proofs
  TransformM GradFunM Spec_GradFun Spec_TrainLoop TrainLoop_proofs Resume_proofs EarlyM Spec_Early Early_proofs Rollback_proofs.
Local Open Scope string_scope.
Local Open Scope list_scope.

(** ** The same paths *)
Lemma child_linked w r x o n : wf_world w -> reaches w r x -> get_obj w x = Some o -> forall y, dget n (m_vars o) = Some (ARaw (PyMod y)) -> reaches w r y.
Proof. intros W Hx Ho y Hy. eapply reaches_trans; [exact Hx|]. apply (reaches_child w _ n _ W); exists o; split; eassumption. Qed.
Lemma linked_follow w w1 r : wf_world w -> linked w w1 r -> forall q x, reaches w r x -> follow w1 x q = follow w x q.
Proof.
  intros W [_ HL]. induction q as [|n q IH]; intros x Hx; destruct (HL x Hx) as (o & o1 & A & B & C); cbn [follow]; rewrite A, B; [reflexivity|].
  destruct (dget n (m_vars o)) as [a|] eqn:Ea.
  - destruct (is_submodule a) eqn:Sa.
    + destruct a as [v|c]; [|discriminate]. destruct v; try discriminate. pose proof (proj2 (C n _) Ea) as E1. rewrite E1. apply IH. now apply (child_linked w r x o n).
    + assert (Q : match a with ARaw (PyMod r') => follow w r' q | _ => None end = None) by (destruct a as [v|c]; [destruct v; auto; discriminate|reflexivity]).
      rewrite Q. destruct (dget n (m_vars o1)) as [b|] eqn:Eb; [|reflexivity]. destruct b as [v|c]; [|reflexivity]. destruct v; try reflexivity.
      exfalso. apply C in Eb. rewrite Ea in Eb. injection Eb as ->. discriminate.
  - destruct (dget n (m_vars o1)) as [b|] eqn:Eb; [|reflexivity]. destruct b as [v|c]; [|reflexivity]. destruct v; try reflexivity.
    exfalso. apply C in Eb. congruence.
Qed.
Lemma first_path_ext w w1 r p y : (forall q, follow w1 r q = follow w r q) -> first_path w r p y <-> first_path w1 r p y.
Proof.
  intros F. assert (D : forall q z, direct_path w r q z <-> direct_path w1 r q z).
  { intros q z. unfold direct_path. rewrite F. split; intros [A B]; (split; [exact A|]); intros q1 q2 q3 E N; specialize (B q1 q2 q3 E N); rewrite ?F in *; exact B. }
  unfold first_path. rewrite D. split; intros [A B]; (split; [exact A|]); intros q Hq; apply B; now apply D.
Qed.
Lemma NoDup_map_via {A B C : Type} (f : A -> B) (g : A -> C) l : NoDup (map f l) -> (forall x y, In x l -> In y l -> g x = g y -> f x = f y) -> NoDup (map g l).
Proof.
  induction l as [|x l IH]; cbn; [constructor|]. intros N H. inversion N as [|? ? N1 N2]; subst. constructor; [|apply IH; auto].
  intros Hx. apply N1. apply in_map_iff in Hx as (y & E & Hy). rewrite <- (H y x); auto. now apply in_map.
Qed.
Lemma NoDup_filter_map {A B} (f : A -> B) p l : NoDup (map f l) -> NoDup (map f (filter p l)).
Proof.
  induction l as [|x l IH]; cbn; [auto|]. intros N. inversion N as [|? ? N1 N2]; subst. destruct (p x); [|auto]. cbn. constructor; [|auto].
  intros Hx. apply N1. apply in_map_iff in Hx as (y & E & Hy). apply filter_In in Hy as [Hy _]. rewrite <- E. now apply in_map.
Qed.

Definition undone (w w1 : world) (r : nat) (w2 : world) : Prop :=
  forall x o, reaches w r x -> get_obj w x = Some o ->
    exists o1 o2, get_obj w1 x = Some o1 /\ get_obj w2 x = Some o2 /\
      m_cls o2 = m_cls o1 /\ m_id o2 = m_id o1 /\ m_init o2 = m_init o1 /\ m_trace o2 = m_trace o1 /\
      (forall n a, node_attr w x n a -> dget n (m_vars o2) = Some a) /\
      (forall n, (forall a, ~ node_attr w x n a) -> dget n (m_vars o2) = dget n (m_vars o1)).

Theorem update_undoes w w1 r s :
  wf_world w -> wf_world w1 -> valid w r -> names_ok w r -> names_ok w1 r -> live w1 r -> linked w w1 r -> takes w w1 r -> get_state w r = Ok s ->
  exists w2, update_state w1 r (UStates (One s)) = (w2, Ok tt) /\ wf_world w2 /\ undone w w1 r w2 /\
    (forall x, ~ reaches w r x -> get_obj w2 x = get_obj w1 x) /\
    w_trace w2 = w_trace w1 /\ w_nodes w2 = w_nodes w1 /\ w_uuid w2 = w_uuid w1 /\ List.length (w_heap w2) = List.length (w_heap w1).
Proof.
  intros Hw Hw1 Hr Hno Hno1 Hlive HLk HT0 Hs.
  assert (Hrr : reaches w r r). { destruct (get_obj_ex _ _ Hr) as [o Ho]. eapply reaches_refl; eauto. }
  assert (Hf : forall q, follow w1 r q = follow w r q) by (intros q; now apply (linked_follow w w1 r)).
  assert (HR : forall x, reaches w r x <-> reaches w1 r x).
  { intros x. split; intros [p Hp]; exists p; [now rewrite Hf|now rewrite <- Hf]. }
  destruct HLk as [Hnt HN].
  assert (Hr1 : valid w1 r) by (destruct (HN r Hrr) as (o & o1 & _ & B & _); eapply get_obj_lt; eauto).
  destruct (graph_exists w r Hw Hr) as (d0 & L0 & Hg0).
  destruct (get_state_graph w r d0 L0 Hw Hr Hg0 Hno) as (E0 & s0 & Hs0 & Hwf0 & (HE01 & HE02 & HE03) & HEf0 & HPE0 & HND0 & Hsl0).
  rewrite Hs in Hs0. injection Hs0 as <-.
  destruct (graph_exists w1 r Hw1 Hr1) as (d & L & Hg).
  destruct (get_state_graph w1 r d L Hw1 Hr1 Hg Hno1) as (E & s1 & Hs1 & Hwf & (HE1 & HE2 & HE3) & HEf & HPE & HND & Hsl).
  pose proof (state_item E s1 HND HPE) as Hitem. pose proof (state_item E0 s HND0 HPE0) as Hitem0.
  destruct (C93_first_path w r Hw Hr Hno) as (s' & Hs' & Hfp). rewrite Hs in Hs'. injection Hs' as <-.
  destruct (C93_first_path w1 r Hw1 Hr1 Hno1) as (s1' & Hs1' & Hfp1). rewrite Hs1 in Hs1'. injection Hs1' as <-.
  (* the paths of the items are the first paths *)
  assert (P0 : forall j, In j E0 -> first_path w r (i_path j) (i_own j)).
  { intros j Hj. assert (Q : dget (join_path (i_path j ++ [i_name j])) s = Some (i_val j)) by (apply Hitem0; exists j; auto).
    apply Hfp in Q as (p & y & n & F1 & F2 & F3). destruct (Hsl0 j Hj) as [S1 S2].
    assert (Fp : follow w r p = Some y) by apply F1. assert (Sn : no_slash n).
    { pose proof F2 as (o & Ho & Hd & _). exact (proj1 (proj2 (Hno y o n _ (ex_intro _ p Fp) Ho Hd)) F2). }
    destruct (key_inj _ _ _ _ S1 S2 (names_no_slash w r p y Hno Fp) Sn F3) as [Q1 Q2]. rewrite <- Q1 in F1. pose proof (HEf0 j Hj) as F4. rewrite Q1 in F4. assert (i_own j = y) by congruence. congruence. }
  assert (P1 : forall j, In j E -> first_path w1 r (i_path j) (i_own j)).
  { intros j Hj. assert (Q : dget (join_path (i_path j ++ [i_name j])) s1 = Some (i_val j)) by (apply Hitem; exists j; auto).
    apply Hfp1 in Q as (p & y & n & F1 & F2 & F3). destruct (Hsl j Hj) as [S1 S2].
    assert (Fp : follow w1 r p = Some y) by apply F1. assert (Sn : no_slash n).
    { pose proof F2 as (o & Ho & Hd & _). exact (proj1 (proj2 (Hno1 y o n _ (ex_intro _ p Fp) Ho Hd)) F2). }
    destruct (key_inj _ _ _ _ S1 S2 (names_no_slash w1 r p y Hno1 Fp) Sn F3) as [Q1 Q2]. rewrite <- Q1 in F1. pose proof (HEf j Hj) as F4. rewrite Q1 in F4. assert (i_own j = y) by congruence. congruence. }
  assert (Psame : forall i j, In i E -> In j E0 -> i_own i = i_own j -> i_path i = i_path j).
  { intros i j Hi Hj Q. pose proof (P1 i Hi) as F1. apply (first_path_ext w w1 r) in F1; [|exact Hf]. rewrite Q in F1.
    destruct (C93_one_path w r (i_own j) Hw Hr) as (p & _ & U); [exists (i_path j); now apply HEf0|]. rewrite (U _ F1). symmetry. apply U. now apply P0. }
  set (inb := fun i => existsb (fun j => Nat.eqb (i_own j) (i_own i) && String.eqb (i_name j) (i_name i)) E0).
  assert (Hinb : forall i, inb i = true <-> exists j, In j E0 /\ i_slot j = i_slot i).
  { intros i. unfold inb. rewrite existsb_exists. unfold i_slot. split; intros (j & Hj & Q); exists j; (split; [exact Hj|]).
    - apply andb_true_iff in Q as [Q1 Q2]. apply Nat.eqb_eq in Q1. apply String.eqb_eq in Q2. congruence.
    - injection Q as Q1 Q2. rewrite Q1, Q2, Nat.eqb_refl, String.eqb_refl. reflexivity. }
  set (I := E0 ++ filter (fun i => negb (inb i)) E).
  set (ent := fun i => mkE (i_path i) (i_own i) (i_name i) (i_val i) (i_val i)).
  assert (HI : forall i, In i I -> In i E0 \/ (In i E /\ inb i = false)).
  { intros i Hi. apply in_app_iff in Hi as [Hi|Hi]; [now left|right]. apply filter_In in Hi as [Hi Q]. split; [exact Hi|]. now destruct (inb i). }
  assert (HIf : forall i, In i I -> follow w1 r (i_path i) = Some (i_own i) /\ Forall no_slash (i_path i) /\ no_slash (i_name i) /\ reaches w r (i_own i)).
  { intros i Hi. destruct (HI i Hi) as [Hj|[Hj _]].
    - pose proof (HEf0 i Hj) as F. destruct (Hsl0 i Hj). rewrite Hf. repeat split; auto. now exists (i_path i).
    - pose proof (HEf i Hj) as F. destruct (Hsl i Hj). repeat split; auto. apply HR. now exists (i_path i). }
  assert (HIs : NoDup (map i_slot I)).
  { unfold I. rewrite map_app. apply NoDup_app_intro; [exact HE03|now apply NoDup_filter_map|].
    intros z Hz Hz'. apply in_map_iff in Hz as (j & <- & Hj). apply in_map_iff in Hz' as (i & Q & Hi). apply filter_In in Hi as [Hi B].
    assert (inb i = true) by (apply Hinb; exists j; auto). rewrite H in B. discriminate. }
  (* what is written, and over what *)
  assert (Hi1 : forall i, In i I -> exists o1, get_obj w1 (i_own i) = Some o1 /\ is_submodule (i_val i) = false /\ wf_attr (i_val i) /\
            assign_value (dget (i_name i) (m_vars o1)) (i_val i) = Ok (i_val i) /\ (forall b, dget (i_name i) (m_vars o1) = Some b -> is_submodule b = false) /\ i_name i <> "_module__state").
  { intros i Hi. destruct (HI i Hi) as [Hj|[Hj _]].
    - destruct (HE01 i Hj) as [_ G0]. pose proof G0 as G. apply node_attr_iff in G as (o & G1 & G2 & G3 & G4). assert (Rx : reaches w r (i_own i)) by (exists (i_path i); now apply HEf0).
      destruct (HN _ Rx) as (o' & o1 & A & B & C). assert (o' = o) by congruence. subst o'. exists o1. split; [exact B|]. split; [exact G3|].
      assert (Wa : wf_attr (i_val i)) by exact (wfo_attrs _ _ (wf_objs _ Hw _ _ G1) _ _ G2). split; [exact Wa|]. split; [|split].
      + destruct (dget (i_name i) (m_vars o1)) as [b|] eqn:Eb.
        * assert (Wb : wf_attr b) by exact (wfo_attrs _ _ (wf_objs _ Hw1 _ _ B) _ _ Eb). apply assign_overwrites; auto. destruct b as [v|c].
          -- unfold overwrites. destruct (i_val i); reflexivity.
          -- apply shape_overwrites. apply same_shape_sym. eapply HT0; eauto.
        * unfold assign_value. destruct (i_val i) as [v|c]; [reflexivity|]. cbn in Wa. now rewrite container_copy_id.
      + intros b Eb. destruct (is_submodule b) eqn:Sb; [|reflexivity]. destruct b as [v|c]; [|discriminate]. destruct v; try discriminate. apply C in Eb. rewrite G2 in Eb. injection Eb as Eb. rewrite Eb in G3. discriminate.
      + intros Q. apply (wfo_reserved _ _ (wf_objs _ Hw _ _ G1)). rewrite <- Q. eapply dget_In_keys; eauto.
    - destruct (HE1 i Hj) as [_ G]. apply node_attr_iff in G as (o1 & G1 & G2 & G3 & G4). exists o1. split; [exact G1|]. split; [exact G3|].
      assert (Wa : wf_attr (i_val i)) by exact (wfo_attrs _ _ (wf_objs _ Hw1 _ _ G1) _ _ G2). split; [exact Wa|]. rewrite G2. split; [|split].
      + apply assign_overwrites; auto. now apply overwrites_refl.
      + intros b [= <-]. exact G3.
      + intros Q. apply (wfo_reserved _ _ (wf_objs _ Hw1 _ _ G1)). rewrite <- Q. eapply dget_In_keys; eauto. }
  set (M := fold_left (fun acc s => dupdate acc s) [s1; s] []).
  assert (HndE : NoDup (keys (map (fun e => (e_key e, e_val e)) (map ent I)))).
  { unfold keys. rewrite !map_map. apply (NoDup_map_via i_slot _ I HIs). intros x y Hx Hy Q. cbn in Q. unfold e_key, ent in Q. cbn in Q.
    destruct (HIf x Hx) as (X1 & X2 & X3 & _). destruct (HIf y Hy) as (Y1 & Y2 & Y3 & _). destruct (key_inj _ _ _ _ X2 X3 Y2 Y3 Q) as [Q1 Q2]. rewrite Q1, Y1 in X1. unfold i_slot. congruence. }
  assert (HM : Permutation M (map (fun e => (e_key e, e_val e)) (map ent I))).
  { apply dget_ext_perm; auto.
    - apply fold_dupdate_NoDup. constructor.
    - intros k. unfold M. rewrite dget_merge_gen.
      2:{ constructor; [now apply wf_NoDup|]. constructor; [now apply wf_NoDup|constructor]. }
      cbn [last_value dget].
      assert (HgE : forall i, In i I -> k = join_path (i_path i ++ [i_name i]) -> dget k (map (fun e => (e_key e, e_val e)) (map ent I)) = Some (i_val i)).
      { intros i Hi ->. apply In_dget; [exact HndE|]. apply in_map_iff. exists (ent i). split; [reflexivity|now apply in_map]. }
      destruct (dget k s) as [a|] eqn:Ea.
      + apply Hitem0 in Ea as (j & Hj & Kj & ->). rewrite (HgE j); [reflexivity| |exact Kj]. apply in_app_iff. now left.
      + destruct (dget k s1) as [b|] eqn:Eb.
        * apply Hitem in Eb as (i & Hi & Ki & ->). rewrite (HgE i); [reflexivity| |exact Ki]. apply in_app_iff. right. apply filter_In. split; [exact Hi|].
          destruct (inb i) eqn:Bi; [|reflexivity]. exfalso. apply Hinb in Bi as (j & Hj & Q). unfold i_slot in Q. injection Q as Q1 Q2.
          pose proof (Psame i j Hi Hj (eq_sym Q1)) as Q3. assert (dget k s = Some (i_val j)) by (apply Hitem0; exists j; repeat split; auto; congruence). congruence.
        * destruct (dget k (map (fun e => (e_key e, e_val e)) (map ent I))) as [c|] eqn:Ec; [|reflexivity]. exfalso.
          apply dget_In in Ec. apply in_map_iff in Ec as (e & Q & Hin). apply in_map_iff in Hin as (i & <- & Hi). injection Q as Q _.
          destruct (HI i Hi) as [Hj|[Hj _]].
          -- assert (dget k s = Some (i_val i)) by (apply Hitem0; exists i; auto). congruence.
          -- assert (dget k s1 = Some (i_val i)) by (apply Hitem; exists i; auto). congruence. }
  apply Permutation_map_inv in HM. destruct HM as (ES & HM & HpES).
  assert (HES : forall e, In e ES -> exists i, In i I /\ e = ent i).
  { intros e He. apply (Permutation_in _ (Permutation_sym HpES)) in He. apply in_map_iff in He as (i & <- & Hi). eauto. }
  assert (HndES : NoDup (map e_slot ES)).
  { eapply Permutation_NoDup; [apply Permutation_map; exact HpES|]. rewrite map_map. exact HIs. }
  destruct (update_loop_entries ES w1 r HndES) as (w' & Hrun & Hwr & Hpl).
  { apply Forall_forall. intros e He. destruct (HES e He) as (i & Hi & ->).
    destruct (Hi1 i Hi) as (o1 & B & F2 & F3 & F4 & F5 & F6). destruct (HIf i Hi) as (X1 & X2 & X3 & X4).
    unfold entry_ok, ent. cbn [e_parts e_own e_name e_val e_new].
    do 5 (split; [assumption|]). exists o1. split; [exact B|]. split; [apply (Hlive (i_own i)); [now apply HR|exact B]|]. auto. }
  assert (HT : forall x n a, writes ES x n = Some a -> exists i, In i I /\ i_own i = x /\ i_name i = n /\ a = i_val i).
  { intros x n a Hwa. apply writes_Some in Hwa as (e & He & E1 & E2 & E3). destruct (HES e He) as (i & Hi & ->). eauto 6. }
  assert (HTi : forall i, In i I -> writes ES (i_own i) (i_name i) = Some (i_val i)).
  { intros i Hi. apply (writes_In ES (ent i) HndES). eapply Permutation_in; [exact HpES|]. apply in_map. exact Hi. }
  exists w'. split.
  { unfold update_state. rewrite Hs1. cbn [sts_list]. unfold update_module. fold M. rewrite HM. exact Hrun. }
  split.
  { apply (wrote_wf w1 w' (writes ES)); auto. intros x n a Ha. apply HT in Ha as (i & Hi & <- & <- & ->).
    destruct (Hi1 i Hi) as (o1 & B & F2 & F3 & F4 & F5 & F6). auto. }
  split.
  { intros x o Hx Ho. destruct (HN _ Hx) as (o' & o1 & A & B & C). assert (o' = o) by congruence. subst o'.
    destruct (wr_obj _ _ _ Hwr _ _ B) as (dd & A' & _ & _ & Hdd). exists o1, (set_vars o1 dd). split; [exact B|]. split; [exact A'|]. do 4 (split; [reflexivity|]).
    split; intros n; cbn [m_vars set_vars]; rewrite Hdd.
    - intros a Ha. destruct (HE02 x n a) as (j & Hj & J1 & J2 & J3); [apply (graph_reaches _ _ _ _ Hw Hr Hg0); exact Hx|exact Ha|].
      assert (Hj' : In j I) by (apply in_app_iff; now left). pose proof (HTi j Hj') as Q. rewrite J1, J2, J3 in Q. now rewrite Q.
    - intros Hn. destruct (writes ES x n) as [c|] eqn:Ew; [|reflexivity]. apply HT in Ew as (i & Hi & Ox & Nx & ->). destruct (HI i Hi) as [Hj|[Hj _]].
      + exfalso. destruct (HE01 i Hj) as [_ G]. rewrite Ox, Nx in G. exact (Hn _ G).
      + destruct (HE1 i Hj) as [_ G]. apply node_attr_iff in G as (o1' & G1 & G2 & _). rewrite Ox in G1. rewrite Nx in G2. assert (o1' = o1) by congruence. subst o1'. now rewrite G2. }
  split.
  { intros x Hx. apply (wr_same _ _ _ Hwr). intros n. destruct (writes ES x n) as [a|] eqn:Ea; [|reflexivity].
    apply HT in Ea as (i & Hi & <- & _). destruct Hx. now apply HIf. }
  split; [apply Hwr|]. split; [apply Hwr|]. split; apply Hwr.
Qed.

(** ** As one reads it *)
Lemma node_case w x n : (exists a, node_attr w x n a) \/ (forall a, ~ node_attr w x n a).
Proof.
  destruct (get_obj w x) as [o|] eqn:Eo; [|right; intros a (o & Ho & _); congruence].
  destruct (dget n (m_vars o)) as [a|] eqn:Ea; [|right; intros a (o' & Ho & Hd & _); congruence].
  destruct (is_submodule a) eqn:Sa; [right; intros b (o' & Ho & Hd & H & _); congruence|].
  destruct (is_node (w_nodes w) a) eqn:Na; [left; exists a; apply node_attr_iff; eauto|].
  right. intros b Hb. apply node_attr_iff in Hb as (o' & Ho & Hd & _ & H). congruence.
Qed.
Lemma undone_linked w w1 r w2 : linked w w1 r -> undone w w1 r w2 -> w_nodes w2 = w_nodes w1 -> linked w w2 r.
Proof.
  intros [HN HL] HU HN2. split; [congruence|]. intros x Hx. destruct (HL x Hx) as (o & o1 & A & B & C).
  destruct (HU x o Hx A) as (o1' & o2 & B' & A2 & _ & _ & _ & _ & D1 & D2). assert (o1' = o1) by congruence. subst o1'.
  exists o, o2. split; [exact A|]. split; [exact A2|]. intros n y. destruct (node_case w x n) as [[a Ha]|Hn].
  - rewrite (D1 n a Ha). apply node_attr_iff in Ha as (o' & F1 & F2 & F3 & _). assert (o' = o) by congruence. subst o'. rewrite F2. reflexivity.
  - rewrite (D2 n Hn). apply C.
Qed.
Theorem back_any w w1 r s :
  wf_world w -> wf_world w1 -> valid w r -> names_ok w r -> names_ok w1 r -> live w1 r -> linked w w1 r -> takes w w1 r -> get_state w r = Ok s ->
  exists w2, update_state w1 r (UStates (One s)) = (w2, Ok tt) /\ nodes_back w w1 r w2 /\ rest_as_in w1 r w2.
Proof.
  intros W W1 V N N1 L1 HL HT G.
  destruct (update_undoes w w1 r s W W1 V N N1 L1 HL HT G) as (w2 & U & W2 & HU & HO & T & NT & _ & Len). exists w2. split; [exact U|].
  assert (Hrr : reaches w r r). { destruct (get_obj_ex _ _ V) as [o Ho]. eapply reaches_refl; eauto. }
  pose proof (undone_linked w w1 r w2 HL HU NT) as HL2.
  assert (F1 : forall q, follow w1 r q = follow w r q) by (intros q; now apply (linked_follow w w1 r)).
  assert (F2 : forall q, follow w2 r q = follow w r q) by (intros q; now apply (linked_follow w w2 r)).
  assert (V1 : valid w1 r) by (destruct (proj2 HL r Hrr) as (o & o1 & _ & B & _); eapply get_obj_lt; eauto).
  assert (V2 : valid w2 r) by (destruct (proj2 HL2 r Hrr) as (o & o1 & _ & B & _); eapply get_obj_lt; eauto).
  (* the attributes of [w2] *)
  assert (Hat : forall x n, reaches w r x -> exists o o1 o2, get_obj w x = Some o /\ get_obj w1 x = Some o1 /\ get_obj w2 x = Some o2 /\ m_cls o2 = m_cls o1 /\ m_init o2 = m_init o1 /\
            (forall a, node_attr w x n a -> dget n (m_vars o2) = Some a) /\ ((forall a, ~ node_attr w x n a) -> dget n (m_vars o2) = dget n (m_vars o1))).
  { intros x n [p Hp]. pose proof Hp as Hp'. apply follow_valid in Hp' as [o Ho]. destruct (HU x o (ex_intro _ p Hp) Ho) as (o1 & o2 & B & A2 & D1 & _ & D3 & _ & D5 & D6).
    exists o, o1, o2. do 5 (split; [assumption|]). split; [intros a; apply D5|apply D6]. }
  assert (NB : forall x n a, reaches w r x -> node_attr w2 x n a <-> (node_attr w x n a \/ ((forall b, ~ node_attr w x n b) /\ node_attr w1 x n a))).
  { intros x n a Hx. destruct (Hat x n Hx) as (o & o1 & o2 & A & B & A2 & _ & _ & D1 & D2). destruct (node_case w x n) as [[b Hb]|Hn].
    - pose proof (D1 b Hb) as E2. pose proof Hb as Hb'. apply node_attr_iff in Hb' as (oo & X1 & X2 & X3 & X4). assert (oo = o) by congruence. subst oo. split.
      + intros Ha. apply node_attr_iff in Ha as (oo & Y1 & Y2 & Y3 & Y4). left. assert (a = b) by congruence. now subst.
      + intros [Ha|[Q _]]; [|destruct (Q b Hb)]. apply node_attr_iff. exists o2. rewrite NT, (proj1 HL). rewrite (D1 a Ha). apply node_attr_iff in Ha as (oo & Y1 & Y2 & Y3 & Y4). auto.
    - specialize (D2 Hn). split.
      + intros Ha. apply node_attr_iff in Ha as (oo & Y1 & Y2 & Y3 & Y4). right. split; [exact Hn|]. apply node_attr_iff. exists o1. rewrite NT in Y4. assert (oo = o2) by congruence. subst oo. rewrite <- D2. auto.
      + intros [Ha|[_ Ha]]; [destruct (Hn _ Ha)|]. apply node_attr_iff in Ha as (oo & Y1 & Y2 & Y3 & Y4). apply node_attr_iff. exists o2. rewrite NT, D2. assert (oo = o1) by congruence. subst oo. auto. }
  assert (N2 : names_ok w2 r).
  { intros x o2 n a [p Hp] Ho2 Ha. rewrite F2 in Hp. assert (Hx : reaches w r x) by now exists p. assert (Hx1 : reaches w1 r x) by (exists p; now rewrite F1).
    destruct (Hat x n Hx) as (o & o1 & o2' & A & B & A2 & _ & _ & D1 & D2). assert (o2' = o2) by congruence. subst o2'. split; [|split].
    - intros Sa. destruct (node_case w x n) as [[b Hb]|Hn].
      + rewrite (D1 b Hb) in Ha. injection Ha as <-. destruct Hb as (_ & _ & _ & Sb & _). congruence.
      + rewrite (D2 Hn) in Ha. exact (proj1 (N1 x o1 n a Hx1 B Ha) Sa).
    - intros Hna. apply (NB x n a Hx) in Hna as [Hna|[_ Hna]].
      + pose proof Hna as (oo & X1 & X2 & _). exact (proj1 (proj2 (N x oo n a Hx X1 X2)) Hna).
      + pose proof Hna as (oo & X1 & X2 & _). exact (proj1 (proj2 (N1 x oo n a Hx1 X1 X2)) Hna).
    - intros (oo & X1 & X2 & X3 & X4). destruct (node_case w x n) as [[b Hb]|Hn].
      + exfalso. rewrite (D1 b Hb) in Ha. injection Ha as <-. destruct Hb as (_ & _ & _ & _ & t & T1 & T2). apply (X4 t); [|exact T2]. rewrite NT, (proj1 HL). exact T1.
      + rewrite (D2 Hn) in Ha. apply (proj2 (proj2 (N1 x o1 n a Hx1 B Ha))). exists o1. rewrite <- NT. auto. }
  split.
  - split; [|split; [|split]].
    + intros p x n a Hp Ha. assert (Hx : reaches w r x) by now exists p. destruct (Hat x n Hx) as (o & o1 & o2 & A & B & A2 & _ & _ & D1 & _).
      apply (look_slot w2 r p n x o2 a); auto; [now rewrite F2|now destruct Ha as (_ & _ & _ & Sa & _)].
    + intros p x n Hp Hn. assert (Hx : reaches w r x) by now exists p. destruct (Hat x n Hx) as (o & o1 & o2 & A & B & A2 & _ & _ & _ & D2).
      rewrite (look_app w2 p n r x) by now rewrite F2. rewrite (look_app w1 p n r x) by now rewrite F1. cbn [look]. rewrite B, A2, (D2 Hn).
      destruct (dget n (m_vars o1)) as [b|] eqn:Eb; [|reflexivity]. destruct b as [v|c]; [|reflexivity]. destruct v; try reflexivity.
      destruct (proj2 HL x Hx) as (oo & oo1 & Y1 & Y2 & Y3). assert (oo1 = o1) by congruence. subst oo1. apply Y3 in Eb. assert (oo = o) by congruence. subst oo.
      pose proof (child_linked w r x o n W Hx A _ Eb) as Ry. destruct (Hat _ n Ry) as (z & z1 & z2 & Z1 & Z2 & Z3 & Z4 & Z5 & _). cbn [look]. rewrite Z2, Z3. congruence.
    + exact F2.
    + destruct (C93_first_path w r W V N) as (s' & Hs' & Hfp). assert (s' = s) by congruence. subst s'.
      destruct (C93_first_path w1 r W1 V1 N1) as (s1 & Hs1 & Hfp1). destruct (C93_first_path w2 r W2 V2 N2) as (s2 & Hs2 & Hfp2).
      exists s, s1, s2. do 3 (split; [assumption|]). intros k.
      assert (FP1 : forall p y, first_path w r p y <-> first_path w1 r p y) by (intros p y; now apply first_path_ext).
      assert (FP2 : forall p y, first_path w r p y <-> first_path w2 r p y) by (intros p y; now apply first_path_ext).
      assert (RP : forall p y, first_path w r p y -> reaches w r y) by (intros p y Hq; exists p; apply Hq).
      assert (KU : forall p y n p' y' n' a a', first_path w r p y -> node_attr w y n a -> first_path w r p' y' -> node_attr w1 y' n' a' -> join_path (p ++ [n]) = join_path (p' ++ [n']) -> p = p' /\ y = y' /\ n = n').
      { intros p y n p' y' n' a a' H1 H2 H3 H4 K. assert (Q1 : follow w r p = Some y) by apply H1. assert (Q2 : follow w r p' = Some y') by apply H3.
        assert (Sn : no_slash n). { pose proof H2 as (o & Ho & Hd & _). exact (proj1 (proj2 (N y o n _ (ex_intro _ p Q1) Ho Hd)) H2). }
        assert (Sn' : no_slash n'). { pose proof H4 as (o & Ho & Hd & _). rewrite <- F1 in Q2. exact (proj1 (proj2 (N1 y' o n' _ (ex_intro _ p' Q2) Ho Hd)) H4). }
        destruct (key_inj _ _ _ _ (names_no_slash w r p y N Q1) Sn (names_no_slash w r p' y' N Q2) Sn' K) as [-> ->]. split; [reflexivity|]. split; [congruence|reflexivity]. }
      assert (Eq : forall a, dget k s2 = Some a <-> match dget k s with Some a => Some a | None => dget k s1 end = Some a).
      { intros a. rewrite Hfp2. split.
        - intros (p & y & n & H1 & H2 & K). apply FP2 in H1. apply (NB y n a (RP _ _ H1)) in H2 as [H2|[Hn H2]].
          + assert (Q : dget k s = Some a) by (apply Hfp; exists p, y, n; auto). now rewrite Q.
          + destruct (dget k s) as [b|] eqn:Eb.
            * exfalso. apply Hfp in Eb as (p' & y' & n' & H3 & H4 & K'). destruct (KU p' y' n' p y n b a H3 H4 H1 H2) as (_ & -> & ->); [congruence|]. exact (Hn b H4).
            * apply Hfp1. exists p, y, n. split; [now apply FP1|auto].
        - destruct (dget k s) as [b|] eqn:Eb.
          + intros [= <-]. apply Hfp in Eb as (p & y & n & H1 & H2 & K). exists p, y, n. split; [now apply FP2|]. split; [|exact K]. apply NB; [now apply (RP p)|now left].
          + intros H. apply Hfp1 in H as (p & y & n & H1 & H2 & K). apply FP1 in H1. exists p, y, n. split; [now apply FP2|]. split; [|exact K]. apply NB; [now apply (RP p)|right].
            split; [|exact H2]. intros b Hb. assert (dget k s = Some b) by (apply Hfp; exists p, y, n; auto). congruence. }
      destruct (dget k s2) as [a|] eqn:E2; [symmetry; now apply Eq|]. destruct (match dget k s with Some a => Some a | None => dget k s1 end) as [a|]; [now apply Eq|reflexivity].
  - split; [|split; [|exact T]].
    + intros q. now rewrite F2, F1.
    + intros x o Ho Hx. rewrite HO; auto. intros [p Hp]. apply Hx. exists p. now rewrite F1.
Qed.

(** ** The two uses *)
Theorem tried_any {A} (f : prog A) w r w1 res :
  wf_world w -> valid w r -> names_ok w r -> live w r -> ok_prog f -> run f w [r] = (w1, res) -> relinked w w1 r -> takes w w1 r ->
  exists w2, tried f w r = (w2, Ok tt) /\ nodes_back w w1 r w2 /\ rest_as_in w1 r w2.
Proof.
  intros W V N L Hf E [HL N1] HT. destruct (get_state_total w r W V) as (s & G & _). destruct (run_live_any f w r w1 res Hf W V N L E) as (W1 & V1 & L1 & _).
  unfold tried. rewrite G, E. now apply back_any.
Qed.
Lemma linked_refl w r : linked w w r.
Proof. split; [reflexivity|]. intros x [p Hx]. apply follow_valid in Hx as [o Ho]. exists o, o. split; [exact Ho|]. split; [exact Ho|reflexivity]. Qed.
Lemma linked_trans w w1 w2 r : wf_world w -> valid w r -> linked w w1 r -> linked w1 w2 r -> linked w w2 r.
Proof.
  intros W V H1 [N2 H2]. assert (Hrr : reaches w r r). { destruct (get_obj_ex _ _ V) as [o Ho]. eapply reaches_refl; eauto. }
  assert (F1 : forall q, follow w1 r q = follow w r q) by (intros q; now apply (linked_follow w w1 r)). destruct H1 as [N1 H1].
  split; [congruence|]. intros x Hx. destruct (H1 x Hx) as (o & o1 & A & B & C). destruct (H2 x) as (o1' & o2 & B' & D & E); [destruct Hx as [p Hp]; exists p; now rewrite F1|].
  assert (o1' = o1) by congruence. subst o1'. exists o, o2. split; [exact A|]. split; [exact D|]. intros n y. now rewrite E, C.
Qed.
Lemma history_any r w l log wz res : history relinked r w l log wz res -> wf_world w -> valid w r -> names_ok w r -> live w r ->
  wf_world wz /\ valid wz r /\ live wz r /\ relinked w wz r /\
  Forall (fun x => wf_world (snd x) /\ valid (snd x) r /\ names_ok (snd x) r /\ relinked (snd x) wz r) log.
Proof.
  induction 1 as [w|w f l w1 e Hf E St|w f l w1 score log w' res Hf E St H IH]; intros W V N L.
  - split; [exact W|]. split; [exact V|]. split; [exact L|]. split; [|constructor]. split; [apply linked_refl|exact N].
  - destruct (run_live_any f w r w1 _ Hf W V N L E) as (W1 & V1 & L1 & N1). split; [exact W1|]. split; [exact V1|]. split; [exact L1|]. split; [exact St|constructor].
  - destruct (run_live_any f w r w1 _ Hf W V N L E) as (W1 & V1 & L1 & N1). pose proof St as (S1 & S2).
    destruct (IH W1 V1 S2 L1) as (A1 & A2 & A3 & A5 & A6). split; [exact A1|]. split; [exact A2|]. split; [exact A3|].
    split; [split; [exact (linked_trans w w1 w' r W V S1 (proj1 A5))|exact (proj2 A5)]|]. constructor; [cbn [snd]; auto|exact A6].
Qed.
Theorem fit_any better r w l log wz res : ranks better -> history relinked r w l log wz res -> wf_world w -> valid w r -> names_ok w r -> live w r ->
  Forall (fun x => takes (snd x) wz r) log ->
  (log = [] -> fit better l w r = (wz, res)) /\
  (log <> [] -> exists i score wb w', first_best better log i score wb /\ fit better l w r = (w', res) /\ nodes_back wb wz r w' /\ rest_as_in wz r w').
Proof.
  intros R H W V N L TK. destruct (history_any r w l log wz res H W V N L) as (Wz & Vz & Lz & _ & F).
  unfold fit. destruct (keep_ok relinked better r w l log wz res (fun v v1 K => proj2 K) R H W V N L None) as [(K & _ & F0)|(i & score & wb & s & K & FB & G & _)]; rewrite K.
  - split; [reflexivity|]. intros C. exfalso. apply C. now apply F0.
  - pose proof FB as (FB1 & _). split; [intros ->; destruct i; discriminate|]. intros _.
    rewrite Forall_forall in F, TK. destruct (F _ (nth_error_In _ _ FB1)) as (Wb & Vb & Nb & Ab & Az). pose proof (TK _ (nth_error_In _ _ FB1)) as Tb. cbn [snd] in *.
    destruct (back_any wb wz r s Wb Wz Vb Nb Az Lz Ab Tb G) as (w' & U & A & B). rewrite U. exists i, score, wb, w'. auto.
Qed.
