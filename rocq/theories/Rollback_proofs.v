(** Rollback_proofs: update_state with a State read before, after node attributes have
    been written or added. *)
From Coq Require Import Permutation Sorted Lia.
From Verif Require Import PyBase PyBaseFacts ValuesM Spec_Eq ValuesFacts FiltersM StateM Spec_State State_proofs ModuleM Spec_Module Spec_Prog Graph_facts
  Dfs_proofs Build_proofs Bisim_proofs Skel_proofs RoundTrip_proofs Clone_proofs Update_proofs Grow_proofs
  TransformM GradFunM Spec_GradFun Spec_TrainLoop TrainLoop_proofs Resume_proofs EarlyM Spec_Early Early_proofs.
Local Open Scope string_scope.
Local Open Scope list_scope.

Lemma written_nodes w w1 r : values_written w w1 r -> nodes_only w w1 r.
Proof.
  intros [N H]. split; [exact N|]. intros x Hx. destruct (H x Hx) as (o & o1 & A & B & C1 & C2 & C). exists o, o1. do 4 (split; [assumption|]).
  intros n. specialize (C n). destruct (dget n (m_vars o)), (dget n (m_vars o1)); try tauto. destruct C as [C|(C3 & C4 & C5)]; [now left|]. right. split; [exact C3|]. split; [exact C4|]. now apply shape_overwrites.
Qed.
Lemma slot_inj (E : list item) i j : NoDup (map i_slot E) -> In i E -> In j E -> i_slot i = i_slot j -> i = j.
Proof.
  induction E as [|e E IH]; cbn; [tauto|]. intros N Hi Hj Q. inversion N as [|? ? N1 N2]; subst.
  destruct Hi as [->|Hi], Hj as [->|Hj]; auto.
  - exfalso. apply N1. rewrite Q. now apply in_map.
  - exfalso. apply N1. rewrite <- Q. now apply in_map.
Qed.
Lemma key_inj p n q m : Forall no_slash p -> no_slash n -> Forall no_slash q -> no_slash m -> join_path (p ++ [n]) = join_path (q ++ [m]) -> p = q /\ n = m.
Proof.
  intros A1 A2 B1 B2 E. apply app_inj_tail. apply join_inj; auto; try (now destruct p); try (now destruct q); apply Forall_app; split; auto.
Qed.

Theorem update_restores w w1 r s :
  wf_world w -> wf_world w1 -> valid w r -> names_ok w r -> names_ok w1 r -> live w1 r -> values_written w w1 r -> get_state w r = Ok s ->
  exists w2, update_state w1 r (UStates (One s)) = (w2, Ok tt) /\ wf_world w2 /\ has_back w w1 r w2 /\
    (forall x, ~ reaches w r x -> get_obj w2 x = get_obj w1 x) /\
    w_trace w2 = w_trace w1 /\ w_nodes w2 = w_nodes w1 /\ w_uuid w2 = w_uuid w1 /\ List.length (w_heap w2) = List.length (w_heap w1).
Proof.
  intros Hw Hw1 Hr Hno Hno1 Hlive HV Hs.
  pose proof (nodes_only_below _ _ _ (written_nodes _ _ _ HV)) as HB. destruct HV as [Hnt HN].
  assert (HG : gskel w w1 (fun x y => x = y /\ reaches w r x)).
  { constructor.
    - intros x y [-> Hx]. destruct (HB y Hx) as (o & o' & A & B & C). exists o, o'. split; [exact A|]. split; [exact B|].
      intros n. specialize (C n). unfold grel in *. destruct (dget n (m_vars o)) as [a|] eqn:Ea; [|exact C].
      destruct (dget n (m_vars o')) as [b|] eqn:Eb; [|exact C]. destruct C as [(p & q & -> & -> & ->)|C]; [|right; exact C].
      left. exists q, q. repeat split; auto. eapply reaches_trans; [exact Hx|]. apply (reaches_child w _ n _ Hw); exists o; split; eassumption.
    - intros x y y' [-> _] [-> _]. reflexivity.
    - intros x x' y [-> _] [-> _]. reflexivity.
    - now symmetry. }
  assert (Hrr : reaches w r r). { destruct (get_obj_ex _ _ Hr) as [o Ho]. eapply reaches_refl; eauto. }
  assert (Hr1 : valid w1 r) by (apply (gskel_valid _ _ _ r r HG); auto).
  destruct (graph_exists w r Hw Hr) as (d0 & L0 & Hg0).
  destruct (get_state_graph w r d0 L0 Hw Hr Hg0 Hno) as (E0 & s0 & Hs0 & Hwf0 & (HE01 & HE02 & HE03) & HEf0 & HPE0 & HND0 & Hsl0).
  rewrite Hs in Hs0. injection Hs0 as <-.
  destruct (graph_exists w1 r Hw1 Hr1) as (d & L & Hg).
  destruct (get_state_graph w1 r d L Hw1 Hr1 Hg Hno1) as (E & s1 & Hs1 & Hwf & (HE1 & HE2 & HE3) & HEf & HPE & HND & Hsl).
  pose proof (gskel_keys _ _ _ r r _ _ Hw Hw1 HG (conj eq_refl Hrr) Hs Hs1) as Hincl.
  pose proof (state_item E s1 HND HPE) as Hitem. pose proof (state_item E0 s HND0 HPE0) as Hitem0.
  set (old := fun i => match get_obj w (i_own i) with Some o => match dget (i_name i) (m_vars o) with Some a => a | None => i_val i end | None => i_val i end).
  set (ent := fun i => mkE (i_path i) (i_own i) (i_name i) (old i) (old i)).
  (* what every item is *)
  assert (Hi1 : forall i, In i E -> reaches w r (i_own i) /\ exists o o1, get_obj w (i_own i) = Some o /\ get_obj w1 (i_own i) = Some o1 /\
            dget (i_name i) (m_vars o1) = Some (i_val i) /\ is_submodule (i_val i) = false /\ wf_attr (i_val i) /\
            is_submodule (old i) = false /\ wf_attr (old i) /\ assign_value (Some (i_val i)) (old i) = Ok (old i) /\
            match dget (i_name i) (m_vars o) with Some a => old i = a | None => old i = i_val i end).
  { intros i Hi. destruct (HE1 i Hi) as [_ G]. apply node_attr_iff in G as (o1 & G1 & G2 & G3 & G4).
    assert (Rx : reaches w r (i_own i)) by (apply (grown_reaches w w1); auto; exists (i_path i); auto). split; [exact Rx|].
    destruct (HN _ Rx) as (o & o1' & A & B & _ & _ & C). assert (o1' = o1) by congruence. subst o1'. exists o, o1.
    assert (Wb : wf_attr (i_val i)) by exact (wfo_attrs _ _ (wf_objs _ Hw1 _ _ G1) _ _ G2).
    do 5 (split; [assumption|]). unfold old. rewrite A. specialize (C (i_name i)). rewrite G2 in C.
    destruct (dget (i_name i) (m_vars o)) as [a|] eqn:Ea.
    - assert (Wa : wf_attr a) by exact (wfo_attrs _ _ (wf_objs _ Hw _ _ A) _ _ Ea). destruct C as [->|(C3 & C4 & C5)].
      + split; [exact G3|]. split; [exact Wa|]. split; [apply assign_overwrites; auto; now apply overwrites_refl|reflexivity].
      + apply node_attr_iff in C3 as (oo & _ & _ & C3 & _). split; [exact C3|]. split; [exact Wa|]. split; [|reflexivity].
        apply assign_overwrites; auto. apply shape_overwrites. now apply same_shape_sym.
    - split; [exact G3|]. split; [exact Wb|]. split; [apply assign_overwrites; auto; now apply overwrites_refl|reflexivity]. }
  (* a saved entry and an entry under the same key are the same attribute *)
  assert (Hsame : forall i j, In i E -> In j E0 -> join_path (i_path i ++ [i_name i]) = join_path (i_path j ++ [i_name j]) -> i_own i = i_own j /\ i_name i = i_name j).
  { intros i j Hi Hj Q. destruct (Hsl i Hi) as [S1 S2]. destruct (Hsl0 j Hj) as [S3 S4]. destruct (key_inj _ _ _ _ S1 S2 S3 S4 Q) as [Qp Qn]. split; [|exact Qn].
    pose proof (HEf i Hi) as F1. pose proof (HEf0 j Hj) as F2. rewrite (grown_follow w w1) in F1 by auto. rewrite Qp in F1. congruence. }
  set (M := fold_left (fun acc s => dupdate acc s) [s1; s] []).
  assert (HM : Permutation M (map (fun e => (e_key e, e_val e)) (map ent E))).
  { assert (HndE : NoDup (keys (map (fun e => (e_key e, e_val e)) (map ent E)))).
    { unfold keys in *. rewrite !map_map in *. exact HND. }
    apply dget_ext_perm; auto.
    - apply fold_dupdate_NoDup. constructor.
    - intros k. unfold M. rewrite dget_merge_gen.
      2:{ constructor; [now apply wf_NoDup|]. constructor; [now apply wf_NoDup|constructor]. }
      cbn [last_value dget].
      assert (HgE : forall i, In i E -> k = join_path (i_path i ++ [i_name i]) -> dget k (map (fun e => (e_key e, e_val e)) (map ent E)) = Some (old i)).
      { intros i Hi ->. apply In_dget; [exact HndE|]. apply in_map_iff. exists (ent i). split; [reflexivity|now apply in_map]. }
      destruct (dget k s) as [a|] eqn:Ea.
      + pose proof Ea as Ek. apply dget_In_keys in Ek. apply Hincl in Ek. apply dget_Some_keys in Ek as (b & Eb). apply Hitem in Eb as (i & Hi & Ki & _).
        rewrite (HgE i Hi Ki). apply Hitem0 in Ea as (j & Hj & Kj & ->). destruct (Hsame i j Hi Hj) as [Q1 Q2]; [congruence|].
        destruct (Hi1 i Hi) as (_ & o & o1 & A & _ & _ & _ & _ & _ & _ & _ & Z0). destruct (HE01 j Hj) as [_ G]. apply node_attr_iff in G as (o' & G1 & G2 & _).
        rewrite Q1 in A. assert (o' = o) by congruence. subst o'. rewrite Q2, G2 in Z0. now rewrite Z0.
      + destruct (dget k s1) as [b|] eqn:Eb.
        * apply Hitem in Eb as (i & Hi & Ki & ->). rewrite (HgE i Hi Ki). f_equal.
          destruct (Hi1 i Hi) as (Rx & o & o1 & A & B & G2 & G3 & _ & _ & _ & _ & Z0). destruct (HN _ Rx) as (o' & o1' & A' & B' & _ & _ & C).
          assert (o' = o) by congruence. assert (o1' = o1) by congruence. subst o' o1'. specialize (C (i_name i)). rewrite G2 in C.
          destruct (dget (i_name i) (m_vars o)) as [a|] eqn:En; [|now rewrite Z0]. rewrite Z0. destruct C as [C|(C3 & _)]; [now rewrite C|]. exfalso.
          destruct (HE02 (i_own i) (i_name i) a) as (j & Hj & J1 & J2 & J3); [apply (graph_reaches _ _ _ _ Hw Hr Hg0); exact Rx|exact C3|].
          assert (Ks : dget (join_path (i_path j ++ [i_name j])) s = Some a) by (apply Hitem0; exists j; auto).
          pose proof Ks as Kt. apply dget_In_keys in Kt. apply Hincl in Kt. apply dget_Some_keys in Kt as (b' & Eb'). apply Hitem in Eb' as (i' & Hi' & Ki' & _).
          destruct (Hsame i' j Hi' Hj (eq_sym Ki')) as [Q1 Q2]. assert (i' = i) by (apply (slot_inj E); auto; unfold i_slot; congruence). subst i'.
          rewrite <- Ki in Ki'. congruence.
        * destruct (dget k (map (fun e => (e_key e, e_val e)) (map ent E))) as [c|] eqn:Ec; [|reflexivity]. exfalso.
          apply dget_In in Ec. apply in_map_iff in Ec as (e & Q & Hin). apply in_map_iff in Hin as (i & <- & Hi). injection Q as Q _.
          assert (dget k s1 = Some (i_val i)) by (apply Hitem; exists i; auto). congruence. }
  apply Permutation_map_inv in HM. destruct HM as (ES & HM & HpES).
  assert (HES : forall e, In e ES -> exists i, In i E /\ e = ent i).
  { intros e He. apply (Permutation_in _ (Permutation_sym HpES)) in He. apply in_map_iff in He as (i & <- & Hi). eauto. }
  assert (HndES : NoDup (map e_slot ES)).
  { eapply Permutation_NoDup; [apply Permutation_map; exact HpES|]. rewrite map_map. exact HE3. }
  assert (Hresv : forall i, In i E -> i_name i <> "_module__state").
  { intros i Hi Heq. destruct (Hi1 i Hi) as (_ & o & o1 & _ & B & G2 & _). apply (wfo_reserved _ _ (wf_objs _ Hw1 _ _ B)). rewrite <- Heq. eapply dget_In_keys; eauto. }
  destruct (update_loop_entries ES w1 r HndES) as (w' & Hrun & Hwr & Hpl).
  { apply Forall_forall. intros e He. destruct (HES e He) as (i & Hi & ->).
    destruct (Hi1 i Hi) as (F0 & o & o1 & A & B & F2 & F3 & F5 & F6 & F7 & F8 & _). destruct (Hsl i Hi) as [S1 S2].
    unfold entry_ok, ent. cbn [e_parts e_own e_name e_val e_new].
    split; [now apply HEf|]. split; [exact S1|]. split; [exact S2|]. split; [now apply Hresv|].
    split; [exact F6|]. exists o1. split; [exact B|]. split; [apply (Hlive (i_own i)); [now apply (grown_reaches w w1)|exact B]|].
    rewrite F2. split; [exact F8|]. intros b [= <-]. exact F3. }
  assert (HT : forall x n a, writes ES x n = Some a -> exists i, In i E /\ i_own i = x /\ i_name i = n /\ a = old i).
  { intros x n a Hwa. apply writes_Some in Hwa as (e & He & E1 & E2 & E3). destruct (HES e He) as (i & Hi & ->). eauto 6. }
  assert (HTi : forall i, In i E -> writes ES (i_own i) (i_name i) = Some (old i)).
  { intros i Hi. apply (writes_In ES (ent i) HndES). eapply Permutation_in; [exact HpES|]. apply in_map. exact Hi. }
  exists w'. split.
  { unfold update_state. rewrite Hs1. cbn [sts_list]. unfold update_module. fold M. rewrite HM. exact Hrun. }
  split.
  { apply (wrote_wf w1 w' (writes ES)); auto. intros x n a Ha. apply HT in Ha as (i & Hi & <- & <- & ->).
    destruct (Hi1 i Hi) as (F0 & o & o1 & A & B & F2 & F3 & F5 & F6 & F7 & F8 & _). split; [exact F7|]. split; [exact F6|now apply Hresv]. }
  split.
  { intros x o Hx Ho. destruct (HN _ Hx) as (o' & o1 & A & B & C1 & C2 & C). assert (o' = o) by congruence. subst o'.
    destruct (wr_obj _ _ _ Hwr _ _ B) as (dd & A' & _ & _ & Hdd). exists o1, (set_vars o1 dd). split; [exact B|]. split; [exact A'|]. do 4 (split; [reflexivity|]).
    intros n. cbn [m_vars set_vars]. rewrite Hdd. specialize (C n).
    destruct (writes ES x n) as [c|] eqn:Ew.
    - apply HT in Ew as (i & Hi & Ox & Nx & ->). destruct (Hi1 i Hi) as (_ & oo & oo1 & A2 & B2 & F2 & _ & _ & _ & _ & _ & Z0).
      rewrite Ox in A2, B2. rewrite Nx in F2, Z0. assert (oo = o) by congruence. assert (oo1 = o1) by congruence. subst oo oo1.
      destruct (dget n (m_vars o)) as [a|]; [now rewrite Z0|]. now rewrite Z0, F2.
    - destruct (dget n (m_vars o)) as [a|] eqn:Ea; [|reflexivity]. destruct (dget n (m_vars o1)) as [b|] eqn:Eb; [|destruct C].
      destruct C as [->|(C3 & C4 & C5)]; [reflexivity|]. exfalso.
      destruct (HE2 x n b) as (i & Hi & I1 & I2 & I3); [apply (graph_reaches _ _ _ _ Hw1 Hr1 Hg); now apply (grown_reaches w w1)|exact C4|].
      pose proof (HTi i Hi) as Q. rewrite I1, I2 in Q. congruence. }
  split.
  { intros x Hx. apply (wr_same _ _ _ Hwr). intros n. destruct (writes ES x n) as [a|] eqn:Ea; [|reflexivity].
    apply HT in Ea as (i & Hi & <- & _). destruct Hx. now apply Hi1. }
  split; [apply Hwr|]. split; [apply Hwr|]. split; apply Hwr.
Qed.

Lemma has_back_reads w w1 r w2 : wf_world w -> values_written w w1 r -> has_back w w1 r w2 -> forall q x, reaches w r x ->
  (look w x q <> SNothing -> look w2 x q = look w x q) /\ (look w x q = SNothing -> look w2 x q = look w1 x q) /\ follow w2 x q = follow w x q.
Proof.
  intros W [_ HV] HB. induction q as [|n q IH]; intros x Hx; destruct (HV x Hx) as (o & o1 & A & B & C1 & C2 & C);
    destruct (HB x o Hx A) as (o1' & o2 & B' & A2 & D1 & _ & D2 & _ & D3); assert (o1' = o1) by congruence; subst o1'; cbn [look follow]; rewrite A, B, A2.
  - split; [intros _; congruence|]. split; [discriminate|reflexivity].
  - rewrite D3. specialize (C n). destruct (dget n (m_vars o)) as [a|] eqn:Ea.
    + destruct (is_submodule a) eqn:Sa.
      * destruct a as [v|c]; [|discriminate]. destruct v; try discriminate. destruct (dget n (m_vars o1)) as [b|] eqn:Eb; [|destruct C].
        destruct C as [<-|(C3 & _)]; [|apply node_attr_iff in C3 as (_ & _ & _ & C3 & _); discriminate].
        apply IH. eapply reaches_trans; [exact Hx|]. apply (reaches_child w _ n _ W); exists o; split; eassumption.
      * destruct (dget n (m_vars o1)) as [b|] eqn:Eb; [|destruct C].
        assert (Sb : is_submodule b = false) by (destruct C as [<-|(_ & C4 & _)]; [exact Sa|now apply node_attr_iff in C4 as (_ & _ & _ & C4 & _)]).
        assert (Q : forall (T : Type) (f : nat -> T) (z : T) c, is_submodule c = false -> match c with ARaw (PyMod r') => f r' | _ => z end = z) by (intros T f z [v|c] Hc; [destruct v; auto; discriminate|reflexivity]).
        rewrite !(Q _ _ _ a Sa), !(Q _ _ _ b Sb). destruct q; [|auto]. split; [auto|]. split; [discriminate|reflexivity].
    + destruct (dget n (m_vars o1)) as [b|] eqn:Eb; [|split; [congruence|split; [auto|reflexivity]]].
      apply node_attr_iff in C as (_ & _ & _ & Sb & _). split; [congruence|].
      assert (Q : forall (T : Type) (f : nat -> T) (z : T) c, is_submodule c = false -> match c with ARaw (PyMod r') => f r' | _ => z end = z) by (intros T f z [v|c] Hc; [destruct v; auto; discriminate|reflexivity]).
      rewrite !(Q _ _ _ b Sb). split; [auto|reflexivity].
Qed.

Theorem back_more w w1 r s :
  wf_world w -> wf_world w1 -> valid w r -> names_ok w r -> names_ok w1 r -> live w1 r -> values_written w w1 r -> get_state w r = Ok s ->
  exists w2, update_state w1 r (UStates (One s)) = (w2, Ok tt) /\ reads_back w w1 r w2 /\ rest_as_in w1 r w2.
Proof.
  intros W W1 V N N1 L1 HV G.
  destruct (update_restores w w1 r s W W1 V N N1 L1 HV G) as (w2 & U & W2 & HB & HO & T & _). exists w2.
  assert (Hrr : reaches w r r). { destruct (get_obj_ex _ _ V) as [o Ho]. eapply reaches_refl; eauto. }
  pose proof (nodes_only_below _ _ _ (written_nodes _ _ _ HV)) as HBl.
  split; [exact U|]. split.
  - split; [|split]; intros q; apply (has_back_reads w w1 r w2 W HV HB q r Hrr).
  - split; [|split; [|exact T]].
    + intros q. destruct (has_back_reads w w1 r w2 W HV HB q r Hrr) as (_ & _ & F). rewrite F. symmetry. now apply (grown_follow w w1).
    + intros x o Ho Hx. rewrite HO; auto. intros Hx'. apply Hx. now apply (grown_reaches w w1).
Qed.
Theorem tried_more {A} (f : prog A) w r w1 res :
  wf_world w -> valid w r -> names_ok w r -> live w r -> ok_prog f -> run f w [r] = (w1, res) -> adding w w1 r ->
  exists w2, tried f w r = (w2, Ok tt) /\ reads_back w w1 r w2 /\ rest_as_in w1 r w2.
Proof.
  intros W V N L Hf E [HV N1]. destruct (get_state_total w r W V) as (s & G & _). destruct (run_live_any f w r w1 res Hf W V N L E) as (W1 & V1 & L1 & _).
  unfold tried. rewrite G, E. now apply back_more.
Qed.

Lemma same_shape_trans a b c : same_shape a b -> same_shape b c -> same_shape a c.
Proof. destruct a, b, c; cbn; try tauto. intros [A1 A2] [B1 B2]. split; congruence. Qed.
(** a run whose epochs may add node attributes *)
Lemma written_refl w r : wf_world w -> valid w r -> values_written w w r.
Proof.
  intros W V. split; [reflexivity|]. intros x [p Hx]. apply follow_valid in Hx as [o Ho]. exists o, o. do 4 (split; [auto|]). intros n. destruct (dget n (m_vars o)); auto.
Qed.
Lemma written_trans w w1 w2 r : wf_world w -> valid w r -> values_written w w1 r -> values_written w1 w2 r -> values_written w w2 r.
Proof.
  intros W V HV [N2 H2]. pose proof (nodes_only_below _ _ _ (written_nodes _ _ _ HV)) as HB. destruct HV as [N1 H1]. split; [congruence|].
  intros x Hx. destruct (H1 x Hx) as (o & o1 & A & B & C1 & C2 & C). destruct (H2 x) as (o1' & o2 & B' & D & E1 & E2 & E); [now apply (grown_reaches w w1)|].
  assert (o1' = o1) by congruence. subst o1'. exists o, o2. split; [exact A|]. split; [exact D|]. split; [congruence|]. split; [congruence|].
  intros n. specialize (C n). specialize (E n). destruct (dget n (m_vars o)) as [a|] eqn:Ea.
  - destruct (dget n (m_vars o1)) as [b|] eqn:Eb; [|destruct C]. destruct (dget n (m_vars o2)) as [c|] eqn:Ec; [|destruct E].
    destruct C as [<-|(C3 & C4 & C5)].
    + destruct E as [<-|(E3 & E4 & E5)]; [now left|]. right. split; [|auto]. apply node_attr_iff in E3 as (oo & F1 & F2 & F3 & F4). apply node_attr_iff. exists o. rewrite <- N1. auto.
    + right. split; [exact C3|]. destruct E as [<-|(E3 & E4 & E5)].
      * split; [|exact C5]. apply node_attr_iff in C4 as (oo & F1 & F2 & F3 & F4). apply node_attr_iff. exists o2. rewrite N2. auto.
      * split; [exact E4|]. eapply same_shape_trans; eauto.
  - destruct (dget n (m_vars o1)) as [b|] eqn:Eb.
    + destruct (dget n (m_vars o2)) as [c|] eqn:Ec; [|destruct E]. destruct E as [<-|(E3 & E4 & E5)]; [|exact E4].
      apply node_attr_iff in C as (oo & F1 & F2 & F3 & F4). apply node_attr_iff. exists o2. rewrite N2. auto.
    + exact E.
Qed.
Lemma history_more r w l log wz res : history adding r w l log wz res -> wf_world w -> valid w r -> names_ok w r -> live w r ->
  wf_world wz /\ valid wz r /\ live wz r /\ adding w wz r /\
  Forall (fun x => wf_world (snd x) /\ valid (snd x) r /\ names_ok (snd x) r /\ adding (snd x) wz r) log.
Proof.
  induction 1 as [w|w f l w1 e Hf E St|w f l w1 score log w' res Hf E St H IH]; intros W V N L.
  - split; [exact W|]. split; [exact V|]. split; [exact L|]. split; [|constructor]. split; [now apply written_refl|exact N].
  - destruct (run_live_any f w r w1 _ Hf W V N L E) as (W1 & V1 & L1 & N1). split; [exact W1|]. split; [exact V1|]. split; [exact L1|]. split; [exact St|constructor].
  - destruct (run_live_any f w r w1 _ Hf W V N L E) as (W1 & V1 & L1 & N1). pose proof St as (S1 & S2).
    destruct (IH W1 V1 S2 L1) as (A1 & A2 & A3 & A5 & A6). split; [exact A1|]. split; [exact A2|]. split; [exact A3|].
    split; [split; [exact (written_trans w w1 w' r W V S1 (proj1 A5))|exact (proj2 A5)]|]. constructor; [cbn [snd]; auto|exact A6].
Qed.
Theorem fit_more better r w l log wz res : ranks better -> history adding r w l log wz res -> wf_world w -> valid w r -> names_ok w r -> live w r ->
  (log = [] -> fit better l w r = (wz, res)) /\
  (log <> [] -> exists i score wb w', first_best better log i score wb /\ fit better l w r = (w', res) /\ reads_back wb wz r w' /\ rest_as_in wz r w').
Proof.
  intros R H W V N L. destruct (history_more r w l log wz res H W V N L) as (Wz & Vz & Lz & _ & F).
  unfold fit. destruct (keep_ok adding better r w l log wz res (fun v v1 K => proj2 K) R H W V N L None) as [(K & _ & F0)|(i & score & wb & s & K & FB & G & _)]; rewrite K.
  - split; [reflexivity|]. intros C. exfalso. apply C. now apply F0.
  - pose proof FB as (FB1 & _). split; [intros ->; destruct i; discriminate|]. intros _.
    rewrite Forall_forall in F. destruct (F _ (nth_error_In _ _ FB1)) as (Wb & Vb & Nb & Ab & Az). cbn [snd] in *.
    destruct (back_more wb wz r s Wb Wz Vb Nb Az Lz Ab G) as (w' & U & A & B). rewrite U. exists i, score, wb, w'. auto.
Qed.
