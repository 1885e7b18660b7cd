(** Modules whose node attributes changed or were added, everything else being
    the same; update_state carries such a change from one to the other. *)
From Coq Require Import Permutation Sorted Lia.
From Verif Require Import PyBase PyBaseFacts ValuesM Spec_Eq ValuesFacts FiltersM StateM Spec_State State_proofs ModuleM Spec_Module Spec_Prog Graph_facts
  Dfs_proofs Build_proofs Bisim_proofs Skel_proofs RoundTrip_proofs Clone_proofs Update_proofs.
Local Open Scope string_scope.
Local Open Scope list_scope.

Definition grel (nt : list string) (R : nat -> nat -> Prop) (a b : option attr) : Prop :=
  match a, b with
  | Some x, Some y => srel nt R x y
  | None, None => True
  | None, Some y => is_submodule y = false /\ is_node nt y = true
  | Some _, None => False
  end.

Record gskel (w w' : world) (R : nat -> nat -> Prop) : Prop := {
  gs_obj : forall x y, R x y -> exists o o', get_obj w x = Some o /\ get_obj w' y = Some o' /\
      forall n, grel (w_nodes w) R (dget n (m_vars o)) (dget n (m_vars o'));
  gs_fun : forall x y y', R x y -> R x y' -> y = y';
  gs_inj : forall x x' y, R x y -> R x' y -> x = x';
  gs_nodes : w_nodes w = w_nodes w'
}.

Inductive glist (nt : list string) (R : nat -> nat -> Prop) : list (string * attr) -> list (string * attr) -> Prop :=
| gl_nil : glist nt R [] []
| gl_both n a b l l' : srel nt R a b -> glist nt R l l' -> glist nt R ((n, a) :: l) ((n, b) :: l')
| gl_new n b l l' : is_submodule b = false -> is_node nt b = true -> glist nt R l l' -> glist nt R l ((n, b) :: l').

Lemma sorted_grel nt R : forall l' l,
  StronglySorted klt l -> StronglySorted klt l' ->
  (forall n, grel nt R (dget n l) (dget n l')) -> glist nt R l l'.
Proof.
  induction l' as [|[m b] l' IH]; intros l Hs Hs' Ho.
  - destruct l as [|[n a] l]; [constructor|]. specialize (Ho n). cbn in Ho. rewrite String.eqb_refl in Ho. destruct Ho.
  - inversion Hs' as [|? ? Hs1' Hs2']; subst. pose proof (strict_NoDup _ Hs') as Hnd'.
    inversion Hnd' as [|? ? Hni1' Hnd1']; subst. apply dget_None in Hni1' as Hm'.
    destruct (dget m l) as [a|] eqn:Ea.
    + destruct l as [|[n a'] l]; [discriminate|].
      inversion Hs as [|? ? Hs1 Hs2]; subst. pose proof (strict_NoDup _ Hs) as Hnd. inversion Hnd as [|? ? Hni1 Hnd1]; subst.
      assert (n = m).
      { destruct (string_dec n m) as [|Hne]; [assumption|exfalso].
        assert (Hm : In m (keys l)).
        { apply dget_In_keys in Ea. cbn in Ea. destruct Ea; [congruence|assumption]. }
        assert (Hn : In n (keys l')).
        { specialize (Ho n). cbn in Ho. rewrite String.eqb_refl in Ho. destruct (String.eqb_spec n m); [congruence|].
          destruct (dget n l') eqn:E; [|destruct Ho]. eapply dget_In_keys; eauto. }
        rewrite Forall_forall in Hs2, Hs2'. unfold keys in *.
        apply in_map_iff in Hn as ([n' x'] & <- & Hn). apply in_map_iff in Hm as ([m' y'] & <- & Hm).
        apply Hs2' in Hn. apply Hs2 in Hm. unfold klt in *. cbn in *. eapply slt_asym; eauto. }
      subst m. cbn in Ea. rewrite String.eqb_refl in Ea. injection Ea as ->.
      constructor.
      * specialize (Ho n). cbn in Ho. now rewrite String.eqb_refl in Ho.
      * apply IH; auto. intros k. specialize (Ho k). cbn in Ho. destruct (String.eqb_spec k n) as [Ek|]; [rewrite Ek|exact Ho].
        apply dget_None in Hni1. rewrite Hni1, Hm'. exact Logic.I.
    + pose proof (Ho m) as Hm. rewrite Ea in Hm. cbn in Hm. rewrite String.eqb_refl in Hm. destruct Hm as [H1 H2].
      constructor; auto. apply IH; auto. intros k. specialize (Ho k). cbn in Ho.
      destruct (String.eqb_spec k m) as [Ek|]; [|exact Ho]. subst k. rewrite Ea, Hm'. exact Logic.I.
Qed.

Lemma gskel_sorted w w' R x y o o' : wf_world w -> wf_world w' -> gskel w w' R -> R x y ->
  get_obj w x = Some o -> get_obj w' y = Some o' ->
  glist (w_nodes w) R (sort_by_key (m_vars o)) (sort_by_key (m_vars o')).
Proof.
  intros Hw Hw' HR Hxy Ho Ho'. destruct (gs_obj _ _ _ HR _ _ Hxy) as (o1 & o1' & A & B & E).
  assert (o1 = o) by congruence. assert (o1' = o') by congruence. subst.
  pose proof (wf_objs _ Hw _ _ Ho) as W. pose proof (wf_objs _ Hw' _ _ Ho') as W'.
  apply sorted_grel.
  - apply sort_strict. apply W.
  - apply sort_strict. apply W'.
  - intros n. rewrite !dget_sort; [apply E|apply W'|apply W].
Qed.

Lemma gskel_valid w w' R x y : gskel w w' R -> R x y -> valid w x /\ valid w' y.
Proof.
  intros HR Hxy. destruct (gs_obj _ _ _ HR _ _ Hxy) as (o & o' & A & B & _).
  split; eapply get_obj_lt; eauto.
Qed.

Lemma iter_fields_plain rec nt n c t seen parts : is_submodule c = false ->
  iter_fields rec nt ((n, c) :: t) seen parts =
  do (ys, seen2) <- iter_fields rec nt t seen parts;
  if is_node nt c then Ok ((join_path (parts ++ [n]), c) :: ys, seen2) else Ok (ys, seen2).
Proof. intros Hc. cbn [iter_fields]. destruct c as [[]|]; try reflexivity. discriminate. Qed.

(** every key of the smaller state is a key of the bigger one *)
Lemma gskel_iter w w' R : wf_world w -> wf_world w' -> gskel w w' R ->
  forall fuel r s sr tr parts, R r s -> Forall2 R sr tr ->
  match iter_state_rec fuel w r (ids w sr) parts, iter_state_rec fuel w' s (ids w' tr) parts with
  | Ok (xs, m), Ok (ys, m') => incl (keys xs) (keys ys) /\ exists sr' tr', m = ids w sr' /\ m' = ids w' tr' /\ Forall2 R sr' tr'
  | Err e, Err e' => e = e'
  | _, _ => False
  end.
Proof.
  intros Hw Hw' HR. pose proof (gs_nodes _ _ _ HR) as Hnt. induction fuel as [|fuel IH]; intros r s sr tr parts Hrs Hsr; [reflexivity|].
  cbn [iter_state_rec]. destruct (gs_obj _ _ _ HR _ _ Hrs) as (o & o' & A & B & E). rewrite A, B.
  destruct (gskel_valid _ _ _ _ _ HR Hrs) as [Vr Vs].
  assert (Vsr : Forall (valid w) sr).
  { apply Forall_forall. intros x Hx. destruct (Forall2_In_l _ _ _ _ Hsr Hx) as (y & _ & H). apply (gskel_valid _ _ _ _ _ HR H). }
  assert (Vtr : Forall (valid w') tr).
  { apply Forall_forall. intros x Hx. destruct (Forall2_In_r _ _ _ _ Hsr Hx) as (y & _ & H). apply (gskel_valid _ _ _ _ _ HR H). }
  assert (Em : nmem (m_id o) (ids w sr) = nmem (m_id o') (ids w' tr)).
  { apply Bool.eq_iff_eq_true. rewrite !nmem_In, <- (idof_get _ _ _ A), <- (idof_get _ _ _ B), !In_ids by assumption. split.
    - intros H. destruct (Forall2_In_l _ _ _ _ Hsr H) as (y & Hy & Hy'). now rewrite (gs_fun _ _ _ HR _ _ _ Hrs Hy').
    - intros H. destruct (Forall2_In_r _ _ _ _ Hsr H) as (y & Hy & Hy'). now rewrite (gs_inj _ _ _ HR _ _ _ Hrs Hy'). }
  rewrite <- Em. destruct (nmem (m_id o) (ids w sr)).
  { split; [intros k []|]. exists sr, tr. auto. }
  assert (Hids : ids w sr ++ [m_id o] = ids w (sr ++ [r])). { unfold ids. rewrite map_app. cbn. now rewrite (idof_get _ _ _ A). }
  assert (Hids' : ids w' tr ++ [m_id o'] = ids w' (tr ++ [s])). { unfold ids. rewrite map_app. cbn. now rewrite (idof_get _ _ _ B). }
  rewrite Hids, Hids'.
  pose proof (gskel_sorted _ _ _ _ _ _ _ Hw Hw' HR Hrs A B) as Hl.
  assert (Hsr1 : Forall2 R (sr ++ [r]) (tr ++ [s])) by (apply Forall2_app; auto).
  revert Hsr1 Hl. generalize (sort_by_key (m_vars o)), (sort_by_key (m_vars o')). generalize (sr ++ [r]), (tr ++ [s]).
  intros sr1 tr1 l l' Hsr1 Hl. revert sr1 tr1 Hsr1.
  induction Hl as [|n a b l l' Hab Hl IHl|n b l l' Hb1 Hb2 Hl IHl]; intros sr1 tr1 Hsr1.
  - cbn. split; [intros k []|]. exists sr1, tr1. auto.
  - destruct Hab as [(x & y & -> & -> & Hxy)|Hab].
    + cbn [iter_fields]. specialize (IH x y sr1 tr1 (parts ++ [n]) Hxy Hsr1).
      destruct (iter_state_rec fuel w x (ids w sr1) (parts ++ [n])) as [[xs mm]|e],
               (iter_state_rec fuel w' y (ids w' tr1) (parts ++ [n])) as [[ys mm']|e']; try (destruct IH; fail); cbn [rbind].
      * destruct IH as (Hk & sr2 & tr2 & -> & -> & Hsr2). specialize (IHl sr2 tr2 Hsr2).
        destruct (iter_fields (iter_state_rec fuel w) (w_nodes w) l (ids w sr2) parts) as [[zs mm]|e],
                 (iter_fields (iter_state_rec fuel w') (w_nodes w') l' (ids w' tr2) parts) as [[zs' mm']|e'];
          try (destruct IHl; fail); cbn [rbind].
        -- destruct IHl as (Hk2 & H). split; [|exact H]. rewrite !keys_app. apply incl_app; [now apply incl_appl|now apply incl_appr].
        -- exact IHl.
      * exact IH.
    + specialize (IHl sr1 tr1 Hsr1).
      assert (Hs : is_submodule a = false /\ is_submodule b = false /\ is_node (w_nodes w) a = is_node (w_nodes w') b).
      { destruct Hab as [(H1 & H2 & H3 & H4)|(H1 & H2 & <-)]; rewrite <- Hnt; repeat split; auto; congruence. }
      destruct Hs as (Ha & Hb & Hab').
      rewrite (iter_fields_plain (iter_state_rec fuel w) _ _ a) by assumption.
      rewrite (iter_fields_plain (iter_state_rec fuel w') _ _ b) by assumption.
      destruct (iter_fields (iter_state_rec fuel w) (w_nodes w) l (ids w sr1) parts) as [[zs mm]|e],
               (iter_fields (iter_state_rec fuel w') (w_nodes w') l' (ids w' tr1) parts) as [[zs' mm']|e'];
        try (destruct IHl; fail); cbn [rbind].
      * rewrite Hab'. destruct IHl as (Hk & H). destruct (is_node (w_nodes w') b); split; auto. unfold keys in *. cbn.
        intros k [->|Hk']; [now left|right; auto].
      * exact IHl.
  - specialize (IHl sr1 tr1 Hsr1). rewrite (iter_fields_plain (iter_state_rec fuel w') _ _ b) by assumption.
    destruct (iter_fields (iter_state_rec fuel w) (w_nodes w) l (ids w sr1) parts) as [[zs mm]|e],
             (iter_fields (iter_state_rec fuel w') (w_nodes w') l' (ids w' tr1) parts) as [[zs' mm']|e'];
        try (destruct IHl; fail); cbn [rbind].
    + destruct IHl as (Hk & H). destruct (is_node (w_nodes w') b); split; auto. unfold keys in *. cbn.
      intros k Hk'. right. auto.
    + exact IHl.
Qed.

Lemma gskel_keys w w' R r s st st' : wf_world w -> wf_world w' -> gskel w w' R -> R r s ->
  get_state w r = Ok st -> get_state w' s = Ok st' -> incl (keys st) (keys st').
Proof.
  intros Hw Hw' HR Hrs. destruct (gskel_valid _ _ _ _ _ HR Hrs) as [Hr Hs]. unfold get_state.
  rewrite (iter_state_any_fuel w r Hw Hr (dfs_fuel w + dfs_fuel w')) by lia.
  rewrite (iter_state_any_fuel w' s Hw' Hs (dfs_fuel w + dfs_fuel w')) by lia.
  pose proof (gskel_iter _ _ _ Hw Hw' HR (dfs_fuel w + dfs_fuel w') r s [] [] [] Hrs (Forall2_nil _)) as H.
  change (ids w []) with (@nil nat) in H. change (ids w' []) with (@nil nat) in H.
  destruct (iter_state_rec (dfs_fuel w + dfs_fuel w') w r [] []) as [[xs m]|e],
           (iter_state_rec (dfs_fuel w + dfs_fuel w') w' s [] []) as [[ys m']|e']; try (destruct H; fail); cbn.
  2: discriminate.
  intros [= <-] [= <-] k. destruct H as [H _]. unfold mk_state, dict_of. rewrite !In_keys_dupdate. cbn.
  assert (Hsort : forall l : list (string * attr), In k (keys (sort_by_key l)) <-> In k (keys l)).
  { intros l. unfold keys. split; apply Permutation_in, Permutation_map; [apply sort_perm|symmetry; apply sort_perm]. }
  rewrite !Hsort. intros [Hk|[]]. left. now apply H.
Qed.

(** ** following paths in a grown module *)
Definition grown_below (w w' : world) (r : nat) : Prop :=
  forall x, reaches w r x -> exists o o', get_obj w x = Some o /\ get_obj w' x = Some o' /\
      forall n, grel (w_nodes w) (fun x y => x = y) (dget n (m_vars o)) (dget n (m_vars o')).

Lemma grown_follow w w' : wf_world w -> forall p r, valid w r -> grown_below w w' r -> follow w' r p = follow w r p.
Proof.
  intros Hw. induction p as [|n p IH]; intros r Hv H; destruct (get_obj_ex _ _ Hv) as [o Eo];
    assert (Hr : reaches w r r) by (eapply reaches_refl; eauto);
    destruct (H r Hr) as (o1 & o' & A & B & C); assert (o1 = o) by congruence; subst o1; cbn; rewrite Eo, B; [reflexivity|].
  specialize (C n). destruct (dget n (m_vars o)) as [a|] eqn:Ea, (dget n (m_vars o')) as [b|] eqn:Eb; cbn in C; try tauto.
  - destruct C as [(x & z & -> & -> & <-)|[(C1 & C2 & _)|(C1 & _ & <-)]].
    + apply IH. { exact (wfo_refs _ _ (wf_objs _ Hw _ _ Eo) _ _ Ea). }
      intros v Hv'. apply H. eapply reaches_trans; [|exact Hv']. apply (reaches_child w _ n _ Hw); exists o; split; eassumption.
    + destruct a as [[]|], b as [[]|]; try discriminate; reflexivity.
    + destruct a as [[]|]; try discriminate; reflexivity.
  - destruct C as [C1 C2]. destruct b as [[]|]; try discriminate; reflexivity.
Qed.

Lemma grown_reaches w w' r x : wf_world w -> valid w r -> grown_below w w' r -> reaches w' r x <-> reaches w r x.
Proof. intros Hw Hv H. unfold reaches. split; intros [p Hp]; exists p; [rewrite <- (grown_follow w w')|rewrite (grown_follow w w')]; auto. Qed.

Lemma nodes_only_below w w1 r : nodes_only w w1 r -> grown_below w w1 r.
Proof.
  intros [Hn H] x Hx. destruct (H x Hx) as (o & o1 & A & B & _ & _ & C). exists o, o1. split; [exact A|]. split; [exact B|].
  intros n. specialize (C n). unfold grel.
  destruct (dget n (m_vars o)) as [a|] eqn:Ea, (dget n (m_vars o1)) as [b|] eqn:Eb; try tauto.
  - destruct C as [<-|(C1 & C2 & _)].
    + destruct (attr_cases (w_nodes w) a) as [[c ->]|[[S1 S2]|[S1 S2]]].
      * left. exists c, c. auto.
      * right. left. auto.
      * right. right. auto.
    + apply node_attr_iff in C1 as (oo & _ & _ & C3 & C4). apply node_attr_iff in C2 as (oo1 & _ & _ & C5 & C6).
      rewrite Hn in C6. right. left. auto.
  - apply node_attr_iff in C as (oo1 & _ & _ & C5 & C6). rewrite Hn in C6. auto.
Qed.

Theorem update_carries w w1 r s :
  wf_world w -> wf_world w1 -> valid w r -> names_ok w r -> names_ok w1 r -> live w r -> nodes_only w w1 r ->
  get_state w1 r = Ok s ->
  exists w4, update_state w r (UStates (One s)) = (w4, Ok tt) /\ wf_world w4 /\
    bisim w4 w1 (fun x y => x = y /\ reaches w r x) /\
    (forall x, ~ reaches w r x -> get_obj w4 x = get_obj w x) /\
    w_trace w4 = w_trace w /\ w_nodes w4 = w_nodes w /\ w_uuid w4 = w_uuid w /\ List.length (w_heap w4) = List.length (w_heap w).
Proof.
  intros Hw Hw1 Hr Hno Hno1 Hlive HN Hs.
  pose proof (nodes_only_below _ _ _ HN) as HB. destruct HN as [Hnt HN].
  assert (HG : gskel w w1 (fun x y => x = y /\ reaches w r x)).
  { constructor.
    - intros x y [-> Hx]. destruct (HB y Hx) as (o & o' & A & B & C). exists o, o'. split; [exact A|]. split; [exact B|].
      intros n. specialize (C n). unfold grel in *. destruct (dget n (m_vars o)) as [a|] eqn:Ea; [|exact C].
      destruct (dget n (m_vars o')) as [b|] eqn:Eb; [|exact C]. destruct C as [(p & q & -> & -> & ->)|C]; [|right; exact C].
      left. exists q, q. repeat split; auto. eapply reaches_trans; [exact Hx|]. apply (reaches_child w _ n _ Hw); exists o; split; eassumption.
    - intros x y y' [-> _] [-> _]. reflexivity.
    - intros x x' y [-> _] [-> _]. reflexivity.
    - now symmetry. }
  assert (Hrr : reaches w r r). { destruct (get_obj_ex _ _ Hr) as [o Ho]. eapply reaches_refl; eauto. }
  assert (Hr1 : valid w1 r) by (apply (gskel_valid _ _ _ r r HG); auto).
  destruct (graph_exists w r Hw Hr) as (d0 & L0 & Hg0).
  destruct (get_state_graph w r d0 L0 Hw Hr Hg0 Hno) as (E0 & s0 & Hs0 & Hwf0 & _).
  destruct (graph_exists w1 r Hw1 Hr1) as (d & L & Hg).
  destruct (get_state_graph w1 r d L Hw1 Hr1 Hg Hno1) as (E & s' & Hs' & Hwf & (HE1 & HE2 & HE3) & HEf & HPE & HND & Hsl).
  rewrite Hs in Hs'. injection Hs' as <-.
  pose proof (gskel_keys _ _ _ r r _ _ Hw Hw1 HG (conj eq_refl Hrr) Hs0 Hs) as Hincl.
  pose proof (state_item E s HND HPE) as Hitem.
  set (ent := fun i => mkE (i_path i) (i_own i) (i_name i) (i_val i) (i_val i)).
  (* what every item is *)
  assert (Hi1 : forall i, In i E -> reaches w r (i_own i) /\ exists o1, get_obj w1 (i_own i) = Some o1 /\
            dget (i_name i) (m_vars o1) = Some (i_val i) /\ is_submodule (i_val i) = false /\ is_node (w_nodes w1) (i_val i) = true /\
            wf_attr (i_val i)).
  { intros i Hi. destruct (HE1 i Hi) as [_ G]. apply node_attr_iff in G as (o & G1 & G2 & G3 & G4). split.
    - apply (grown_reaches w w1); auto. exists (i_path i). auto.
    - exists o. split; [exact G1|]. split; [exact G2|]. split; [exact G3|]. split; [exact G4|].
      exact (wfo_attrs _ _ (wf_objs _ Hw1 _ _ G1) _ _ G2). }
  set (M := fold_left (fun acc s => dupdate acc s) [s0; s] []).
  assert (HM : Permutation M (map (fun e => (e_key e, e_val e)) (map ent E))).
  { assert (HndE : NoDup (keys (map (fun e => (e_key e, e_val e)) (map ent E)))).
    { unfold keys in *. rewrite !map_map in *. exact HND. }
    apply dget_ext_perm; auto.
    - apply fold_dupdate_NoDup. constructor.
    - intros k. unfold M. rewrite dget_merge_gen.
      2:{ constructor; [now apply wf_NoDup|]. constructor; [now apply wf_NoDup|constructor]. }
      cbn [last_value dget].
      assert (Hperm : dget k (map (fun e => (e_key e, e_val e)) (map ent E)) = dget k s).
      { rewrite map_map. symmetry. apply dget_perm; [|exact HPE]. now apply wf_NoDup. }
      rewrite Hperm. destruct (dget k s) as [a|] eqn:Ea; [reflexivity|].
      destruct (dget k s0) as [a|] eqn:E0'; [|reflexivity]. exfalso. apply dget_In_keys in E0'. apply Hincl in E0'.
      apply dget_None in Ea. contradiction. }
  apply Permutation_map_inv in HM. destruct HM as (ES & HM & HpES).
  assert (HES : forall e, In e ES -> exists i, In i E /\ e = ent i).
  { intros e He. apply (Permutation_in _ (Permutation_sym HpES)) in He. apply in_map_iff in He as (i & <- & Hi). eauto. }
  assert (HndES : NoDup (map e_slot ES)).
  { eapply Permutation_NoDup; [apply Permutation_map; exact HpES|]. rewrite map_map. exact HE3. }
  destruct (update_loop_entries ES w r HndES) as (w' & Hrun & Hwr & Hpl).
  { apply Forall_forall. intros e He. destruct (HES e He) as (i & Hi & ->).
    destruct (Hi1 i Hi) as (F0 & o1 & F1 & F2 & F3 & F4 & F5). destruct (Hsl i Hi) as [S1 S2].
    destruct (HN _ F0) as (o & o1' & A & B & C1 & C2 & C). assert (o1' = o1) by congruence. subst o1'.
    unfold entry_ok, ent. cbn [e_parts e_own e_name e_val e_new].
    split; [rewrite <- (grown_follow w w1); auto|]. split; [exact S1|]. split; [exact S2|]. split.
    { intros Heq. apply (wfo_reserved _ _ (wf_objs _ Hw1 _ _ F1)). rewrite <- Heq. eapply dget_In_keys; eauto. }
    split; [exact F3|]. exists o. split; [exact A|]. split; [now apply (Hlive (i_own i))|].
    specialize (C (i_name i)). rewrite F2 in C. destruct (dget (i_name i) (m_vars o)) as [a|] eqn:Ea.
    - assert (Hwa : wf_attr a) by exact (wfo_attrs _ _ (wf_objs _ Hw _ _ A) _ _ Ea).
      destruct C as [->|(C3 & C4 & C5)].
      + split; [apply assign_overwrites; auto; now apply overwrites_refl|]. intros b [= <-]. exact F3.
      + split; [now apply assign_overwrites|]. intros b [= <-]. apply node_attr_iff in C3 as (oo & _ & _ & C3 & _). exact C3.
    - split; [now apply assign_None_wf|]. discriminate. }
  exists w'. split.
  { unfold update_state. rewrite Hs0. cbn [sts_list]. unfold update_module. fold M. rewrite HM. exact Hrun. }
  assert (HT : forall x n a, writes ES x n = Some a -> exists i, In i E /\ i_own i = x /\ i_name i = n /\ a = i_val i).
  { intros x n a Hwa. apply writes_Some in Hwa as (e & He & E1 & E2 & E3). destruct (HES e He) as (i & Hi & ->). eauto 6. }
  assert (HTi : forall i, In i E -> writes ES (i_own i) (i_name i) = Some (i_val i)).
  { intros i Hi. apply (writes_In ES (ent i) HndES). eapply Permutation_in; [exact HpES|]. apply in_map. exact Hi. }
  split.
  { apply (wrote_wf w w' (writes ES)); auto. intros x n a Ha. apply HT in Ha as (i & Hi & <- & <- & ->).
    destruct (Hi1 i Hi) as (F0 & o1 & F1 & F2 & F3 & F4 & F5). split; [exact F5|]. split; [exact F3|].
    intros Heq. apply (wfo_reserved _ _ (wf_objs _ Hw1 _ _ F1)). rewrite <- Heq. eapply dget_In_keys; eauto. }
  split.
  { constructor.
    - intros x y [-> Hx]. destruct (HN _ Hx) as (o & o1 & A & B & C1 & C2 & C).
      destruct (wr_obj _ _ _ Hwr _ _ A) as (dd & A' & _ & _ & Hdd).
      exists (set_vars o dd), o1. split; [exact A'|]. split; [exact B|]. split; [symmetry; exact C1|]. split; [symmetry; exact C2|].
      intros n. cbn. rewrite Hdd. specialize (C n).
      assert (Hsame : forall a, is_submodule a = false -> orel (fun x y => x = y /\ reaches w r x) (Some a) (Some a)).
      { intros a Ha. now apply orel_refl_val. }
      destruct (dget n (m_vars o1)) as [b|] eqn:Eb.
      + destruct (is_submodule b) eqn:Es.
        * assert (HTn : writes ES y n = None).
          { destruct (writes ES y n) as [a|] eqn:Ew; [|reflexivity]. exfalso. apply HT in Ew as (i & Hi & <- & <- & ->).
            destruct (Hi1 i Hi) as (F0 & o1' & F1 & F2 & F3 & F4 & F5). congruence. }
          rewrite HTn. destruct (dget n (m_vars o)) as [a|] eqn:Ea.
          -- destruct C as [->|(C3 & C4 & C5)].
             ++ destruct b as [[]|]; try discriminate. cbn. split; [reflexivity|]. eapply reaches_trans; [exact Hx|].
                apply (reaches_child w _ n _ Hw); exists o; split; eassumption.
             ++ apply node_attr_iff in C4 as (oo & _ & _ & C6 & _). congruence.
          -- apply node_attr_iff in C as (oo & _ & _ & C6 & _). congruence.
        * destruct (is_node (w_nodes w1) b) eqn:En.
          -- assert (Hx1 : reaches w1 r y) by (apply (grown_reaches w w1); auto).
             assert (Hna : node_attr w1 y n b). { apply node_attr_iff. exists o1. auto. }
             destruct (HE2 y n b) as (i & Hi & I1 & I2 & I3); [apply (graph_reaches _ _ _ _ Hw1 Hr1 Hg); exact Hx1|exact Hna|].
             rewrite <- I1, <- I2, (HTi i Hi), I3. now apply Hsame.
          -- assert (HTn : writes ES y n = None).
             { destruct (writes ES y n) as [a|] eqn:Ew; [|reflexivity]. exfalso. apply HT in Ew as (i & Hi & <- & <- & ->).
               destruct (Hi1 i Hi) as (F0 & o1' & F1 & F2 & F3 & F4 & F5). congruence. }
             rewrite HTn. destruct (dget n (m_vars o)) as [a|] eqn:Ea.
             ++ destruct C as [->|(C3 & C4 & C5)]; [now apply Hsame|].
                apply node_attr_iff in C4 as (oo & _ & _ & _ & C6). congruence.
             ++ apply node_attr_iff in C as (oo & _ & _ & _ & C6). congruence.
      + assert (HTn : writes ES y n = None).
        { destruct (writes ES y n) as [a|] eqn:Ew; [|reflexivity]. exfalso. apply HT in Ew as (i & Hi & <- & <- & ->).
          destruct (Hi1 i Hi) as (F0 & o1' & F1 & F2 & F3 & F4 & F5). congruence. }
        rewrite HTn. destruct (dget n (m_vars o)) as [a|] eqn:Ea; [destruct C|exact Logic.I].
    - intros x y y' [-> _] [-> _]. reflexivity.
    - intros x x' y [-> _] [-> _]. reflexivity. }
  split.
  { intros x Hx. apply (wr_same _ _ _ Hwr). intros n. destruct (writes ES x n) as [a|] eqn:Ea; [|reflexivity].
    apply HT in Ea as (i & Hi & <- & _). destruct Hx. now apply Hi1. }
  split; [apply Hwr|]. split; [apply Hwr|]. split; apply Hwr.
Qed.
