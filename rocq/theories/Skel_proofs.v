(** Modules with the same skeleton: same classes, links and static values, but
    possibly different values in the node attributes.  They have the same
    definition and the same state keys. *)
From Coq Require Import Permutation Sorted.
From Verif Require Import PyBase PyBaseFacts ValuesM Spec_Eq ValuesFacts StateM ModuleM Spec_Module Graph_facts Dfs_proofs Bisim_proofs.
Local Open Scope string_scope.
Local Open Scope list_scope.

Definition srel (nt : list string) (R : nat -> nat -> Prop) (a b : attr) : Prop :=
  (exists x y, a = ARaw (PyMod x) /\ b = ARaw (PyMod y) /\ R x y) \/
  (is_submodule a = false /\ is_submodule b = false /\ is_node nt a = true /\ is_node nt b = true) \/
  (is_submodule a = false /\ is_node nt a = false /\ a = b).
Definition opt_rel (Q : attr -> attr -> Prop) (a b : option attr) : Prop :=
  match a, b with Some x, Some y => Q x y | None, None => True | _, _ => False end.

(** [flags]: whether the is_initializing flags agree too *)
Record skel (w w' : world) (R : nat -> nat -> Prop) : Prop := {
  sk_obj : forall x y, R x y -> exists o o', get_obj w x = Some o /\ get_obj w' y = Some o' /\
      m_cls o = m_cls o' /\ m_init o = m_init o' /\
      forall n, opt_rel (srel (w_nodes w) R) (dget n (m_vars o)) (dget n (m_vars o'));
  sk_fun : forall x y y', R x y -> R x y' -> y = y';
  sk_inj : forall x x' y, R x y -> R x' y -> x = x';
  sk_nodes : w_nodes w = w_nodes w'
}.

Lemma sorted_rel (Q : attr -> attr -> Prop) (l : list (string * attr)) : forall l',
  StronglySorted klt l -> StronglySorted klt l' ->
  (forall n, opt_rel Q (dget n l) (dget n l')) ->
  Forall2 (fun x y => fst x = fst y /\ Q (snd x) (snd y)) l l'.
Proof.
  induction l as [|[n a] l IH]; intros [|[m b] l'] Hs Hs' Ho.
  - constructor.
  - specialize (Ho m). cbn in Ho. rewrite String.eqb_refl in Ho. destruct Ho.
  - specialize (Ho n). cbn in Ho. rewrite String.eqb_refl in Ho. destruct Ho.
  - inversion Hs as [|? ? Hs1 Hs2]; subst. inversion Hs' as [|? ? Hs1' Hs2']; subst.
    pose proof (strict_NoDup _ Hs) as Hnd. pose proof (strict_NoDup _ Hs') as Hnd'.
    inversion Hnd as [|? ? Hni1 Hnd1]; subst. inversion Hnd' as [|? ? Hni1' Hnd1']; subst.
    assert (Hdom : forall k, In k (keys ((n, a) :: l)) <-> In k (keys ((m, b) :: l'))).
    { intros k. specialize (Ho k). pose proof (dget_None k ((n, a) :: l)) as D1. pose proof (dget_None k ((m, b) :: l')) as D2.
      destruct (in_dec string_dec k (keys ((n, a) :: l))) as [H1|H1], (in_dec string_dec k (keys ((m, b) :: l'))) as [H2|H2]; try tauto.
      - apply D2 in H2. apply dget_Some_keys in H1 as [v Hv]. rewrite Hv, H2 in Ho. destruct Ho.
      - apply D1 in H1. apply dget_Some_keys in H2 as [v Hv]. rewrite Hv, H1 in Ho. destruct Ho. }
    assert (n = m).
    { destruct (string_dec n m) as [|Hne]; [assumption|exfalso].
      assert (In n (keys l')). { destruct (proj1 (Hdom n)); [now left|cbn in *; congruence|assumption]. }
      assert (In m (keys l)). { destruct (proj2 (Hdom m)); [now left|cbn in *; congruence|assumption]. }
      rewrite Forall_forall in Hs2, Hs2'. unfold keys in *.
      apply in_map_iff in H as ([n' a'] & <- & H). apply in_map_iff in H0 as ([m' b'] & <- & H0).
      apply Hs2' in H. apply Hs2 in H0. unfold klt in *. cbn in *. eapply slt_asym; eauto. }
    subst m. constructor.
    + split; [reflexivity|]. specialize (Ho n). cbn in Ho. now rewrite String.eqb_refl in Ho.
    + apply IH; auto. intros k. specialize (Ho k). cbn in Ho. destruct (String.eqb_spec k n) as [Ek|]; [rewrite Ek|exact Ho].
      apply dget_None in Hni1. apply dget_None in Hni1'. rewrite Hni1, Hni1'. exact I.
Qed.

Lemma skel_sorted w w' R x y o o' : wf_world w -> wf_world w' -> skel w w' R -> R x y ->
  get_obj w x = Some o -> get_obj w' y = Some o' ->
  Forall2 (fun x y => fst x = fst y /\ srel (w_nodes w) R (snd x) (snd y)) (sort_by_key (m_vars o)) (sort_by_key (m_vars o')).
Proof.
  intros Hw Hw' HR Hxy Ho Ho'. destruct (sk_obj _ _ _ HR _ _ Hxy) as (o1 & o1' & A & B & _ & _ & E).
  assert (o1 = o) by congruence. assert (o1' = o') by congruence. subst.
  pose proof (wf_objs _ Hw _ _ Ho) as W. pose proof (wf_objs _ Hw' _ _ Ho') as W'.
  apply sorted_rel.
  - apply sort_strict. apply W.
  - apply sort_strict. apply W'.
  - intros n. rewrite !dget_sort; [apply E|apply W'|apply W].
Qed.

Lemma skel_dspec w w' R : wf_world w -> wf_world w' -> skel w w' R ->
  (forall sr r d sr', dspec w sr r d sr' -> forall tr s, Forall2 R sr tr -> R r s ->
     exists tr', dspec w' tr s d tr' /\ Forall2 R sr' tr') /\
  (forall l sr subs st sr', fspec w l sr subs st sr' -> forall l' tr, Forall2 R sr tr ->
     Forall2 (fun x y => fst x = fst y /\ srel (w_nodes w) R (snd x) (snd y)) l l' ->
     exists tr', fspec w' l' tr subs st tr' /\ Forall2 R sr' tr').
Proof.
  intros Hw Hw' HR. pose proof (sk_nodes _ _ _ HR) as Hnt. apply dfs_ind.
  - intros sr r i Hi tr s Hsr Hrs. exists tr. split; [|exact Hsr]. constructor.
    destruct (Forall2_nth _ _ _ _ _ Hsr Hi) as (s' & Hs' & Hrs'). rewrite Hs'. f_equal. eapply sk_fun; eauto.
  - intros sr r o subs st sr' Hni Ho Hf IH tr s Hsr Hrs.
    destruct (sk_obj _ _ _ HR _ _ Hrs) as (o1 & o' & A & B & C & D & E).
    assert (o1 = o) by congruence. subst o1.
    destruct (IH (sort_by_key (m_vars o')) (tr ++ [s])) as (tr' & G1 & G2).
    { apply Forall2_app; [exact Hsr|]. constructor; [exact Hrs|constructor]. }
    { exact (skel_sorted _ _ _ _ _ _ _ Hw Hw' HR Hrs A B). }
    exists tr'. split; [|exact G2]. rewrite C, D, (Forall2_length _ _ _ Hsr). apply ds_def; auto.
    intros Hi. destruct (Forall2_In_r _ _ _ _ Hsr Hi) as (x & Hx1 & Hx2). apply Hni. now rewrite (sk_inj _ _ _ HR _ _ _ Hrs Hx2).
  - intros sr l' tr Hsr Hl. inversion Hl; subst. exists tr. split; [constructor|exact Hsr].
  - intros n r t sr d sr1 subs st sr2 Hd IHd Hf IHf l' tr Hsr Hl. inversion Hl as [|? [m b] ? l1 [Hn Ho] Hl1]; subst.
    cbn in Hn, Ho. subst m. destruct Ho as [(x & s & [= <-] & -> & Hrs)|[(Hf1 & _)|(Hf1 & _)]]; try discriminate.
    destruct (IHd tr s Hsr Hrs) as (tr1 & A1 & A2). destruct (IHf l1 tr1 A2 Hl1) as (tr2 & B1 & B2).
    exists tr2. split; [|exact B2]. eapply fs_sub; eauto.
  - intros n a t sr subs st sr2 H1 H2 H3 Hf IHf l' tr Hsr Hl. inversion Hl as [|? [m b] ? l1 [Hn Ho] Hl1]; subst.
    cbn in Hn, Ho. subst m. destruct (IHf l1 tr Hsr Hl1) as (tr2 & B1 & B2). exists tr2. split; [|exact B2].
    destruct Ho as [(x & s & -> & _)|[(_ & _ & Hn & _)|(_ & _ & <-)]]; [discriminate|congruence|].
    apply fs_static; auto. congruence.
  - intros n a t sr subs st sr2 H1 H2 Hf IHf l' tr Hsr Hl. inversion Hl as [|? [m b] ? l1 [Hn Ho] Hl1]; subst.
    cbn in Hn, Ho. subst m. destruct (IHf l1 tr Hsr Hl1) as (tr2 & B1 & B2). exists tr2. split; [|exact B2].
    destruct Ho as [(x & s & -> & _)|[(_ & Hb & _ & Hn)|(_ & _ & <-)]]; [discriminate| |].
    + apply fs_skip; auto. rewrite <- Hnt, Hn. reflexivity.
    + apply fs_skip; auto. now rewrite <- Hnt.
Qed.

Lemma skel_valid w w' R x y : skel w w' R -> R x y -> valid w x /\ valid w' y.
Proof.
  intros HR Hxy. destruct (sk_obj _ _ _ HR _ _ Hxy) as (o & o' & A & B & _).
  split; eapply get_obj_lt; eauto.
Qed.

Lemma skel_module_def w w' R r s : wf_world w -> wf_world w' -> skel w w' R ->
  R r s -> get_module_def w r = get_module_def w' s.
Proof.
  intros Hw Hw' HR Hrs. destruct (skel_valid _ _ _ _ _ HR Hrs) as [Hr Hs].
  destruct (graph_exists w r Hw Hr) as (d & L & Hg).
  destruct (proj1 (skel_dspec _ _ _ Hw Hw' HR) _ _ _ _ Hg [] s (Forall2_nil _) Hrs) as (L' & Hg' & _).
  rewrite (get_module_def_graph _ _ _ _ Hw Hr Hg), (get_module_def_graph _ _ _ _ Hw' Hs Hg'). reflexivity.
Qed.

(** ** same state keys *)
Lemma skel_iter w w' R : wf_world w -> wf_world w' -> skel w w' R ->
  forall fuel r s sr tr parts, R r s -> Forall2 R sr tr ->
  match iter_state_rec fuel w r (ids w sr) parts, iter_state_rec fuel w' s (ids w' tr) parts with
  | Ok (xs, m), Ok (ys, m') => keys xs = keys ys /\ exists sr' tr', m = ids w sr' /\ m' = ids w' tr' /\ Forall2 R sr' tr'
  | Err e, Err e' => e = e'
  | _, _ => False
  end.
Proof.
  intros Hw Hw' HR. pose proof (sk_nodes _ _ _ HR) as Hnt. induction fuel as [|fuel IH]; intros r s sr tr parts Hrs Hsr; [reflexivity|].
  cbn [iter_state_rec]. destruct (sk_obj _ _ _ HR _ _ Hrs) as (o & o' & A & B & C & D & E). rewrite A, B.
  destruct (skel_valid _ _ _ _ _ HR Hrs) as [Vr Vs].
  assert (Vsr : Forall (valid w) sr).
  { apply Forall_forall. intros x Hx. destruct (Forall2_In_l _ _ _ _ Hsr Hx) as (y & _ & H). apply (skel_valid _ _ _ _ _ HR H). }
  assert (Vtr : Forall (valid w') tr).
  { apply Forall_forall. intros x Hx. destruct (Forall2_In_r _ _ _ _ Hsr Hx) as (y & _ & H). apply (skel_valid _ _ _ _ _ HR H). }
  assert (Em : nmem (m_id o) (ids w sr) = nmem (m_id o') (ids w' tr)).
  { apply Bool.eq_iff_eq_true. rewrite !nmem_In, <- (idof_get _ _ _ A), <- (idof_get _ _ _ B), !In_ids by assumption. split.
    - intros H. destruct (Forall2_In_l _ _ _ _ Hsr H) as (y & Hy & Hy'). now rewrite (sk_fun _ _ _ HR _ _ _ Hrs Hy').
    - intros H. destruct (Forall2_In_r _ _ _ _ Hsr H) as (y & Hy & Hy'). now rewrite (sk_inj _ _ _ HR _ _ _ Hrs Hy'). }
  rewrite <- Em. destruct (nmem (m_id o) (ids w sr)).
  { split; [reflexivity|]. exists sr, tr. auto. }
  assert (Hids : ids w sr ++ [m_id o] = ids w (sr ++ [r])). { unfold ids. rewrite map_app. cbn. now rewrite (idof_get _ _ _ A). }
  assert (Hids' : ids w' tr ++ [m_id o'] = ids w' (tr ++ [s])). { unfold ids. rewrite map_app. cbn. now rewrite (idof_get _ _ _ B). }
  rewrite Hids, Hids'.
  pose proof (skel_sorted _ _ _ _ _ _ _ Hw Hw' HR Hrs A B) as Hl.
  assert (Hsr1 : Forall2 R (sr ++ [r]) (tr ++ [s])) by (apply Forall2_app; auto).
  revert Hsr1 Hl. generalize (sort_by_key (m_vars o)), (sort_by_key (m_vars o')). generalize (sr ++ [r]), (tr ++ [s]).
  intros sr1 tr1 l l' Hsr1 Hl. revert sr1 tr1 Hsr1.
  induction Hl as [|[n a] [m b] l l' [Hn Hab] Hl IHl]; intros sr1 tr1 Hsr1.
  - cbn. split; [reflexivity|]. exists sr1, tr1. auto.
  - cbn [fst] in Hn. subst m. cbn [snd] in Hab. cbn [iter_fields].
    destruct Hab as [(x & y & -> & -> & Hxy)|Hab].
    + specialize (IH x y sr1 tr1 (parts ++ [n]) Hxy Hsr1).
      destruct (iter_state_rec fuel w x (ids w sr1) (parts ++ [n])) as [[xs mm]|e],
               (iter_state_rec fuel w' y (ids w' tr1) (parts ++ [n])) as [[ys mm']|e']; try (destruct IH; fail); cbn [rbind].
      * destruct IH as (Hk & sr2 & tr2 & -> & -> & Hsr2). specialize (IHl sr2 tr2 Hsr2).
        destruct (iter_fields (iter_state_rec fuel w) (w_nodes w) l (ids w sr2) parts) as [[zs mm]|e],
                 (iter_fields (iter_state_rec fuel w') (w_nodes w') l' (ids w' tr2) parts) as [[zs' mm']|e'];
          try (destruct IHl; fail); cbn [rbind].
        -- destruct IHl as (Hk2 & H). split; [|exact H]. rewrite !keys_app. congruence.
        -- exact IHl.
      * exact IH.
    + specialize (IHl sr1 tr1 Hsr1).
      assert (Hs : is_submodule a = false /\ is_submodule b = false /\ is_node (w_nodes w) a = is_node (w_nodes w') b).
      { destruct Hab as [(H1 & H2 & H3 & H4)|(H1 & H2 & <-)]; rewrite <- Hnt; repeat split; auto; congruence. }
      destruct Hs as (Ha & Hb & Hab').
      assert (Hstep : forall (w0 : world) (rec : nat -> list nat -> list string -> result (list (string * attr) * list nat)) c t seen,
        is_submodule c = false ->
        iter_fields rec (w_nodes w0) ((n, c) :: t) seen parts =
        do (ys, seen2) <- iter_fields rec (w_nodes w0) t seen parts;
        if is_node (w_nodes w0) c then Ok ((join_path (parts ++ [n]), c) :: ys, seen2) else Ok (ys, seen2)).
      { intros w0 rec c t seen Hc. cbn [iter_fields]. destruct c as [[]|]; try reflexivity. discriminate. }
      pose proof (Hstep w (iter_state_rec fuel w) a l (ids w sr1) Ha) as E1. cbn [iter_fields] in E1. rewrite E1. clear E1.
      pose proof (Hstep w' (iter_state_rec fuel w') b l' (ids w' tr1) Hb) as E2. cbn [iter_fields] in E2. rewrite E2. clear E2.
      destruct (iter_fields (iter_state_rec fuel w) (w_nodes w) l (ids w sr1) parts) as [[zs mm]|e],
               (iter_fields (iter_state_rec fuel w') (w_nodes w') l' (ids w' tr1) parts) as [[zs' mm']|e'];
        try (destruct IHl; fail); cbn [rbind].
      * rewrite Hab'. destruct IHl as (Hk & H). destruct (is_node (w_nodes w') b); split; auto. unfold keys in *. cbn. congruence.
      * exact IHl.
Qed.

Lemma skel_iter_keys w w' R r s xs ys : wf_world w -> wf_world w' -> skel w w' R -> R r s ->
  iter_state w r = Ok xs -> iter_state w' s = Ok ys -> keys xs = keys ys.
Proof.
  intros Hw Hw' HR Hrs. destruct (skel_valid _ _ _ _ _ HR Hrs) as [Hr Hs].
  rewrite (iter_state_any_fuel w r Hw Hr (dfs_fuel w + dfs_fuel w')) by lia.
  rewrite (iter_state_any_fuel w' s Hw' Hs (dfs_fuel w + dfs_fuel w')) by lia.
  pose proof (skel_iter _ _ _ Hw Hw' HR (dfs_fuel w + dfs_fuel w') r s [] [] [] Hrs (Forall2_nil _)) as H.
  change (ids w []) with (@nil nat) in H. change (ids w' []) with (@nil nat) in H.
  destruct (iter_state_rec (dfs_fuel w + dfs_fuel w') w r [] []) as [[xs' m]|e],
           (iter_state_rec (dfs_fuel w + dfs_fuel w') w' s [] []) as [[ys' m']|e']; try (destruct H; fail); cbn.
  - intros [= <-] [= <-]. apply H.
  - discriminate.
Qed.

Lemma skel_child w w' R x y n z : skel w w' R -> R x y -> child w x n z -> exists z', child w' y n z' /\ R z z'.
Proof.
  intros HR Hxy (o & Ho & Hd). destruct (sk_obj _ _ _ HR _ _ Hxy) as (o1 & o' & A & B & _ & _ & E).
  assert (o1 = o) by congruence. subst o1. specialize (E n). rewrite Hd in E.
  destruct (dget n (m_vars o')) as [b|] eqn:Eb; [|destruct E]. cbn in E.
  destruct E as [(c & z' & [= <-] & -> & Hz)|[(E & _)|(E & _)]]; try discriminate. exists z'. split; [|exact Hz]. exists o'. auto.
Qed.

Lemma skel_follow w w' R p : skel w w' R -> forall x y z, R x y -> follow w x p = Some z ->
  exists z', follow w' y p = Some z' /\ R z z'.
Proof.
  intros HR. induction p as [|n p IH]; intros x y z Hxy Hf.
  - destruct (sk_obj _ _ _ HR _ _ Hxy) as (o & o' & A & B & _). cbn in *. rewrite A in Hf. injection Hf as <-.
    rewrite B. eauto.
  - apply follow_cons_child in Hf. destruct Hf as (r' & Hc & Hf).
    destruct (skel_child _ _ _ _ _ _ _ HR Hxy Hc) as (s' & Hc' & Hr'). rewrite (child_follow _ _ _ _ p Hc').
    eapply IH; eauto.
Qed.

Lemma srel_flip nt (R : nat -> nat -> Prop) a b : srel nt R a b -> srel nt (fun x y => R y x) b a.
Proof.
  intros [(x & y & -> & -> & H)|[(H1 & H2 & H3 & H4)|(H1 & H2 & <-)]].
  - left. eauto 6.
  - right. left. auto.
  - right. right. auto.
Qed.
Lemma skel_sym w w' R : skel w w' R -> skel w' w (fun x y => R y x).
Proof.
  intros [H1 H2 H3 H4]. constructor.
  - intros x y H. destruct (H1 _ _ H) as (o & o' & A & B & C & D & E). exists o', o.
    repeat (split; [auto|]). intros n. specialize (E n). rewrite <- H4.
    destruct (dget n (m_vars o)), (dget n (m_vars o')); cbn in *; auto. now apply srel_flip.
  - intros x y y' A B. eapply H3; eauto.
  - intros x x' y A B. eapply H2; eauto.
  - congruence.
Qed.

(** names of corresponding modules *)
Lemma skel_names_ok w w' R r s : skel w w' R -> R r s -> names_ok w r -> names_ok w' s.
Proof.
  intros HR Hrs Hno y o' n b [p Hp] Ho' Hb.
  destruct (skel_follow _ _ _ _ (skel_sym _ _ _ HR) _ _ _ Hrs Hp) as (x & Hx & Hxy). cbn in Hxy.
  destruct (sk_obj _ _ _ HR _ _ Hxy) as (o & o1 & A & B & _ & _ & E). assert (o1 = o') by congruence. subst o1.
  specialize (E n). rewrite Hb in E. destruct (dget n (m_vars o)) as [a|] eqn:Ea; [|destruct E]. cbn in E.
  destruct (Hno x o n a (ex_intro _ p Hx) A Ea) as (N1 & N2 & N3).
  pose proof (sk_nodes _ _ _ HR) as Hnt.
  destruct E as [(c & c' & -> & -> & _)|[(H1 & H2 & H3 & H4)|(H1 & H2 & <-)]].
  - split; [intros _; apply N1; reflexivity|]. split; intros (o2 & _ & _ & Hs & _); discriminate.
  - split; [congruence|]. split; [intros _; apply N2; apply node_attr_iff; exists o; auto|].
    intros Hst. apply static_attr_iff in Hst. destruct Hst as (o2 & Ho2 & Hd2 & _ & Hn2). rewrite <- Hnt in Hn2. congruence.
  - split; [congruence|]. split.
    + intros Hna. apply node_attr_iff in Hna. destruct Hna as (o2 & Ho2 & Hd2 & _ & Hn2). rewrite <- Hnt in Hn2. congruence.
    + intros _. apply N3. apply static_attr_iff. exists o. auto.
Qed.
