(** Two modules that look the same: a one-to-one correspondence between the
    objects of two graphs that respects classes, flags, values and links.  Such
    modules have the same paths, the same sharing, the same definition and the
    same state. *)
From Coq Require Import Permutation Sorted.
From Verif Require Import PyBase PyBaseFacts ValuesM Spec_Eq ValuesFacts StateM ModuleM Spec_Module Graph_facts Dfs_proofs.
Local Open Scope string_scope.
Local Open Scope list_scope.

Definition orel (R : nat -> nat -> Prop) (a b : option attr) : Prop :=
  match a, b with
  | None, None => True
  | Some (ARaw (PyMod x)), Some (ARaw (PyMod y)) => R x y
  | Some a', Some b' => is_submodule a' = false /\ a' = b'
  | _, _ => False
  end.

Record bisim (w w' : world) (R : nat -> nat -> Prop) : Prop := {
  bi_obj : forall x y, R x y -> exists o o', get_obj w x = Some o /\ get_obj w' y = Some o' /\
      m_cls o = m_cls o' /\ m_init o = m_init o' /\
      forall n, orel R (dget n (m_vars o)) (dget n (m_vars o'));
  bi_fun : forall x y y', R x y -> R x y' -> y = y';
  bi_inj : forall x x' y, R x y -> R x' y -> x = x'
}.

Lemma orel_flip R a b : orel R a b -> orel (fun x y => R y x) b a.
Proof.
  destruct a as [[[]|]|], b as [[[]|]|]; cbn; auto; intros [H1 H2]; try discriminate; split; congruence.
Qed.
Lemma bisim_sym w w' R : bisim w w' R -> bisim w' w (fun x y => R y x).
Proof.
  intros [H1 H2 H3]. constructor.
  - intros x y H. destruct (H1 _ _ H) as (o & o' & A & B & C & D & E). exists o', o.
    repeat (split; [auto|]). intros n. apply orel_flip. apply E.
  - intros x y y' A B. eapply H3; eauto.
  - intros x x' y A B. eapply H2; eauto.
Qed.

Lemma orel_mod R x b : orel R (Some (ARaw (PyMod x))) b -> exists y, b = Some (ARaw (PyMod y)) /\ R x y.
Proof.
  destruct b as [[[]|]|]; cbn; try tauto; try (intros [H _]; discriminate). eauto.
Qed.
Lemma orel_val R a b : is_submodule a = false -> orel R (Some a) b -> b = Some a.
Proof.
  destruct a as [[]|], b as [[[]|]|]; cbn; try discriminate; try tauto; intros _ [H1 H2]; congruence.
Qed.
Lemma orel_refl_val R a : is_submodule a = false -> orel R (Some a) (Some a).
Proof. destruct a as [[]|]; cbn; try discriminate; auto. Qed.

Lemma bisim_child w w' R x y n z : bisim w w' R -> R x y -> child w x n z -> exists z', child w' y n z' /\ R z z'.
Proof.
  intros HR Hxy (o & Ho & Hd). destruct (bi_obj _ _ _ HR _ _ Hxy) as (o1 & o' & A & B & _ & _ & E).
  assert (o1 = o) by congruence. subst o1. specialize (E n). rewrite Hd in E. apply orel_mod in E.
  destruct E as (z' & E1 & E2). exists z'. split; [|exact E2]. exists o'. auto.
Qed.

Lemma bisim_follow w w' R p : bisim w w' R -> forall x y z, R x y -> follow w x p = Some z ->
  exists z', follow w' y p = Some z' /\ R z z'.
Proof.
  intros HR. induction p as [|n p IH]; intros x y z Hxy Hf.
  - destruct (bi_obj _ _ _ HR _ _ Hxy) as (o & o' & A & B & _). cbn in *. rewrite A in Hf. injection Hf as <-.
    rewrite B. eauto.
  - apply follow_cons_child in Hf. destruct Hf as (r' & Hc & Hf).
    destruct (bisim_child _ _ _ _ _ _ _ HR Hxy Hc) as (s' & Hc' & Hr'). rewrite (child_follow _ _ _ _ p Hc').
    eapply IH; eauto.
Qed.

Lemma bisim_follow_iff w w' R p : bisim w w' R -> forall x y, R x y ->
  match follow w x p, follow w' y p with
  | Some z, Some z' => R z z'
  | None, None => True
  | _, _ => False
  end.
Proof.
  intros HR x y Hxy. destruct (follow w x p) as [z|] eqn:E.
  - destruct (bisim_follow _ _ _ _ HR _ _ _ Hxy E) as (z' & -> & H). exact H.
  - destruct (follow w' y p) as [z'|] eqn:E'; [|exact I].
    destruct (bisim_follow _ _ _ _ (bisim_sym _ _ _ HR) _ _ _ Hxy E') as (z & Hz & _). congruence.
Qed.

Lemma bisim_look w w' R p : bisim w w' R -> forall x y, R x y -> look w x p = look w' y p.
Proof.
  intros HR. induction p as [|n p IH]; intros x y Hxy;
    destruct (bi_obj _ _ _ HR _ _ Hxy) as (o & o' & A & B & C & D & E); cbn [look]; rewrite A, B.
  - now rewrite C, D.
  - specialize (E n). destruct (dget n (m_vars o)) as [a|] eqn:Ea.
    + destruct (is_submodule a) eqn:Es.
      * apply is_sub_inv in Es. destruct Es as [z ->]. apply orel_mod in E. destruct E as (z' & -> & Hz). now apply IH.
      * apply orel_val in E; [|exact Es]. rewrite E. destruct a as [[]|]; try reflexivity. discriminate.
    + destruct (dget n (m_vars o')) as [[[]|]|]; cbn in E; tauto || reflexivity.
Qed.

Lemma bisim_reaches w w' R x y z : bisim w w' R -> R x y -> reaches w x z -> exists z', reaches w' y z' /\ R z z'.
Proof. intros HR Hxy [p Hp]. destruct (bisim_follow _ _ _ _ HR _ _ _ Hxy Hp) as (z' & H1 & H2). exists z'. split; [exists p|]; auto. Qed.

Lemma bisim_alias w w' R x y p q : bisim w w' R -> R x y ->
  (follow w x p = follow w x q <-> follow w' y p = follow w' y q).
Proof.
  intros HR Hxy. pose proof (bisim_follow_iff _ _ _ p HR _ _ Hxy) as Hp.
  pose proof (bisim_follow_iff _ _ _ q HR _ _ Hxy) as Hq.
  destruct (follow w x p) as [a|], (follow w' y p) as [b|]; try tauto;
  destruct (follow w x q) as [c|], (follow w' y q) as [d|]; try tauto; try (split; congruence).
  split; intros [= ->]; f_equal; [eapply bi_fun|eapply bi_inj]; eauto.
Qed.

(** ** same sorted attributes *)
Definition frel (R : nat -> nat -> Prop) (x y : string * attr) : Prop :=
  fst x = fst y /\ orel R (Some (snd x)) (Some (snd y)).

Lemma orel_dom R a b : orel R a b -> (a = None <-> b = None).
Proof. destruct a as [[[]|]|], b as [[[]|]|]; cbn; try tauto; split; try congruence; destruct H; discriminate. Qed.

Lemma sorted_frel (R : nat -> nat -> Prop) (l : list (string * attr)) : forall l',
  StronglySorted klt l -> StronglySorted klt l' ->
  (forall n, orel R (dget n l) (dget n l')) -> Forall2 (frel R) l l'.
Proof.
  induction l as [|[n a] l IH]; intros [|[m b] l'] Hs Hs' Ho.
  - constructor.
  - specialize (Ho m). cbn in Ho. rewrite String.eqb_refl in Ho. destruct Ho.
  - specialize (Ho n). cbn in Ho. rewrite String.eqb_refl in Ho. destruct a as [[]|]; destruct Ho.
  - inversion Hs as [|? ? Hs1 Hs2]; subst. inversion Hs' as [|? ? Hs1' Hs2']; subst.
    pose proof (strict_NoDup _ Hs) as Hnd. pose proof (strict_NoDup _ Hs') as Hnd'.
    inversion Hnd as [|? ? Hni1 Hnd1]; subst. inversion Hnd' as [|? ? Hni1' Hnd1']; subst.
    assert (n = m).
    { destruct (string_dec n m) as [|Hne]; [assumption|exfalso].
      assert (In n (keys l')).
      { pose proof (orel_dom _ _ _ (Ho n)) as [_ Hd]. cbn in Hd. rewrite String.eqb_refl in Hd.
        destruct (String.eqb_spec n m); [contradiction|].
        destruct (in_dec string_dec n (keys l')) as [|Hni]; [assumption|]. apply dget_None in Hni. specialize (Hd Hni). discriminate. }
      assert (In m (keys l)).
      { pose proof (orel_dom _ _ _ (Ho m)) as [Hd _]. cbn in Hd. rewrite String.eqb_refl in Hd.
        destruct (String.eqb_spec m n); [congruence|].
        destruct (in_dec string_dec m (keys l)) as [|Hni]; [assumption|]. apply dget_None in Hni. specialize (Hd Hni). discriminate. }
      rewrite Forall_forall in Hs2, Hs2'. unfold keys in *.
      apply in_map_iff in H as ([n' a'] & <- & H). apply in_map_iff in H0 as ([m' b'] & <- & H0).
      apply Hs2' in H. apply Hs2 in H0. unfold klt in *. cbn in *. eapply slt_asym; eauto. }
    subst m. constructor.
    + split; [reflexivity|]. specialize (Ho n). cbn in Ho. now rewrite String.eqb_refl in Ho.
    + apply IH; auto. intros k. specialize (Ho k). cbn in Ho. destruct (String.eqb_spec k n) as [Ek|]; [rewrite Ek|exact Ho].
      apply dget_None in Hni1. apply dget_None in Hni1'. now rewrite Hni1, Hni1'.
Qed.

Lemma bisim_sorted w w' R x y o o' : wf_world w -> wf_world w' -> bisim w w' R -> R x y ->
  get_obj w x = Some o -> get_obj w' y = Some o' ->
  Forall2 (frel R) (sort_by_key (m_vars o)) (sort_by_key (m_vars o')).
Proof.
  intros Hw Hw' HR Hxy Ho Ho'. destruct (bi_obj _ _ _ HR _ _ Hxy) as (o1 & o1' & A & B & _ & _ & E).
  assert (o1 = o) by congruence. assert (o1' = o') by congruence. subst.
  pose proof (wf_objs _ Hw _ _ Ho) as W. pose proof (wf_objs _ Hw' _ _ Ho') as W'.
  apply sorted_frel.
  - apply sort_strict. apply W.
  - apply sort_strict. apply W'.
  - intros n. rewrite !dget_sort; [apply E|apply W'|apply W].
Qed.

Lemma Forall2_In_l {A B} (R : A -> B -> Prop) l l' x : Forall2 R l l' -> In x l -> exists y, In y l' /\ R x y.
Proof.
  induction 1 as [|a b l l' Hab H IH]; cbn; [tauto|]. intros [->|Hx]; [eauto|].
  destruct (IH Hx) as (y & ? & ?). eauto.
Qed.
Lemma Forall2_In_r {A B} (R : A -> B -> Prop) l l' y : Forall2 R l l' -> In y l' -> exists x, In x l /\ R x y.
Proof.
  induction 1 as [|a b l l' Hab H IH]; cbn; [tauto|]. intros [->|Hx]; [eauto|].
  destruct (IH Hx) as (z & ? & ?). eauto.
Qed.
Lemma Forall2_nth {A B} (R : A -> B -> Prop) l l' i x : Forall2 R l l' -> nth_error l i = Some x ->
  exists y, nth_error l' i = Some y /\ R x y.
Proof.
  intros H. revert i. induction H as [|a b l l' Hab H IH]; intros [|i]; cbn; try discriminate; [intros [= ->]; eauto|apply IH].
Qed.

(** ** same definition *)
Lemma bisim_dspec w w' R : wf_world w -> wf_world w' -> bisim w w' R -> w_nodes w = w_nodes w' ->
  (forall sr r d sr', dspec w sr r d sr' -> forall tr s, Forall2 R sr tr -> R r s ->
     exists tr', dspec w' tr s d tr' /\ Forall2 R sr' tr') /\
  (forall l sr subs st sr', fspec w l sr subs st sr' -> forall l' tr, Forall2 R sr tr -> Forall2 (frel R) l l' ->
     exists tr', fspec w' l' tr subs st tr' /\ Forall2 R sr' tr').
Proof.
  intros Hw Hw' HR Hnt. apply dfs_ind.
  - intros sr r i Hi tr s Hsr Hrs. exists tr. split; [|exact Hsr]. constructor.
    destruct (Forall2_nth _ _ _ _ _ Hsr Hi) as (s' & Hs' & Hrs'). rewrite Hs'. f_equal. eapply bi_fun; eauto.
  - intros sr r o subs st sr' Hni Ho Hf IH tr s Hsr Hrs.
    destruct (bi_obj _ _ _ HR _ _ Hrs) as (o1 & o' & A & B & C & D & E).
    assert (o1 = o) by congruence. subst o1.
    destruct (IH (sort_by_key (m_vars o')) (tr ++ [s])) as (tr' & G1 & G2).
    { apply Forall2_app; [exact Hsr|]. constructor; [exact Hrs|constructor]. }
    { exact (bisim_sorted _ _ _ _ _ _ _ Hw Hw' HR Hrs A B). }
    exists tr'. split; [|exact G2]. rewrite C, D, (Forall2_length _ _ _ Hsr). apply ds_def; auto.
    intros Hi. destruct (Forall2_In_r _ _ _ _ Hsr Hi) as (x & Hx1 & Hx2). apply Hni. now rewrite (bi_inj _ _ _ HR _ _ _ Hrs Hx2).
  - intros sr l' tr Hsr Hl. inversion Hl; subst. exists tr. split; [constructor|exact Hsr].
  - intros n r t sr d sr1 subs st sr2 Hd IHd Hf IHf l' tr Hsr Hl. inversion Hl as [|? [m b] ? l1 [Hn Ho] Hl1]; subst.
    cbn in Hn. subst m. apply orel_mod in Ho. destruct Ho as (s & [= ->] & Hrs).
    destruct (IHd tr s Hsr Hrs) as (tr1 & A1 & A2). destruct (IHf l1 tr1 A2 Hl1) as (tr2 & B1 & B2).
    exists tr2. split; [|exact B2]. eapply fs_sub; eauto.
  - intros n a t sr subs st sr2 H1 H2 H3 Hf IHf l' tr Hsr Hl. inversion Hl as [|? [m b] ? l1 [Hn Ho] Hl1]; subst.
    cbn in Hn. subst m. apply orel_val in Ho; [|exact H1]. injection Ho as ->.
    destruct (IHf l1 tr Hsr Hl1) as (tr2 & B1 & B2). exists tr2. split; [|exact B2]. apply fs_static; auto. congruence.
  - intros n a t sr subs st sr2 H1 H2 Hf IHf l' tr Hsr Hl. inversion Hl as [|? [m b] ? l1 [Hn Ho] Hl1]; subst.
    cbn in Hn. subst m. apply orel_val in Ho; [|exact H1]. injection Ho as ->.
    destruct (IHf l1 tr Hsr Hl1) as (tr2 & B1 & B2). exists tr2. split; [|exact B2]. apply fs_skip; auto. congruence.
Qed.

Lemma bisim_valid w w' R x y : bisim w w' R -> R x y -> valid w x /\ valid w' y.
Proof.
  intros HR Hxy. destruct (bi_obj _ _ _ HR _ _ Hxy) as (o & o' & A & B & _).
  split; eapply get_obj_lt; eauto.
Qed.

Lemma bisim_graph w w' R r s d L : wf_world w -> wf_world w' -> bisim w w' R -> w_nodes w = w_nodes w' ->
  R r s -> graph w r d L -> exists L', graph w' s d L' /\ Forall2 R L L'.
Proof. intros Hw Hw' HR Hnt Hrs Hg. exact (proj1 (bisim_dspec _ _ _ Hw Hw' HR Hnt) _ _ _ _ Hg [] s (Forall2_nil _) Hrs). Qed.

Lemma bisim_module_def w w' R r s : wf_world w -> wf_world w' -> bisim w w' R -> w_nodes w = w_nodes w' ->
  R r s -> get_module_def w r = get_module_def w' s.
Proof.
  intros Hw Hw' HR Hnt Hrs. destruct (bisim_valid _ _ _ _ _ HR Hrs) as [Hr Hs].
  destruct (graph_exists w r Hw Hr) as (d & L & Hg). destruct (bisim_graph _ _ _ _ _ _ _ Hw Hw' HR Hnt Hrs Hg) as (L' & Hg' & _).
  rewrite (get_module_def_graph _ _ _ _ Hw Hr Hg), (get_module_def_graph _ _ _ _ Hw' Hs Hg'). reflexivity.
Qed.

(** ** same state *)
Lemma bisim_iter w w' R : wf_world w -> wf_world w' -> bisim w w' R -> w_nodes w = w_nodes w' ->
  forall fuel r s sr tr parts, R r s -> Forall2 R sr tr ->
  match iter_state_rec fuel w r (ids w sr) parts, iter_state_rec fuel w' s (ids w' tr) parts with
  | Ok (xs, m), Ok (ys, m') => xs = ys /\ exists sr' tr', m = ids w sr' /\ m' = ids w' tr' /\ Forall2 R sr' tr'
  | Err e, Err e' => e = e'
  | _, _ => False
  end.
Proof.
  intros Hw Hw' HR Hnt. induction fuel as [|fuel IH]; intros r s sr tr parts Hrs Hsr; [reflexivity|].
  cbn [iter_state_rec]. destruct (bi_obj _ _ _ HR _ _ Hrs) as (o & o' & A & B & C & D & E). rewrite A, B.
  destruct (bisim_valid _ _ _ _ _ HR Hrs) as [Vr Vs].
  assert (Vsr : Forall (valid w) sr).
  { apply Forall_forall. intros x Hx. destruct (Forall2_In_l _ _ _ _ Hsr Hx) as (y & _ & H). apply (bisim_valid _ _ _ _ _ HR H). }
  assert (Vtr : Forall (valid w') tr).
  { apply Forall_forall. intros x Hx. destruct (Forall2_In_r _ _ _ _ Hsr Hx) as (y & _ & H). apply (bisim_valid _ _ _ _ _ HR H). }
  assert (Em : nmem (m_id o) (ids w sr) = nmem (m_id o') (ids w' tr)).
  { apply Bool.eq_iff_eq_true. rewrite !nmem_In, <- (idof_get _ _ _ A), <- (idof_get _ _ _ B), !In_ids by assumption. split.
    - intros H. destruct (Forall2_In_l _ _ _ _ Hsr H) as (y & Hy & Hy'). now rewrite (bi_fun _ _ _ HR _ _ _ Hrs Hy').
    - intros H. destruct (Forall2_In_r _ _ _ _ Hsr H) as (y & Hy & Hy'). now rewrite (bi_inj _ _ _ HR _ _ _ Hrs Hy'). }
  rewrite <- Em. destruct (nmem (m_id o) (ids w sr)).
  { split; [reflexivity|]. exists sr, tr. auto. }
  assert (Hids : ids w sr ++ [m_id o] = ids w (sr ++ [r])). { unfold ids. rewrite map_app. cbn. now rewrite (idof_get _ _ _ A). }
  assert (Hids' : ids w' tr ++ [m_id o'] = ids w' (tr ++ [s])). { unfold ids. rewrite map_app. cbn. now rewrite (idof_get _ _ _ B). }
  rewrite Hids, Hids'.
  pose proof (bisim_sorted _ _ _ _ _ _ _ Hw Hw' HR Hrs A B) as Hl.
  assert (Hsr1 : Forall2 R (sr ++ [r]) (tr ++ [s])) by (apply Forall2_app; auto).
  revert Hsr1 Hl. generalize (sort_by_key (m_vars o)), (sort_by_key (m_vars o')). generalize (sr ++ [r]), (tr ++ [s]).
  intros sr1 tr1 l l' Hsr1 Hl. revert sr1 tr1 Hsr1.
  induction Hl as [|[n a] [m b] l l' [Hn Hab] Hl IHl]; intros sr1 tr1 Hsr1.
  - cbn. split; [reflexivity|]. exists sr1, tr1. auto.
  - cbn [fst] in Hn. subst m. cbn [snd] in Hab. cbn [iter_fields]. destruct (is_submodule a) eqn:Es.
    + apply is_sub_inv in Es. destruct Es as [x ->]. apply orel_mod in Hab. destruct Hab as (y & [= ->] & Hxy).
      specialize (IH x y sr1 tr1 (parts ++ [n]) Hxy Hsr1).
      destruct (iter_state_rec fuel w x (ids w sr1) (parts ++ [n])) as [[xs mm]|e],
               (iter_state_rec fuel w' y (ids w' tr1) (parts ++ [n])) as [[ys mm']|e']; try (destruct IH; fail); cbn [rbind].
      * destruct IH as (-> & sr2 & tr2 & -> & -> & Hsr2). specialize (IHl sr2 tr2 Hsr2).
        destruct (iter_fields (iter_state_rec fuel w) (w_nodes w) l (ids w sr2) parts) as [[zs mm]|e],
                 (iter_fields (iter_state_rec fuel w') (w_nodes w') l' (ids w' tr2) parts) as [[zs' mm']|e'];
          try (destruct IHl; fail); cbn [rbind].
        -- destruct IHl as (-> & H). auto.
        -- exact IHl.
      * exact IH.
    + apply orel_val in Hab; [|exact Es]. injection Hab as ->. specialize (IHl sr1 tr1 Hsr1).
      destruct (iter_fields (iter_state_rec fuel w) (w_nodes w) l (ids w sr1) parts) as [[zs mm]|e],
               (iter_fields (iter_state_rec fuel w') (w_nodes w') l' (ids w' tr1) parts) as [[zs' mm']|e'];
        try (destruct IHl; fail); cbn [rbind]; rewrite <- Hnt.
      * destruct IHl as (-> & H). destruct (is_node (w_nodes w) a); destruct a as [[]|]; try discriminate; auto.
      * destruct a as [[]|]; try discriminate; exact IHl.
Qed.

Lemma iter_state_any_fuel w r : wf_world w -> valid w r -> forall fuel, dfs_fuel w <= fuel ->
  iter_state w r = do (xs, _) <- iter_state_rec fuel w r [] []; Ok xs.
Proof.
  intros Hw Hr fuel Hf. destruct (graph_exists w r Hw Hr) as (d & L & Hg).
  destruct (proj1 (iter_state_dspec w Hw) _ _ _ _ Hg) as (new & E & Eq & H1 & H2 & H3); auto; [constructor|].
  unfold iter_state. change (@nil nat) with (ids w []). unfold dfs_fuel in *.
  rewrite !H3; [reflexivity| |]; cbn; lia.
Qed.

Lemma bisim_iter_state w w' R r s : wf_world w -> wf_world w' -> bisim w w' R -> w_nodes w = w_nodes w' ->
  R r s -> iter_state w r = iter_state w' s.
Proof.
  intros Hw Hw' HR Hnt Hrs. destruct (bisim_valid _ _ _ _ _ HR Hrs) as [Hr Hs].
  rewrite (iter_state_any_fuel w r Hw Hr (dfs_fuel w + dfs_fuel w')) by lia.
  rewrite (iter_state_any_fuel w' s Hw' Hs (dfs_fuel w + dfs_fuel w')) by lia.
  pose proof (bisim_iter _ _ _ Hw Hw' HR Hnt (dfs_fuel w + dfs_fuel w') r s [] [] [] Hrs (Forall2_nil _)) as H.
  change (ids w []) with (@nil nat) in H. change (ids w' []) with (@nil nat) in H.
  destruct (iter_state_rec (dfs_fuel w + dfs_fuel w') w r [] []) as [[xs m]|e],
           (iter_state_rec (dfs_fuel w + dfs_fuel w') w' s [] []) as [[ys m']|e']; try (destruct H; fail).
  - destruct H as [-> _]. reflexivity.
  - subst. reflexivity.
Qed.

Lemma bisim_get_state w w' R r s : wf_world w -> wf_world w' -> bisim w w' R -> w_nodes w = w_nodes w' ->
  R r s -> get_state w r = get_state w' s.
Proof. intros Hw Hw' HR Hnt Hrs. unfold get_state. now rewrite (bisim_iter_state _ _ _ _ _ Hw Hw' HR Hnt Hrs). Qed.

Lemma bisim_comp w1 w2 w3 R S : bisim w1 w2 R -> bisim w2 w3 S -> bisim w1 w3 (fun x z => exists y, R x y /\ S y z).
Proof.
  intros HR HS. constructor.
  - intros x z (y & Hxy & Hyz). destruct (bi_obj _ _ _ HR _ _ Hxy) as (o1 & o2 & A1 & A2 & A3 & A4 & A5).
    destruct (bi_obj _ _ _ HS _ _ Hyz) as (o2' & o3 & B1 & B2 & B3 & B4 & B5). assert (o2' = o2) by congruence. subst o2'.
    exists o1, o3. split; [exact A1|]. split; [exact B2|]. split; [congruence|]. split; [congruence|]. intros n.
    specialize (A5 n). specialize (B5 n). destruct (dget n (m_vars o1)) as [a|].
    + destruct (is_submodule a) eqn:Es.
      * apply is_sub_inv in Es. destruct Es as [c ->]. apply orel_mod in A5. destruct A5 as (c' & E & Hc). rewrite E in B5.
        apply orel_mod in B5. destruct B5 as (c'' & -> & Hc'). cbn. eauto.
      * apply orel_val in A5; [|exact Es]. rewrite A5 in B5. apply orel_val in B5; [|exact Es]. rewrite B5. now apply orel_refl_val.
    + pose proof (proj1 (orel_dom _ _ _ A5) eq_refl) as E. rewrite E in B5. rewrite (proj1 (orel_dom _ _ _ B5) eq_refl). exact I.
  - intros x z z' (y & A & B) (y' & A' & B'). assert (y = y') by (eapply (bi_fun _ _ _ HR); eauto). subst. eapply (bi_fun _ _ _ HS); eauto.
  - intros x x' z (y & A & B) (y' & A' & B'). assert (y = y') by (eapply (bi_inj _ _ _ HS); eauto). subst. eapply (bi_inj _ _ _ HR); eauto.
Qed.
