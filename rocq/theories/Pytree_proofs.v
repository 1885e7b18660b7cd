(** Proofs about Pytree objects. *)
From Coq Require Import Permutation.
From Verif Require Import PyBase PyBaseFacts ValuesM Spec_Eq ValuesFacts Spec_Container Container_proofs PytreeM Spec_Pytree.
Local Open Scope string_scope.
Local Open Scope list_scope.

Lemma user_name_not n : user_name n -> n <> F_INIT /\ n <> F_MUTABLE /\ n <> F_SORTED.
Proof. intros H. repeat split; intros ->; discriminate. Qed.

Lemma set_pvars_length h r d : List.length (set_pvars h r d) = List.length h.
Proof. unfold set_pvars. destruct (nth_error h r); [apply list_set_length|reflexivity]. Qed.
Lemma set_pvars_same h r d o : nth_error h r = Some o -> nth_error (set_pvars h r d) r = Some (mkPobj (p_class o) d).
Proof. intros H. unfold set_pvars. rewrite H. apply nth_list_set_same. apply nth_error_Some. congruence. Qed.
Lemma set_pvars_other h r r' d : r <> r' -> nth_error (set_pvars h r d) r' = nth_error h r'.
Proof. intros H. unfold set_pvars. destruct (nth_error h r); [|reflexivity]. now apply nth_list_set_other. Qed.
Lemma set_pvars_set h r d d' : set_pvars (set_pvars h r d) r d' = set_pvars h r d'.
Proof.
  unfold set_pvars at 1. destruct (nth_error h r) as [o|] eqn:E.
  - rewrite (set_pvars_same h r d o E). cbn. unfold set_pvars. rewrite E. clear E. revert r. induction h as [|x h IH]; intros [|r]; cbn; auto. now rewrite IH.
  - unfold set_pvars. rewrite E. now rewrite E.
Qed.

(** ** what a program leaves alone *)
Definition kept (o o' : pobj) : Prop :=
  p_class o' = p_class o /\
  (In F_INIT (keys (p_vars o')) <-> In F_INIT (keys (p_vars o))) /\
  (In F_MUTABLE (keys (p_vars o')) <-> In F_MUTABLE (keys (p_vars o))) /\
  (NoDup (keys (p_vars o)) -> NoDup (keys (p_vars o'))) /\
  (dget F_SORTED (p_vars o') = dget F_SORTED (p_vars o)) /\
  (~ In F_INIT (keys (p_vars o)) -> keys (p_vars o') = keys (p_vars o)) /\
  (sealed o -> immutable o -> o' = o).
Definition keeps (n : nat) (h h' : pheap) : Prop :=
  List.length h <= List.length h' /\
  forall r o, r < n -> nth_error h r = Some o -> exists o', nth_error h' r = Some o' /\ kept o o'.

Lemma kept_refl o : kept o o.
Proof. repeat split; auto. Qed.
Lemma kept_trans a b c : kept a b -> kept b c -> kept a c.
Proof.
  intros (A1 & A2 & A3 & A4 & A4b & A5 & A6) (B1 & B2 & B3 & B4 & B4b & B5 & B6). unfold kept.
  split; [congruence|]. split; [tauto|]. split; [tauto|]. split; [tauto|]. split; [congruence|]. split.
  - intros N. rewrite B5, A5; auto. rewrite A2. exact N.
  - intros S I. specialize (A6 S I). subst b. auto.
Qed.
Lemma keeps_refl n h : keeps n h h.
Proof. split; [lia|]. intros r o _ H. exists o. split; auto. apply kept_refl. Qed.
Lemma keeps_trans n a b c : keeps n a b -> keeps n b c -> keeps n a c.
Proof.
  intros [L1 K1] [L2 K2]. split; [lia|]. intros r o L H.
  destruct (K1 r o L H) as (o1 & H1 & A). destruct (K2 r o1 L H1) as (o2 & H2 & B). exists o2. split; auto.
  eapply kept_trans; eauto.
Qed.
Lemma keeps_le n m h h' : n <= m -> keeps m h h' -> keeps n h h'.
Proof. intros L [A B]. split; auto. intros r o R. apply B. lia. Qed.
Lemma keeps_app n h l : keeps n h (h ++ l).
Proof.
  split; [rewrite app_length; lia|]. intros r o _ H. exists o. split; [|apply kept_refl].
  rewrite nth_error_app1; [exact H|]. apply nth_error_Some. congruence.
Qed.
(** writing to an object outside the first [n] *)
Lemma keeps_set n h r d : n <= r -> keeps n h (set_pvars h r d).
Proof.
  intros L. split; [rewrite set_pvars_length; lia|]. intros r' o R H. exists o. split; [|apply kept_refl].
  rewrite set_pvars_other by lia. exact H.
Qed.

Lemma psetattr_keeps h r n v : user_name n -> forall h' res, psetattr h r n v = (h', res) ->
  keeps (List.length h) h h' /\ List.length h' = List.length h.
Proof.
  intros U h' res E. unfold psetattr in E. destruct (nth_error h r) as [o|] eqn:O; [|injection E as <- <-; split; [apply keeps_refl|reflexivity]].
  destruct (if dmem F_INIT (p_vars o) then false
            else if negb (dmem n (p_vars o)) then true
            else negb (dmem F_MUTABLE (p_vars o)) && negb (k_mutable (p_class o))) eqn:RF;
    [injection E as <- <-; split; [apply keeps_refl|reflexivity]|].
  assert (K : forall f, keeps (List.length h) h (set_pvars h r (dset n f (p_vars o)))).
  { intros f. split; [rewrite set_pvars_length; lia|]. intros r' o' L O'. destruct (Nat.eq_dec r r') as [<-|NE].
    - rewrite O in O'. injection O' as <-. exists (mkPobj (p_class o) (dset n f (p_vars o))).
      split; [now apply set_pvars_same|]. destruct (user_name_not n U) as (N1 & N2 & N3). unfold kept. cbn [p_class p_vars].
      split; [reflexivity|]. split; [rewrite In_keys_dset; intuition congruence|]. split; [rewrite In_keys_dset; intuition congruence|].
      split; [apply NoDup_keys_dset|]. split; [apply dget_dset_other; congruence|]. split.
      + intros NI. apply dmem_false in NI. rewrite NI in RF. rewrite keys_dset.
        destruct (dmem n (p_vars o)); [reflexivity|discriminate].
      + intros [S1 S2] I. apply dmem_false in S1, S2. unfold immutable in I. rewrite S1, S2, I in RF. cbn in RF.
        destruct (dmem n (p_vars o)); discriminate.
    - exists o'. split; [|apply kept_refl]. now rewrite set_pvars_other. }
  destruct (field_container (dget n (p_vars o))) as [c|].
  - destruct (container_replace c (Some v) []); injection E as <- <-; split; auto using keeps_refl, set_pvars_length.
  - destruct v as [x|c]; [|destruct (container_copy c)]; injection E as <- <-; split; auto using keeps_refl, set_pvars_length.
Qed.

Lemma with_marker_keeps m r h body n : n <= r ->
  (forall h1 h2 res, body h1 = (h2, res) -> keeps n h1 h2) ->
  forall h' res, with_marker m r h body = (h', res) -> keeps n h h'.
Proof.
  intros L B h' res E. unfold with_marker in E. destruct (nth_error h r) as [o|]; [|injection E as <- <-; apply keeps_refl].
  destruct (body (set_pvars h r (dset m (FAttr (ARaw (PyBool true))) (p_vars o)))) as [h1 res1] eqn:BE. apply B in BE.
  assert (K : keeps n h h1) by (eapply keeps_trans; [apply keeps_set; exact L|exact BE]).
  destruct (nth_error h1 r) as [o1|]; [|injection E as <- <-; exact K].
  destruct (dmem m (p_vars o1)); injection E as <- <-; [|exact K].
  eapply keeps_trans; [exact K|]. now apply keeps_set.
Qed.
Lemma pnew_keeps k init h : (forall h1 h2 res, init h1 = (h2, res) -> keeps (List.length h) h1 h2) ->
  forall h' res, pnew k init h = (h', res) -> keeps (List.length h) h h'.
Proof.
  intros B h' res E. unfold pnew in E.
  destruct (with_marker F_MUTABLE (List.length h) (h ++ [mkPobj k [(F_SORTED, FNames [F_SORTED])]])
             (fun h0 => with_marker F_INIT (List.length h) h0 init)) as [h1 res1] eqn:W.
  assert (K : keeps (List.length h) h h1).
  { eapply keeps_trans; [apply keeps_app|]. eapply with_marker_keeps; [apply Nat.le_refl| |exact W].
    intros a b c X. eapply with_marker_keeps; [apply Nat.le_refl| |exact X]. exact B. }
  destruct res1 as [u|e]; [|injection E as <- <-; exact K].
  destruct (nth_error h1 (List.length h)) as [o|]; [|injection E as <- <-; exact K].
  destruct (wrap_fields (match k_fields k with Some fs => fs | None => [] end) (p_vars o)) as [d [u'|e]];
    injection E as <- <-; (eapply keeps_trans; [exact K|]; apply keeps_set; lia).
Qed.
Lemma set_all_keeps r kw : (forall n, In n (keys kw) -> user_name n) -> forall h h' res,
  set_all r kw h = (h', res) -> keeps (List.length h) h h' /\ List.length h' = List.length h.
Proof.
  induction kw as [|[k v] kw IH]; intros U h h' res E; cbn [set_all] in E.
  - injection E as <- <-. split; [apply keeps_refl|reflexivity].
  - destruct (psetattr h r k v) as [h1 [u|e]] eqn:P; apply psetattr_keeps in P as [P1 P2]; try (apply U; now left).
    + apply IH in E as [E1 E2]; [|intros n I; apply U; now right]. rewrite P2 in *. split; [|congruence].
      eapply keeps_trans; eauto.
    + injection E as <- <-. auto.
Qed.
Lemma set_all_other r kw : forall h h' res r', set_all r kw h = (h', res) -> r <> r' -> nth_error h' r' = nth_error h r'.
Proof.
  induction kw as [|[k v] kw IH]; intros h h' res r' E NE; cbn [set_all] in E; [now injection E as <- <-|].
  assert (P : nth_error (fst (psetattr h r k v)) r' = nth_error h r').
  { unfold psetattr. destruct (nth_error h r) as [o|]; [|reflexivity].
    match goal with |- context [if ?b then _ else _] => destruct b end; [reflexivity|].
    destruct (field_container (dget k (p_vars o))) as [c|].
    - destruct (container_replace c (Some v) []); [now apply set_pvars_other|reflexivity].
    - destruct v as [x|c]; [now apply set_pvars_other|]. destruct (container_copy c); [now apply set_pvars_other|reflexivity]. }
  destruct (psetattr h r k v) as [h1 [u|e]]; cbn [fst] in P.
  - rewrite (IH h1 h' res r' E NE). exact P.
  - injection E as <- <-. exact P.
Qed.
Lemma replace_args_keys h r fs kw : forall l, replace_args h r fs kw = Ok l -> keys l = keys fs.
Proof.
  induction fs as [|[n f] fs IH]; intros l E; cbn [replace_args] in E; [injection E as <-; reflexivity|].
  destruct (match dget n kw with Some a => Ok a | None => _ end) as [a|]; [|discriminate]. cbn [rbind] in E.
  destruct (replace_args h r fs kw) as [l'|]; [|discriminate]. cbn [rbind] in E. injection E as <-.
  cbn [keys map fst]. f_equal. now apply IH.
Qed.
Lemma preplace_keeps h r kw : (forall n, In n (keys kw) -> user_name n) ->
  (forall o, nth_error h r = Some o -> user_class (p_class o)) ->
  forall h' res, preplace h r kw = (h', res) -> keeps (List.length h) h h'.
Proof.
  intros U UC h' res E. unfold preplace in E. destruct (nth_error h r) as [o|] eqn:O; [|injection E as <- <-; apply keeps_refl].
  destruct (k_fields (p_class o)) as [fs|] eqn:F.
  - destruct (replace_args h r fs kw) as [args|e] eqn:A; [|injection E as <- <-; apply keeps_refl].
    destruct (forallb (fun k => smem k (keys fs)) (keys kw)); [|injection E as <- <-; apply keeps_refl].
    eapply pnew_keeps; [|exact E]. intros h1 h2 res1 S.
    destruct (Nat.le_gt_cases (List.length h) (List.length h1)) as [L|L].
    + eapply keeps_le; [exact L|]. eapply set_all_keeps; [|exact S]. intros n I.
      rewrite (replace_args_keys h r fs kw args A) in I. exact (UC o eq_refl fs F n I).
    + destruct (set_all_keeps (List.length h) args) with (h := h1) (h' := h2) (res := res1) as [[K1 K2] K3]; auto.
      { intros n I. rewrite (replace_args_keys h r fs kw args A) in I. exact (UC o eq_refl fs F n I). }
      split; [lia|]. intros r' o' R O'. apply K2; auto. apply nth_error_Some. congruence.
  - destruct (existsb (fun k => negb (dmem k (p_vars o))) (keys kw) && negb (k_mutable (p_class o)));
      [injection E as <- <-; apply keeps_refl|].
    eapply keeps_trans; [apply keeps_app|]. eapply with_marker_keeps; [apply Nat.le_refl| |exact E].
    intros h1 h2 res1 S. destruct (set_all_keeps (List.length h) kw U h1 h2 res1 S) as [[K1 K2] K3].
    split; [lia|]. intros r' o' R O'. apply K2; auto. apply nth_error_Some. congruence.
Qed.

(** all classes in the heap stay user classes *)
Lemma user_heap_set h r d : user_heap h -> user_heap (set_pvars h r d).
Proof.
  intros U. unfold set_pvars. destruct (nth_error h r) as [o|] eqn:O; [|exact U].
  apply Forall_forall. intros x I. apply In_nth_error in I as [n I]. rewrite nth_list_set in I.
  destruct (Nat.eqb r n).
  - destruct (Nat.ltb n (List.length h)); [|discriminate]. injection I as <-. cbn. eapply (proj1 (Forall_forall _ _) U). eapply nth_error_In; eauto.
  - eapply (proj1 (Forall_forall _ _) U). eapply nth_error_In; eauto.
Qed.
Lemma user_heap_app h o : user_heap h -> user_class (p_class o) -> user_heap (h ++ [o]).
Proof. intros U C. apply Forall_app. split; auto. Qed.
Lemma user_heap_nth h r o : user_heap h -> nth_error h r = Some o -> user_class (p_class o).
Proof. intros U O. eapply (proj1 (Forall_forall _ _) U). eapply nth_error_In; eauto. Qed.
Lemma user_heap_setattr h r n v : user_heap h -> user_heap (fst (psetattr h r n v)).
Proof.
  intros U. unfold psetattr. destruct (nth_error h r) as [o|]; [|exact U].
  match goal with |- context [if ?b then _ else _] => destruct b end; [exact U|].
  destruct (field_container (dget n (p_vars o))) as [c|].
  - destruct (container_replace c (Some v) []); [now apply user_heap_set|exact U].
  - destruct v as [x|c]; [now apply user_heap_set|]. destruct (container_copy c); [now apply user_heap_set|exact U].
Qed.
Lemma user_heap_set_all r kw : forall h, user_heap h -> user_heap (fst (set_all r kw h)).
Proof.
  induction kw as [|[k v] kw IH]; intros h U; cbn [set_all]; [exact U|].
  pose proof (user_heap_setattr h r k v U) as S. destruct (psetattr h r k v) as [h1 [u|e]]; cbn [fst] in *; auto.
Qed.
Lemma user_heap_marker m r h body : user_heap h -> (forall h, user_heap h -> user_heap (fst (body h))) ->
  user_heap (fst (with_marker m r h body)).
Proof.
  intros U B. unfold with_marker. destruct (nth_error h r) as [o|]; [|exact U].
  match goal with |- context [body ?x] => specialize (B x (user_heap_set _ _ _ U)); destruct (body x) as [h1 res] end.
  cbn [fst] in B. destruct (nth_error h1 r) as [o1|]; [|exact B]. destruct (dmem m (p_vars o1)); [now apply user_heap_set|exact B].
Qed.
Lemma user_heap_new k init h : user_class k -> user_heap h -> (forall h, user_heap h -> user_heap (fst (init h))) ->
  user_heap (fst (pnew k init h)).
Proof.
  intros C U B. unfold pnew.
  pose proof (user_heap_marker F_MUTABLE (List.length h) (h ++ [mkPobj k [(F_SORTED, FNames [F_SORTED])]])
    (fun h0 => with_marker F_INIT (List.length h) h0 init) (user_heap_app h (mkPobj k [(F_SORTED, FNames [F_SORTED])]) U C)
    (fun h0 U0 => user_heap_marker F_INIT (List.length h) h0 init U0 B)) as W.
  destruct (with_marker F_MUTABLE (List.length h) _ _) as [h1 [u|e]]; cbn [fst] in W; [|exact W].
  destruct (nth_error h1 (List.length h)) as [o|]; [|exact W].
  destruct (wrap_fields _ (p_vars o)) as [d [u'|e]]; now apply user_heap_set.
Qed.
Lemma user_heap_replace h r kw : user_heap h -> user_heap (fst (preplace h r kw)).
Proof.
  intros U. unfold preplace. destruct (nth_error h r) as [o|] eqn:O; [|exact U].
  pose proof (user_heap_nth h r o U O) as C.
  destruct (k_fields (p_class o)) as [fs|].
  - destruct (replace_args h r fs kw) as [args|]; [|exact U]. destruct (forallb _ _); [|exact U].
    apply user_heap_new; auto. intros h0. apply user_heap_set_all.
  - destruct (_ && _); [exact U|]. apply user_heap_marker; [now apply user_heap_app|]. intros h0. apply user_heap_set_all.
Qed.
Lemma user_heap_run p : user_prog p -> forall h, user_heap h -> user_heap (fst (prun p h)).
Proof.
  induction p as [|e|p IHp q IHq|p IHp q IHq|r n v|r kw|r|k init IH]; intros UP h U; cbn [prun user_prog] in *; auto.
  - destruct UP as [U1 U2]. specialize (IHp U1 h U). destruct (prun p h) as [h1 [u|e]]; cbn [fst] in *; auto.
  - destruct UP as [U1 U2]. specialize (IHp U1 h U). destruct (prun p h) as [h1 [u|e]]; cbn [fst] in *; auto.
  - now apply user_heap_setattr.
  - now apply user_heap_replace.
  - unfold pcopy. destruct (nth_error h r) as [o|] eqn:O; [|exact U]. apply user_heap_app; auto. eapply user_heap_nth; eauto.
  - destruct UP as [U1 U2]. apply user_heap_new; auto.
Qed.

Theorem prun_keeps p : user_prog p -> forall h h' res, user_heap h -> prun p h = (h', res) -> keeps (List.length h) h h'.
Proof.
  induction p as [|e|p IHp q IHq|p IHp q IHq|r n v|r kw|r|k init IH]; intros UP h h' res U E; cbn [prun user_prog] in *.
  - injection E as <- <-. apply keeps_refl.
  - injection E as <- <-. apply keeps_refl.
  - destruct UP as [U1 U2]. pose proof (user_heap_run p U1 h U) as U'. destruct (prun p h) as [h1 [u|e]] eqn:P; cbn [fst] in U'.
    + pose proof (IHp U1 h h1 _ U P) as K1. pose proof (IHq U2 h1 h' res U' E) as K2.
      eapply keeps_trans; [exact K1|]. eapply keeps_le; [apply K1|exact K2].
    + injection E as <- <-. eapply IHp; eauto.
  - destruct UP as [U1 U2]. pose proof (user_heap_run p U1 h U) as U'. destruct (prun p h) as [h1 [u|e]] eqn:P; cbn [fst] in U'.
    + injection E as <- <-. eapply IHp; eauto.
    + pose proof (IHp U1 h h1 _ U P) as K1. pose proof (IHq U2 h1 h' res U' E) as K2.
      eapply keeps_trans; [exact K1|]. eapply keeps_le; [apply K1|exact K2].
  - eapply psetattr_keeps; eauto.
  - eapply preplace_keeps; eauto. intros o O. eapply user_heap_nth; eauto.
  - unfold pcopy in E. destruct (nth_error h r); injection E as <- <-; [apply keeps_app|apply keeps_refl].
  - destruct UP as [U1 U2].
    (* user_heap of the intermediate heap is not available to [pnew_keeps]'s body, so go through it by hand *)
    unfold pnew in E.
    set (r := List.length h) in *. set (h0 := (h ++ [mkPobj k [(F_SORTED, FNames [F_SORTED])]])%list) in *.
    assert (UH0 : user_heap h0) by (apply user_heap_app; auto).
    assert (B : forall a b c, user_heap a -> r <= List.length a -> with_marker F_INIT r a (prun init) = (b, c) -> keeps r a b).
    { intros a b c UA LA W. unfold with_marker in W. destruct (nth_error a r) as [o|]; [|injection W as <- <-; apply keeps_refl].
      match type of W with context [prun init ?x] => set (a1 := x) in *; destruct (prun init a1) as [a2 res2] eqn:R end.
      assert (K : keeps r a a2).
      { eapply keeps_trans; [apply keeps_set; apply Nat.le_refl|]. fold a1.
        assert (UA1 : user_heap a1) by (apply user_heap_set; exact UA).
        eapply keeps_le; [|eapply IH; [exact U2|exact UA1|exact R]]. unfold a1. rewrite set_pvars_length. exact LA. }
      destruct (nth_error a2 r) as [o2|]; [|injection W as <- <-; exact K].
      destruct (dmem F_INIT (p_vars o2)); injection W as <- <-; [|exact K].
      eapply keeps_trans; [exact K|]. apply keeps_set. lia. }
    destruct (with_marker F_MUTABLE r h0 (fun h1 => with_marker F_INIT r h1 (prun init))) as [h1 res1] eqn:W.
    assert (K : keeps r h h1).
    { eapply keeps_trans; [apply keeps_app|]. fold h0. unfold with_marker at 1 in W.
      destruct (nth_error h0 r) as [o|]; [|injection W as <- <-; apply keeps_refl].
      match type of W with context [with_marker F_INIT r ?x (prun init)] => set (a1 := x) in *; destruct (with_marker F_INIT r a1 (prun init)) as [a2 res2] eqn:R end.
      assert (K : keeps r h0 a2).
      { eapply keeps_trans; [apply keeps_set; apply Nat.le_refl|]. fold a1. eapply B; [|  |exact R].
        - apply user_heap_set. exact UH0.
        - unfold a1. rewrite set_pvars_length. unfold h0. rewrite app_length. unfold r. lia. }
      destruct (nth_error a2 r) as [o2|]; [|injection W as <- <-; exact K].
      destruct (dmem F_MUTABLE (p_vars o2)); injection W as <- <-; [|exact K].
      eapply keeps_trans; [exact K|]. apply keeps_set. lia. }
    destruct res1 as [u|e]; [|injection E as <- <-; exact K].
    destruct (nth_error h1 r) as [o|]; [|injection E as <- <-; exact K].
    destruct (wrap_fields _ (p_vars o)) as [d [u'|e]]; injection E as <- <-; (eapply keeps_trans; [exact K|]; apply keeps_set; lia).
Qed.

(** ** constructed objects are sealed, also when [__init__] raises *)
Lemma keys_wrap fs : forall d d' res, wrap_fields fs d = (d', res) -> keys d' = keys d.
Proof.
  induction fs as [|[n [f|]] fs IH]; intros d d' res E; cbn [wrap_fields] in E.
  - injection E as <- <-. reflexivity.
  - destruct (dget n d) as [[a|l]|] eqn:G; try (injection E as <- <-; reflexivity).
    destruct (call_cfn f a) as [a'|]; [|injection E as <- <-; reflexivity].
    rewrite (IH _ _ _ E), keys_dset. apply dget_In_keys in G. now rewrite (proj2 (dmem_In n d) G).
  - eauto.
Qed.
Lemma In_keys_ddel k k' (d : dict pfield) : NoDup (keys d) -> (In k (keys (ddel k' d)) <-> In k (keys d) /\ k <> k').
Proof.
  intros N. split.
  - intros H. apply in_map_iff in H as ([k1 v] & <- & H). apply In_ddel_iff in H as [H NE]; auto.
    split; [|exact NE]. apply in_map_iff. exists (k1, v). auto.
  - intros [H NE]. apply in_map_iff in H as ([k1 v] & <- & H). apply in_map_iff. exists (k1, v). split; auto.
    apply In_ddel_iff; auto.
Qed.
Lemma insert_keys_ext k (v v' : pfield) : forall d e, keys d = keys e ->
  keys (insert_by_key (k, v) d) = keys (insert_by_key (k, v') e).
Proof.
  induction d as [|[k1 v1] l IH]; intros [|[k2 v2] l'] H; try discriminate; [reflexivity|].
  unfold keys in H. cbn [map fst] in H. injection H as -> H. cbn [insert_by_key fst]. destruct (String.leb k k2).
  - unfold keys. cbn [map fst]. now rewrite H.
  - unfold keys in *. cbn [map fst]. f_equal. now apply IH.
Qed.
Lemma sort_keys_ext (d e : dict pfield) : keys d = keys e -> keys (sort_by_key d) = keys (sort_by_key e).
Proof.
  revert e. induction d as [|[k v] d IH]; intros [|[k' v'] e] H; try discriminate; [reflexivity|].
  unfold keys in H. cbn [map fst] in H. injection H as -> H. specialize (IH e H).
  exact (insert_keys_ext k' v v' _ _ IH).
Qed.

Theorem new_sealed k init h h' res : user_class k -> user_prog init -> user_heap h ->
  pnew k (prun init) h = (h', res) ->
  exists o, nth_error h' (List.length h) = Some o /\ p_class o = k /\ sealed o /\ NoDup (keys (p_vars o)) /\
    (res = Ok tt -> fields_sorted o).
Proof.
  intros UK UP U E. unfold pnew in E. set (r := List.length h) in *.
  set (h0 := (h ++ [mkPobj k [(F_SORTED, FNames [F_SORTED])]])%list) in *.
  assert (H0 : nth_error h0 r = Some (mkPobj k [(F_SORTED, FNames [F_SORTED])])).
  { unfold h0, r. rewrite nth_error_app2 by lia. now rewrite Nat.sub_diag. }
  assert (UH0 : user_heap h0) by (apply user_heap_app; auto).
  unfold with_marker in E. rewrite H0 in E. cbn [p_vars] in E.
  match type of E with context [nth_error (set_pvars h0 r ?x) r] => set (d1 := x) in E end.
  rewrite (set_pvars_same h0 r d1 _ H0) in E. cbn [p_vars p_class] in E. rewrite set_pvars_set in E.
  match type of E with context [set_pvars h0 r ?x] => set (d2 := x) in E end.
  destruct (prun init (set_pvars h0 r d2)) as [h1 res1] eqn:R.
  pose proof (prun_keeps init UP _ _ _ (user_heap_set h0 r d2 UH0) R) as [L K].
  assert (LT : r < List.length (set_pvars h0 r d2)).
  { rewrite set_pvars_length. unfold h0, r. rewrite app_length. cbn. lia. }
  destruct (K r _ LT (set_pvars_same h0 r d2 _ H0)) as (o1 & O1 & KC & KI & KM & KN & _).
  cbn [p_vars p_class] in *.
  assert (N2 : NoDup (keys d2)).
  { vm_compute. repeat constructor; cbn; intuition discriminate. }
  specialize (KN N2). assert (I2 : In F_INIT (keys d2)) by (vm_compute; tauto). assert (M2 : In F_MUTABLE (keys d2)) by (vm_compute; tauto).
  apply KI in I2. apply KM in M2.
  rewrite O1 in E. rewrite (proj2 (dmem_In _ _) I2) in E. cbn [fst snd] in E.
  rewrite (set_pvars_same h1 r _ o1 O1) in E. cbn [p_vars] in E.
  assert (M3 : In F_MUTABLE (keys (ddel F_INIT (p_vars o1)))) by (apply In_keys_ddel; auto; split; [exact M2|discriminate]).
  rewrite (proj2 (dmem_In _ _) M3) in E. rewrite set_pvars_set in E.
  set (d3 := ddel F_MUTABLE (ddel F_INIT (p_vars o1))) in E.
  assert (N3 : NoDup (keys d3)) by (unfold d3; now repeat apply NoDup_keys_ddel).
  assert (S3 : forall d, keys d = keys d3 -> sealed (mkPobj (p_class o1) d)).
  { intros d KD. split; cbn [p_vars]; rewrite KD; unfold d3; rewrite !In_keys_ddel; auto using NoDup_keys_ddel; tauto. }
  assert (F3 : In F_SORTED (keys d3)).
  { (* the recorded field order never leaves the dictionary *)
    destruct (K r _ LT (set_pvars_same h0 r d2 _ H0)) as (o1' & O1' & _ & _ & _ & _ & KS & _). rewrite O1 in O1'. injection O1' as <-.
    cbn [p_vars] in KS. unfold d3. rewrite !In_keys_ddel by auto using NoDup_keys_ddel. split; [split; [|discriminate]|discriminate].
    change (dget F_SORTED d2) with (Some (FNames [F_SORTED])) in KS. eapply dget_In_keys; eauto. }
  destruct res1 as [u|e].
  - rewrite (set_pvars_same h1 r d3 o1 O1) in E. cbn [p_vars] in E.
    destruct (wrap_fields _ d3) as [d4 [u'|e]] eqn:W; apply keys_wrap in W; rewrite set_pvars_set in E; injection E as <- <-.
    + exists (mkPobj (p_class o1) (dset F_SORTED (FNames (sorted_names d4)) d4)). split; [now apply set_pvars_same|].
      assert (KD : keys (dset F_SORTED (FNames (sorted_names d4)) d4) = keys d4).
      { rewrite keys_dset. rewrite <- W in F3. now rewrite (proj2 (dmem_In _ _) F3). }
      split; [exact KC|]. split; [apply S3; congruence|]. cbn [p_vars]. split; [rewrite KD, W; exact N3|].
      intros _. unfold fields_sorted. cbn [p_vars]. rewrite dget_dset_same. unfold sorted_names in *. do 2 f_equal.
      apply sort_keys_ext. symmetry. exact KD.
    + exists (mkPobj (p_class o1) d4). split; [now apply set_pvars_same|]. split; [exact KC|]. split; [now apply S3|].
      cbn [p_vars]. split; [rewrite W; exact N3|discriminate].
  - injection E as <- <-. exists (mkPobj (p_class o1) d3). split; [now apply set_pvars_same|]. split; [exact KC|].
    split; [now apply S3|]. split; [exact N3|discriminate].
Qed.

(** ** replace *)
Definition same_below (n : nat) (h h' : pheap) : Prop := forall r, r < n -> nth_error h' r = nth_error h r.
Lemma same_below_set n h r d : n <= r -> same_below n h (set_pvars h r d).
Proof. intros L r' R. apply set_pvars_other. lia. Qed.
Lemma same_below_trans n a b c : same_below n a b -> same_below n b c -> same_below n a c.
Proof. intros A B r R. rewrite B, A; auto. Qed.
Lemma with_marker_below n m r h body : n <= r -> (forall h1, same_below n h1 (fst (body h1))) ->
  same_below n h (fst (with_marker m r h body)).
Proof.
  intros L B. unfold with_marker. destruct (nth_error h r) as [o|]; [|intros r' _; reflexivity].
  match goal with |- context [body ?x] => pose proof (B x) as B1; destruct (body x) as [h1 res] end. cbn [fst] in B1.
  assert (K : same_below n h h1) by (eapply same_below_trans; [apply same_below_set; exact L|exact B1]).
  destruct (nth_error h1 r) as [o1|]; [|exact K]. destruct (dmem m (p_vars o1)); [|exact K].
  eapply same_below_trans; [exact K|]. now apply same_below_set.
Qed.
Lemma set_all_below n r kw h : n <= r -> same_below n h (fst (set_all r kw h)).
Proof.
  intros L r' R. destruct (set_all r kw h) as [h' res] eqn:E. cbn [fst]. eapply set_all_other; eauto. lia.
Qed.
Lemma pnew_below k init h : (forall h1, same_below (List.length h) h1 (fst (init h1))) ->
  same_below (List.length h) h (fst (pnew k init h)).
Proof.
  intros B. unfold pnew. set (r := List.length h).
  assert (A : same_below r h (h ++ [mkPobj k [(F_SORTED, FNames [F_SORTED])]])).
  { intros r' R. apply nth_error_app1. exact R. }
  pose proof (with_marker_below r F_MUTABLE r (h ++ [mkPobj k [(F_SORTED, FNames [F_SORTED])]])
    (fun h0 => with_marker F_INIT r h0 init) (Nat.le_refl r)
    (fun h1 => with_marker_below r F_INIT r h1 init (Nat.le_refl r) B)) as W.
  destruct (with_marker F_MUTABLE r _ _) as [h1 [u|e]]; cbn [fst] in W |- *; pose proof (same_below_trans _ _ _ _ A W) as K; [|exact K].
  destruct (nth_error h1 r) as [o|]; [|exact K].
  destruct (wrap_fields _ (p_vars o)) as [d [u'|e]]; (eapply same_below_trans; [exact K|]; apply same_below_set; lia).
Qed.
Theorem replace_below h r kw : same_below (List.length h) h (fst (preplace h r kw)).
Proof.
  unfold preplace. destruct (nth_error h r) as [o|]; [|intros r' _; reflexivity].
  destruct (k_fields (p_class o)) as [fs|].
  - destruct (replace_args h r fs kw) as [args|]; [|intros r' _; reflexivity].
    destruct (forallb _ _); [|intros r' _; reflexivity]. apply pnew_below. intros h1. apply set_all_below. lia.
  - destruct (_ && _); [intros r' _; reflexivity|].
    eapply same_below_trans; [|apply with_marker_below; [apply Nat.le_refl|intros h1; apply set_all_below; lia]].
    intros r' R. now apply nth_error_app1.
Qed.

Lemma psetattr_stores h r o k v old new : nth_error h r = Some o -> dget k (p_vars o) = Some old ->
  In F_MUTABLE (keys (p_vars o)) -> wf_field old -> wf_attr v -> stores old v new ->
  psetattr h r k v = (set_pvars h r (dset k new (p_vars o)), Ok tt).
Proof.
  intros O G M WO WV S. unfold psetattr. rewrite O.
  assert (MK : dmem k (p_vars o) = true) by (apply dmem_In; eapply dget_In_keys; eauto).
  rewrite MK, (proj2 (dmem_In _ _) M). cbn [negb andb].
  assert (RF : (if dmem F_INIT (p_vars o) then false else false) = false) by (destruct (dmem F_INIT (p_vars o)); reflexivity).
  rewrite RF. clear RF. rewrite G. destruct old as [[x|c]|l]; cbn [field_container stores wf_field wf_attr] in *.
  - subst new. destruct v as [y|d]; [reflexivity|]. cbn in WV. now rewrite (container_copy_id d WV).
  - destruct (replace_eq c (Some v) [] WO) as [RO _]; [intros d [= ->]; exact WV|].
    rewrite RO.
    + destruct v as [y|d]; cbn [dupdate fold_left]; [subst new; reflexivity|]. destruct S as (_ & _ & ->). reflexivity.
    + split; [intros k' []|]. intros d [= ->]. destruct S as (S1 & S2 & _). auto.
  - subst new. destruct v as [y|d]; [reflexivity|]. cbn in WV. now rewrite (container_copy_id d WV).
Qed.
Lemma stores_wf old v new : wf_field old -> wf_attr v -> stores old v new -> wf_field new.
Proof.
  intros WO WV S. destruct old as [[x|c]|l]; cbn in S, WO.
  - subst. exact WV.
  - destruct v as [y|d]; [subst; exact WO|]. destruct S as (_ & _ & ->). exact WO.
  - subst. exact WV.
Qed.

(** the whole keyword list, on an object whose construction or copying is under way *)
Lemma set_all_stores r : forall kw h o, nth_error h r = Some o -> In F_MUTABLE (keys (p_vars o)) -> ~ In F_MUTABLE (keys kw) ->
  (forall k f, dget k (p_vars o) = Some f -> wf_field f) -> NoDup (keys kw) ->
  (forall k v, In (k, v) kw -> wf_attr v /\ exists old new, dget k (p_vars o) = Some old /\ stores old v new) ->
  exists d, set_all r kw h = (set_pvars h r d, Ok tt) /\ keys d = keys (p_vars o) /\
    (forall k, dget k kw = None -> dget k d = dget k (p_vars o)) /\
    (forall k v, dget k kw = Some v -> exists old new, dget k (p_vars o) = Some old /\ stores old v new /\ dget k d = Some new).
Proof.
  induction kw as [|[k v] kw IH]; intros h o O M NM WF ND ST; cbn [set_all].
  - exists (p_vars o). split; [unfold set_pvars; rewrite O; destruct o; cbn; now rewrite list_set_id|].
    split; [reflexivity|]. split; [reflexivity|]. discriminate.
  - destruct (ST k v (or_introl eq_refl)) as (WV & old & new & G & S).
    rewrite (psetattr_stores h r o k v old new O G M (WF _ _ G) WV S).
    unfold keys in ND. cbn [map fst] in ND. apply NoDup_cons_iff in ND as [N1 N2].
    assert (KD : keys (dset k new (p_vars o)) = keys (p_vars o)).
    { rewrite keys_dset. apply dget_In_keys in G. now rewrite (proj2 (dmem_In _ _) G). }
    destruct (IH (set_pvars h r (dset k new (p_vars o))) (mkPobj (p_class o) (dset k new (p_vars o)))) as (d & E & K & NK & SK); cbn [p_vars].
    + now apply set_pvars_same.
    + now rewrite KD.
    + intros H. apply NM. now right.
    + intros k' f H. rewrite dget_dset in H. destruct (String.eqb k' k); [injection H as <-; eapply stores_wf; eauto|]. eauto.
    + exact N2.
    + intros k' v' H. destruct (ST k' v' (or_intror H)) as (WV' & old' & new' & G' & S'). split; auto.
      exists old', new'. split; auto. rewrite dget_dset_other; auto. intros ->. apply N1. change (In (fst (k, v')) (map fst kw)). now apply in_map.
    + cbn [p_vars] in *. exists d. rewrite set_pvars_set in E. split; [exact E|]. split; [congruence|]. split.
      * intros k' H. cbn [dget] in H. destruct (String.eqb k' k) eqn:Q; [discriminate|]. rewrite (NK k' H).
        apply dget_dset_other. now apply String.eqb_neq.
      * intros k' v' H. cbn [dget] in H. destruct (String.eqb k' k) eqn:Q.
        -- injection H as <-. apply String.eqb_eq in Q. subst k'. exists old, new. split; auto. split; auto.
           rewrite NK; [apply dget_dset_same|]. now apply dget_None.
        -- destruct (SK k' v' H) as (old' & new' & G' & S' & D'). exists old', new'. split; auto.
           rewrite dget_dset_other in G'; auto. now apply String.eqb_neq.
Qed.

Lemma keys_ddel_last (d e : dict pfield) m : keys d = keys e ++ [m] -> ~ In m (keys e) -> keys (ddel m d) = keys e.
Proof.
  revert e. induction d as [|[k v] d IH]; intros [|[k' v'] e] K N; cbn [keys map fst app] in *.
  - discriminate.
  - discriminate.
  - injection K as -> K. cbn [ddel]. rewrite String.eqb_refl. destruct d; [reflexivity|discriminate].
  - injection K as -> K. cbn [ddel]. destruct (String.eqb m k') eqn:Q.
    + apply String.eqb_eq in Q. subst. exfalso. apply N. now left.
    + cbn [keys map fst]. f_equal. apply IH; [exact K|]. intros H. apply N. now right.
Qed.

Theorem replace_plain h r o kw : nth_error h r = Some o -> k_fields (p_class o) = None -> wf_fields o ->
  ~ In F_MUTABLE (keys (p_vars o)) -> NoDup (keys kw) ->
  (forall k v, In (k, v) kw -> wf_attr v /\ exists old new, dget k (p_vars o) = Some old /\ stores old v new) ->
  exists o', preplace h r kw = (h ++ [o'], Ok tt) /\ p_class o' = p_class o /\ keys (p_vars o') = keys (p_vars o) /\
    (forall k, ~ In k (keys kw) -> dget k (p_vars o') = dget k (p_vars o)) /\
    (forall k v, dget k kw = Some v -> exists old new, dget k (p_vars o) = Some old /\ stores old v new /\
                                                      dget k (p_vars o') = Some new).
Proof.
  intros O F [WN WF] NM ND ST. unfold preplace. rewrite O, F.
  assert (KN : existsb (fun k => negb (dmem k (p_vars o))) (keys kw) = false).
  { apply not_true_iff_false. intros H. apply existsb_exists in H as (k & I & H). apply in_map_iff in I as ([k' v] & <- & I).
    destruct (ST k' v I) as (_ & old & _ & G & _). apply dget_In_keys, dmem_In in G. cbn [fst] in H. rewrite G in H. discriminate. }
  rewrite KN. cbn [andb]. set (n := List.length h). unfold with_marker.
  assert (O1 : nth_error (h ++ [o]) n = Some o) by (unfold n; rewrite nth_error_app2 by lia; now rewrite Nat.sub_diag).
  rewrite O1. set (d1 := dset F_MUTABLE (FAttr (ARaw (PyBool true))) (p_vars o)).
  assert (NK : ~ In F_MUTABLE (keys kw)).
  { intros I. apply in_map_iff in I as ([k' v] & EK & I). cbn [fst] in EK. subst k'. destruct (ST F_MUTABLE v I) as (_ & old & _ & G & _).
    apply NM. eapply dget_In_keys; eauto. }
  destruct (set_all_stores n kw (set_pvars (h ++ [o]) n d1) (mkPobj (p_class o) d1)) as (d & E & K & KN2 & SK); cbn [p_vars].
  - now apply set_pvars_same.
  - unfold d1. apply In_keys_dset. now left.
  - exact NK.
  - intros k f H. unfold d1 in H. rewrite dget_dset in H. destruct (String.eqb k F_MUTABLE); [injection H as <-; exact Logic.I|]. eauto.
  - exact ND.
  - intros k v I. destruct (ST k v I) as (WV & old & new & G & S). split; auto. exists old, new. split; auto.
    unfold d1. rewrite dget_dset_other; auto. intros ->. apply NM. eapply dget_In_keys; eauto.
  - cbn [p_vars] in *. rewrite E, set_pvars_set. rewrite (set_pvars_same _ n d _ O1). cbn [p_vars].
    assert (KD1 : keys d1 = keys (p_vars o) ++ [F_MUTABLE]).
    { unfold d1. rewrite keys_dset. now rewrite (proj2 (dmem_false _ _) NM). }
    assert (DM : dmem F_MUTABLE d = true) by (apply dmem_In; rewrite K, KD1; apply in_or_app; right; now left).
    rewrite DM, set_pvars_set. exists (mkPobj (p_class o) (ddel F_MUTABLE d)).
    split; [|split; [reflexivity|]].
    + f_equal. unfold set_pvars. rewrite O1. unfold n. rewrite list_set_app_r by lia. now rewrite Nat.sub_diag.
    + cbn [p_vars]. split; [apply keys_ddel_last; [congruence|exact NM]|]. split.
      * intros k I. destruct (string_dec k F_MUTABLE) as [Q|NE]; [subst k|].
        -- rewrite dget_ddel_same by (rewrite K, KD1; apply NoDup_app_intro; [exact WN|repeat constructor; auto|intros x H [<-|[]]; auto]).
           symmetry. now apply dget_None.
        -- rewrite dget_ddel_other by exact NE. rewrite KN2 by (now apply dget_None). unfold d1. now rewrite dget_dset_other.
      * intros k v G. destruct (SK k v G) as (old & new & G1 & S & G2). exists old, new.
        assert (NE : k <> F_MUTABLE) by (intros ->; apply NK; eapply dget_In_keys; eauto).
        split; [|split; [exact S|]].
        -- unfold d1 in G1. rewrite dget_dset_other in G1; auto.
        -- rewrite dget_ddel_other; auto.
Qed.

(** a refused replace *)
Lemma set_all_refused r : forall kw h o, nth_error h r = Some o ->
  ~ In F_INIT (keys (p_vars o)) ->
  (forall k f, dget k (p_vars o) = Some f -> wf_field f) -> NoDup (keys kw) ->
  (forall k v, In (k, v) kw -> wf_attr v) ->
  (exists k v, In (k, v) kw /\ ~ exists old new, dget k (p_vars o) = Some old /\ stores old v new) ->
  In F_MUTABLE (keys (p_vars o)) ->
  exists e, snd (set_all r kw h) = Err e /\ (e = ValueError \/ e = AttributeError).
Proof.
  induction kw as [|[k v] kw IH]; intros h o O NI WF ND WV (k0 & v0 & I0 & N0) M; [contradiction|].
  unfold keys in ND. cbn [map fst] in ND. apply NoDup_cons_iff in ND as [N1 N2]. cbn [set_all].
  destruct (dget k (p_vars o)) as [old|] eqn:G.
  - assert (D : (exists new, stores old v new) \/ (~ (exists new, stores old v new) /\ exists c d, old = FAttr (ACont c) /\ v = ACont d)).
    { destruct old as [[x|c]|l]; cbn [stores]; [left; eauto| |left; eauto]. destruct v as [y|d]; [left; eauto|].
      specialize (WV k (ACont d) (or_introl eq_refl)). cbn in WV. pose proof (WF k _ G) as WC. cbn in WC.
      destruct (is_equivalent c d) eqn:Q.
      - apply (is_equivalent_spec c d WC WV) in Q as [Q1 Q2]. left. eauto.
      - right. split; [|eauto]. intros (new & Q1 & Q2 & _).
        assert (is_equivalent c d = true) by (apply is_equivalent_spec; auto). congruence. }
    destruct D as [[new S]|(NS & c & d & -> & ->)].
    + pose proof (psetattr_stores h r o k v old new O G M (WF _ _ G) (WV k v (or_introl eq_refl)) S) as P.
      rewrite P.
      assert (KD : keys (dset k new (p_vars o)) = keys (p_vars o)).
      { rewrite keys_dset. apply dget_In_keys in G. now rewrite (proj2 (dmem_In _ _) G). }
      apply (IH _ (mkPobj (p_class o) (dset k new (p_vars o)))); cbn [p_vars].
      * now apply set_pvars_same.
      * now rewrite KD.
      * intros k' f H. rewrite dget_dset in H. destruct (String.eqb k' k); [|eauto]. injection H as <-.
        eapply stores_wf; [exact (WF _ _ G)|exact (WV k v (or_introl eq_refl))|exact S].
      * exact N2.
      * intros k' v' H. apply (WV k' v'). now right.
      * destruct I0 as [E0|I0]; [injection E0 as <- <-; exfalso; apply N0; eauto|].
        exists k0, v0. split; auto. intros (old' & new' & G' & S'). apply N0. exists old', new'. split; auto.
        rewrite dget_dset_other in G'; auto. intros ->. apply N1. change (In (fst (k, v0)) (map fst kw)). now apply in_map.
      * now rewrite KD.
    + unfold psetattr. rewrite O, G. cbn [field_container].
      assert (MK : dmem k (p_vars o) = true) by (apply dmem_In; eapply dget_In_keys; eauto).
      rewrite MK, (proj2 (dmem_In _ _) M), (proj2 (dmem_false _ _) NI). cbn [negb andb].
      destruct (replace_eq c (Some (ACont d)) [] (WF _ _ G)) as [_ RO]; [intros d' [= <-]; exact (WV k _ (or_introl eq_refl))|].
      rewrite RO; [cbn [snd]; eauto|]. intros [_ Q]. apply NS. destruct (Q d eq_refl) as [Q1 Q2]. cbn [stores]. eauto.
  - unfold psetattr. rewrite O. apply dget_None, dmem_false in G. rewrite G. apply dmem_false in NI. rewrite NI.
    cbn [negb snd]. eauto.
Qed.
Theorem replace_refused h r o kw : nth_error h r = Some o -> k_fields (p_class o) = None -> wf_fields o ->
  sealed o -> NoDup (keys kw) -> (forall k v, In (k, v) kw -> wf_attr v /\ k <> F_MUTABLE) ->
  (exists k v, In (k, v) kw /\ ~ exists old new, dget k (p_vars o) = Some old /\ stores old v new) ->
  exists e, snd (preplace h r kw) = Err e /\ (e = ValueError \/ e = AttributeError).
Proof.
  intros O F [WN WF] [SI SM] ND WV BAD. unfold preplace. rewrite O, F.
  destruct (_ && _); [cbn [snd]; eauto|]. unfold with_marker. set (n := List.length h).
  assert (O1 : nth_error (h ++ [o]) n = Some o) by (unfold n; rewrite nth_error_app2 by lia; now rewrite Nat.sub_diag).
  rewrite O1. set (d1 := dset F_MUTABLE (FAttr (ARaw (PyBool true))) (p_vars o)).
  destruct (set_all_refused n kw (set_pvars (h ++ [o]) n d1) (mkPobj (p_class o) d1)) as (e & E & EE); cbn [p_vars].
  - now apply set_pvars_same.
  - unfold d1. rewrite In_keys_dset. intros [H|H]; [discriminate|contradiction].
  - intros k f H. unfold d1 in H. rewrite dget_dset in H. destruct (String.eqb k F_MUTABLE); [injection H as <-; exact Logic.I|]. eauto.
  - exact ND.
  - intros k v I. apply (WV k v I).
  - destruct BAD as (k & v & I & N). exists k, v. split; auto. intros (old & new & G & S). apply N. exists old, new. split; auto.
    unfold d1 in G. rewrite dget_dset_other in G; auto. apply (WV k v I).
  - unfold d1. apply In_keys_dset. now left.
  - assert (M2 : exists o2, nth_error (fst (set_all n kw (set_pvars (h ++ [o]) n d1))) n = Some o2 /\ In F_MUTABLE (keys (p_vars o2))).
    { assert (G : forall kw h o1, nth_error h n = Some o1 -> In F_MUTABLE (keys (p_vars o1)) ->
                  exists o2, nth_error (fst (set_all n kw h)) n = Some o2 /\ In F_MUTABLE (keys (p_vars o2))).
      { clearbody n. clear. induction kw as [|[k v] kw IH]; intros h o1 O M; cbn [set_all]; [eauto|].
        assert (P : exists o2, nth_error (fst (psetattr h n k v)) n = Some o2 /\ In F_MUTABLE (keys (p_vars o2))).
        { unfold psetattr. rewrite O. match goal with |- context [if ?b then _ else _] => destruct b end; [cbn [fst]; eauto|].
          assert (S : forall f, exists o2, nth_error (set_pvars h n (dset k f (p_vars o1))) n = Some o2 /\ In F_MUTABLE (keys (p_vars o2))).
          { intros f. eexists. split; [exact (set_pvars_same h n _ o1 O)|]. cbn [p_vars]. apply In_keys_dset. now right. }
          destruct (field_container (dget k (p_vars o1))) as [c|].
          - destruct (container_replace c (Some v) []); cbn [fst]; eauto.
          - destruct v as [x|c]; [cbn [fst]; eauto|]. destruct (container_copy c); cbn [fst]; eauto. }
        destruct (psetattr h n k v) as [h1 [u|e]]; cbn [fst] in P |- *; [|exact P]. destruct P as (o2 & P1 & P2). eauto. }
      eapply G; [exact (set_pvars_same _ n d1 o O1)|]. cbn [p_vars]. unfold d1. apply In_keys_dset. now left. }
    destruct M2 as (o2 & O2 & M2). destruct (set_all n kw (set_pvars (h ++ [o]) n d1)) as [h2 res2]. cbn [fst snd] in *.
    rewrite O2, (proj2 (dmem_In _ _) M2). cbn [snd]. eauto.
Qed.
Theorem replace_unknown h r o kw : nth_error h r = Some o -> k_fields (p_class o) = None -> immutable o ->
  (exists k, In k (keys kw) /\ ~ In k (keys (p_vars o))) -> preplace h r kw = (h, Err ValueError).
Proof.
  intros O F I (k & K & N). unfold preplace. rewrite O, F. unfold immutable in I. rewrite I. cbn [negb].
  assert (E : existsb (fun k => negb (dmem k (p_vars o))) (keys kw) = true).
  { apply existsb_exists. exists k. split; auto. apply dmem_false in N. now rewrite N. }
  now rewrite E.
Qed.

(** ** dataclasses *)
Lemma set_all_open r : forall args h o, nth_error h r = Some o -> In F_INIT (keys (p_vars o)) ->
  NoDup (keys args) -> (forall k v, In (k, v) args -> wf_attr v /\ ~ In k (keys (p_vars o))) ->
  set_all r args h = (set_pvars h r (p_vars o ++ map (fun kv => (fst kv, FAttr (snd kv))) args), Ok tt).
Proof.
  induction args as [|[k v] args IH]; intros h o O NI ND W; cbn [set_all].
  - cbn [map]. rewrite app_nil_r. unfold set_pvars. rewrite O. destruct o. cbn. now rewrite list_set_id.
  - destruct (W k v (or_introl eq_refl)) as [WV NK].
    unfold keys in ND. cbn [map fst] in ND. apply NoDup_cons_iff in ND as [N1 N2].
    assert (P : psetattr h r k v = (set_pvars h r (p_vars o ++ [(k, FAttr v)]), Ok tt)).
    { unfold psetattr. rewrite O, (proj2 (dmem_In _ _) NI). rewrite (proj2 (dget_None _ _) NK). cbn [field_container].
      rewrite <- (dset_new k (FAttr v) _ NK). destruct v as [x|c]; [reflexivity|]. cbn in WV. now rewrite (container_copy_id c WV). }
    rewrite P. rewrite (IH _ (mkPobj (p_class o) (p_vars o ++ [(k, FAttr v)]))); cbn [p_vars].
    + rewrite set_pvars_set. cbn [map fst snd]. now rewrite <- app_assoc.
    + now apply set_pvars_same.
    + rewrite keys_app. apply in_or_app. now left.
    + exact N2.
    + intros k' v' I. destruct (W k' v' (or_intror I)) as [A B]. split; auto. rewrite keys_app. intros H. apply in_app_or in H as [H|[H|[]]]; auto.
      subst k'. apply N1. change (In (fst (k, v')) (map fst args)). now apply in_map.
Qed.

Lemma call_cfn_arg f a x : wf_cfn f -> wf_attr a -> field_arg (Some f) a x -> rmap FAttr (call_cfn f a) = Ok x.
Proof.
  intros (W1 & W2 & W3) WA (c & C & -> & E). unfold call_cfn. destruct a as [v|d].
  - now rewrite C.
  - assert (WC : wf_container c).
    { eapply construct_wf; [exact W1|exact W2|exact W3| |exact C]. discriminate. }
    cbn [container_call] in *. rewrite C. cbn [rbind]. destruct E as [E1 E2].
    rewrite (proj2 (is_equivalent_spec d c WA WC) (conj E1 E2)). reflexivity.
Qed.
Lemma wrap_fields_args : forall fs d, wf_cfields fs ->
  (forall n f, In (n, f) fs -> exists a x, dget n d = Some (FAttr a) /\ wf_attr a /\ field_arg f a x) ->
  exists d', wrap_fields fs d = (d', Ok tt) /\ keys d' = keys d /\
    (forall n, ~ In n (keys fs) -> dget n d' = dget n d) /\
    (forall n f a, In (n, f) fs -> dget n d = Some (FAttr a) -> exists x, dget n d' = Some x /\ field_arg f a x).
Proof.
  induction fs as [|[n f] fs IH]; intros d [ND W] A.
  - exists d. cbn [wrap_fields]. split; [reflexivity|]. split; [reflexivity|]. split; [reflexivity|]. intros ? ? ? [].
  - unfold keys in ND. cbn [map fst] in ND. apply NoDup_cons_iff in ND as [N1 N2].
    assert (W' : wf_cfields fs) by (split; [exact N2|]; intros n' f' I; apply (W n' f'); now right).
    destruct (A n f (or_introl eq_refl)) as (a & x & G & WA & FA).
    assert (NN : forall n' f', In (n', f') fs -> n' <> n).
    { intros n' f' I ->. apply N1. change (In (fst (n, f')) (map fst fs)). now apply in_map. }
    destruct f as [f|]; cbn [wrap_fields].
    + rewrite G. destruct (W n (Some f) (or_introl eq_refl)) as [_ WC]. specialize (WC f eq_refl).
      pose proof (call_cfn_arg f a x WC WA FA) as C. destruct (call_cfn f a) as [a'|]; [|discriminate]. injection C as <-.
      destruct (IH (dset n (FAttr a') d) W') as (d' & E & K & NK & SK).
      * intros n' f' I. destruct (A n' f' (or_intror I)) as (a2 & x2 & G2 & R). exists a2, x2. split; auto.
        rewrite dget_dset_other; eauto.
      * exists d'. split; [exact E|]. split.
        { rewrite K, keys_dset. apply dget_In_keys in G. now rewrite (proj2 (dmem_In _ _) G). }
        split.
        -- intros n' NI. rewrite NK by (intros H; apply NI; now right). apply dget_dset_other. intros ->. apply NI. now left.
        -- intros n' f' a2 I G2. destruct I as [I|I].
           ++ injection I as <- <-. rewrite G in G2. injection G2 as <-. exists (FAttr a'). split; [|exact FA].
              rewrite NK by exact N1. apply dget_dset_same.
           ++ apply SK; auto. rewrite dget_dset_other; eauto.
    + destruct (IH d W') as (d' & E & K & NK & SK).
      * intros n' f' I. apply A. now right.
      * exists d'. split; [exact E|]. split; [exact K|]. split; [intros n' NI; apply NK; intros H; apply NI; now right|].
        intros n' f' a2 [I|I] G2; [|now apply SK]. injection I as <- <-. exists (FAttr a2). split; [|reflexivity].
        rewrite NK by exact N1. exact G2.
Qed.

(** constructing a dataclass Pytree *)
Theorem new_dataclass k fs args h : k_fields k = Some fs -> wf_cfields fs -> keys args = keys fs ->
  (forall n f, In (n, f) fs -> exists a x, dget n args = Some a /\ wf_attr a /\ field_arg f a x) ->
  exists o, pnew k (set_all (List.length h) args) h = (h ++ [o], Ok tt) /\ p_class o = k /\
    keys (p_vars o) = F_SORTED :: keys fs /\ fields_sorted o /\
    (forall n f a, In (n, f) fs -> dget n args = Some a -> exists x, dget n (p_vars o) = Some x /\ field_arg f a x).
Proof.
  intros KF WF KA AR. unfold pnew. set (r := List.length h).
  set (h0 := (h ++ [mkPobj k [(F_SORTED, FNames [F_SORTED])]])%list).
  assert (H0 : nth_error h0 r = Some (mkPobj k [(F_SORTED, FNames [F_SORTED])])).
  { unfold h0, r. rewrite nth_error_app2 by lia. now rewrite Nat.sub_diag. }
  unfold with_marker. rewrite H0. cbn [p_vars].
  match goal with |- context [nth_error (set_pvars h0 r ?x) r] => set (d1 := x) end.
  rewrite (set_pvars_same h0 r d1 _ H0). cbn [p_vars p_class]. rewrite set_pvars_set.
  match goal with |- context [set_all r args (set_pvars h0 r ?x)] => set (d2 := x) end.
  destruct WF as [NF WF].
  assert (UN : forall n, In n (keys fs) -> user_name n).
  { intros n I. apply in_map_iff in I as ([n' f] & <- & I). apply (WF n' f I). }
  rewrite (set_all_open r args (set_pvars h0 r d2) (mkPobj k d2)); cbn [p_vars].
  2: { exact (set_pvars_same h0 r d2 _ H0). }
  2: { vm_compute. tauto. }
  2: { now rewrite KA. }
  2: { intros n v I. assert (IN : In n (keys args)) by (apply in_map_iff; exists (n, v); auto). rewrite KA in IN.
       assert (IN' := IN). apply in_map_iff in IN' as ([n' f] & EQ & IF). cbn [fst] in EQ. subst n'.
       destruct (AR n f IF) as (a & x & G & WA & _). split.
       - assert (ND : NoDup (keys args)) by (rewrite KA; exact NF). rewrite (In_dget n v args ND I) in G. now injection G as <-.
       - destruct (user_name_not n (UN n IN)) as (U1 & U2 & U3). change (keys d2) with [F_SORTED; F_MUTABLE; F_INIT].
         intros [H|[H|[H|[]]]]; congruence. }
  rewrite set_pvars_set. set (al := map (fun kv : string * attr => (fst kv, FAttr (snd kv))) args).
  rewrite (set_pvars_same h0 r _ _ H0). cbn [p_vars p_class].
  change (dmem F_INIT (d2 ++ al)) with true. cbn iota. rewrite set_pvars_set. rewrite (set_pvars_same h0 r _ _ H0). cbn [p_vars p_class].
  change (ddel F_INIT (d2 ++ al)) with ((F_SORTED, FNames [F_SORTED]) :: (F_MUTABLE, FAttr (ARaw (PyBool true))) :: al).
  match goal with |- context [dmem F_MUTABLE ?x] => change (dmem F_MUTABLE x) with true end. cbn iota.
  rewrite set_pvars_set. rewrite (set_pvars_same h0 r _ _ H0). cbn [p_vars p_class].
  match goal with |- context [ddel F_MUTABLE ?x] => change (ddel F_MUTABLE x) with ((F_SORTED, FNames [F_SORTED]) :: al) end.
  rewrite KF.
  assert (KAL : keys al = keys fs).
  { unfold al, keys. rewrite map_map. cbn [fst]. exact KA. }
  assert (GAL : forall n, n <> F_SORTED -> dget n ((F_SORTED, FNames [F_SORTED]) :: al) = option_map FAttr (dget n args)).
  { intros n NE. cbn [dget]. apply String.eqb_neq in NE. rewrite NE. unfold al. apply dget_map. }
  assert (NS : forall n, In n (keys fs) -> n <> F_SORTED) by (intros n I; apply (user_name_not n (UN n I))).
  assert (IK : forall n f, In (n, f) fs -> In n (keys fs)) by (intros n f I; apply in_map_iff; exists (n, f); auto).
  destruct (wrap_fields_args fs ((F_SORTED, FNames [F_SORTED]) :: al)) as (d & E & K & NK & SK).
  - split; auto.
  - intros n f I. destruct (AR n f I) as (a & x & G & R). exists a, x. split; auto. rewrite GAL, G; [reflexivity|]. eauto.
  - rewrite E, set_pvars_set. eexists. split; [|split; [|split; [|split]]].
    + f_equal. unfold set_pvars. rewrite H0. unfold h0, r. rewrite list_set_app_r by lia. now rewrite Nat.sub_diag.
    + reflexivity.
    + cbn [p_vars]. rewrite keys_dset. rewrite (proj2 (dmem_In F_SORTED d)) by (rewrite K; now left).
      rewrite K. cbn [keys map fst]. now rewrite <- KAL.
    + unfold fields_sorted. cbn [p_vars]. rewrite dget_dset_same. unfold sorted_names. do 2 f_equal. apply sort_keys_ext.
      rewrite keys_dset. now rewrite (proj2 (dmem_In F_SORTED d)) by (rewrite K; now left).
    + intros n f a I G. cbn [p_vars]. rewrite dget_dset_other by eauto. apply SK; [exact I|]. rewrite GAL, G; [reflexivity|]. eauto.
Qed.

Theorem replace_dataclass h r o fs kw : nth_error h r = Some o -> k_fields (p_class o) = Some fs -> wf_cfields fs ->
  (forall n, In n (keys kw) -> In n (keys fs)) ->
  (forall n f, In (n, f) fs -> exists v x, dget n (p_vars o) = Some x /\ field_arg f (ARaw v) x) ->
  (forall n f a, In (n, f) fs -> dget n kw = Some a -> wf_attr a /\ exists x, field_arg f a x) ->
  exists o', preplace h r kw = (h ++ [o'], Ok tt) /\ p_class o' = p_class o /\
    keys (p_vars o') = F_SORTED :: keys fs /\ fields_sorted o' /\
    (forall n f, In (n, f) fs -> dget n kw = None -> dget n (p_vars o') = dget n (p_vars o)) /\
    (forall n f a, In (n, f) fs -> dget n kw = Some a -> exists x, dget n (p_vars o') = Some x /\ field_arg f a x).
Proof.
  intros O F WF KW MADE GIVEN. unfold preplace. rewrite O, F.
  assert (AR : exists args, replace_args h r fs kw = Ok args /\
     forall n f, In (n, f) fs -> (forall a, dget n kw = Some a -> dget n args = Some a) /\
       (dget n kw = None -> exists v x, dget n (p_vars o) = Some x /\ field_arg f (ARaw v) x /\ dget n args = Some (ARaw v))).
  { destruct WF as [ND _]. clear KW GIVEN F. revert ND MADE. induction fs as [|[n f] fs IH]; intros ND MADE; cbn [replace_args].
    - exists []. split; [reflexivity|]. intros ? ? [].
    - unfold keys in ND. cbn [map fst] in ND. apply NoDup_cons_iff in ND as [N1 N2].
      destruct IH as (args & E & P); [exact N2|intros n' f' I; apply MADE; now right|].
      assert (HD : exists a, match dget n kw with Some a => Ok a | None => match pgetattr h r n with
                        | Ok (FAttr a) => Ok a | Ok (FNames _) => Err OutOfModel | Err e => Err e end end = Ok a /\
               (forall b, dget n kw = Some b -> b = a) /\
               (dget n kw = None -> exists v x, dget n (p_vars o) = Some x /\ field_arg f (ARaw v) x /\ a = ARaw v)).
      { destruct (dget n kw) as [a|].
        - exists a. split; [reflexivity|]. split; [congruence|discriminate].
        - destruct (MADE n f (or_introl eq_refl)) as (v & x & G & FA). exists (ARaw v). split; [|split; [discriminate|intros _; eauto 6]].
          unfold pgetattr. rewrite O, G. destruct f as [f|]; cbn [field_arg] in FA.
          + destruct FA as (c & C & -> & _). cbn [container_call] in C. unfold container_init in C.
            destruct (init_meta (f_cls f) (f_md f)); [|discriminate]. cbn [rbind] in C. injection C as <-. reflexivity.
          + subst x. reflexivity. }
      destruct HD as (a & HA & HB & HC). exists ((n, a) :: args). rewrite HA, E. split; [reflexivity|].
      intros n' f' [I|I].
      + injection I as <- <-. cbn [dget]. rewrite String.eqb_refl. split; [intros b B; f_equal; symmetry; now apply HB|].
        intros Q. destruct (HC Q) as (v & x & G & FA & ->). eauto.
      + assert (NE : String.eqb n' n = false).
        { apply String.eqb_neq. intros ->. apply N1. change (In (fst (n, f')) (map fst fs)). now apply in_map. }
        cbn [dget]. rewrite NE. now apply P. }
  destruct AR as (args & E & P). rewrite E.
  assert (KB : forallb (fun k => smem k (keys fs)) (keys kw) = true).
  { apply forallb_forall. intros k I. apply smem_In. auto. }
  rewrite KB. destruct (new_dataclass (p_class o) fs args h F WF (replace_args_keys h r fs kw args E)) as (o' & R & C & K & FS & SK).
  - intros n f I. destruct (P n f I) as [P1 P2]. destruct (dget n kw) as [a|] eqn:G.
    + exists a. destruct (GIVEN n f a I G) as (WA & x & FA). exists x. auto.
    + destruct (P2 eq_refl) as (v & x & _ & FA & GA). exists (ARaw v), x. split; [exact GA|]. split; [exact Logic.I|exact FA].
  - exists o'. split; [exact R|]. split; [exact C|]. split; [exact K|]. split; [exact FS|]. split.
    + intros n f I G. destruct (P n f I) as [_ P2]. destruct (P2 G) as (v & x & GO & FA & GA).
      destruct (SK n f _ I GA) as (x' & GX & FX). rewrite GX, GO. f_equal. destruct f as [f|]; cbn [field_arg] in FA, FX.
      * destruct FA as (c & C1 & -> & _). destruct FX as (c' & C2 & -> & _). congruence.
      * congruence.
    + intros n f a I G. destruct (P n f I) as [P1 _]. apply (SK n f a I). now apply P1.
Qed.
Theorem replace_dataclass_unknown h r o fs kw : nth_error h r = Some o -> k_fields (p_class o) = Some fs ->
  (forall n, In n (keys fs) -> exists a, dget n (p_vars o) = Some (FAttr a)) ->
  (exists k, In k (keys kw) /\ ~ In k (keys fs)) -> preplace h r kw = (h, Err TypeError).
Proof.
  intros O F A (k & K & N). unfold preplace. rewrite O, F.
  assert (R : exists l, replace_args h r fs kw = Ok l).
  { clear F N. induction fs as [|[n c] fs IH]; cbn [replace_args]; [eauto|]. destruct IH as (l & L); [intros n' I'; apply A; now right|].
    assert (E : exists a, match dget n kw with Some a => Ok a | None => match pgetattr h r n with Ok (FAttr a) => Ok a | Ok (FNames _) => Err OutOfModel | Err e => Err e end end = Ok a).
    { destruct (dget n kw) as [a|]; [eauto|]. destruct (A n (or_introl eq_refl)) as (a & D). unfold pgetattr. rewrite O, D.
      destruct a as [c0|v]; cbn; eauto. }
    destruct E as (a & E). rewrite E. cbn [rbind]. rewrite L. cbn [rbind]. eauto. }
  destruct R as (l & ->).
  assert (E : forallb (fun k => smem k (keys fs)) (keys kw) = false).
  { apply not_true_is_false. intros T. rewrite forallb_forall in T. apply N, smem_In, T, K. }
  now rewrite E.
Qed.
