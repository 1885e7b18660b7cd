(** Proofs about [==] and [hash]. *)
From Coq Require Import ZArith.
From Verif Require Import PyBase PyBaseFacts ValuesM Spec_Eq ValuesFacts FiltersM StateM ModuleM Spec_Module Mdef_proofs JitArgsM Spec_JitArgs
  StateMapM Spec_StateMap StateMap_proofs HashM Spec_Hash.
Local Open Scope string_scope.
Local Open Scope list_scope.

(** ** equality *)
Lemma mdef_eqb_same d : forall e, wf_def d -> wf_def e -> (mdef_eqb d e = true <-> same_def d e).
Proof.
  induction d as [i|c i subs st b IH] using mdef_rect'; intros [j|c' i' subs' st' b'] Wd We;
    try (split; [discriminate|intros H; inversion H]; fail).
  - cbn. rewrite Nat.eqb_eq. split; [intros ->; constructor|intros H; now inversion H].
  - inversion Wd as [|? ? ? ? ? Ws Wt]; subst. inversion We as [|? ? ? ? ? Ws' Wt']; subst.
    rewrite mdef_eqb_MDef, !andb_true_iff, cls_eqb_eq, (statics_eqb_Forall2 st st' Wt Wt').
    assert (S : subs_eqb subs subs' = true <-> Forall2 (fun x y => fst x = fst y /\ same_def (snd x) (snd y)) subs subs').
    { clear - IH Ws Ws'. revert subs' Ws'. induction IH as [|[n d] subs Hd Hs IHs]; intros [|[m e] subs'] Ws'; cbn;
        try (split; [discriminate|intros H; inversion H]; fail); [split; [constructor|reflexivity]|].
      inversion Ws as [|? ? W1 W2]; subst. inversion Ws' as [|? ? W1' W2']; subst. cbn in *.
      rewrite !andb_true_iff, String.eqb_eq, Hd, IHs by assumption. split.
      - intros [[-> H1] H2]. constructor; auto.
      - intros H. inversion H as [|? ? ? ? H1 H2]; subst. cbn in H1. tauto. }
    rewrite S. split.
    + intros [[-> H1] H2]. now constructor.
    + intros H. inversion H; subst. auto.
Qed.
Lemma same_def_refl d : same_def d d.
Proof.
  induction d as [i|c i subs st b IH] using mdef_rect'; constructor.
  - induction IH; constructor; auto.
  - induction st; constructor; auto. split; [reflexivity|apply same_attr_refl].
Qed.
Lemma same_def_sym d : forall e, same_def d e -> same_def e d.
Proof.
  induction d as [i|c i subs st b IH] using mdef_rect'; intros e H; inversion H as [|? ? ? ? ? ? ? ? ? F G]; subst; constructor.
  - clear - IH F. revert subs' F. induction IH as [|x l Hx Hl IHl]; intros l' F; inversion F as [|? y ? ? [H1 H2] F']; subst; constructor; auto.
  - clear - G. induction G as [|x y l l' [H1 H2] G IH]; constructor; auto using same_attr_sym.
Qed.
Lemma same_def_trans d : forall e f, same_def d e -> same_def e f -> same_def d f.
Proof.
  induction d as [i|c i subs st b IH] using mdef_rect'; intros e f H H'; inversion H as [|? ? ? ? ? ? ? ? ? F G]; subst; [exact H'|].
  inversion H' as [|? ? ? ? ? ? ? ? ? F' G']; subst; constructor.
  - clear - IH F F'. rename subs'0 into k. revert subs' k F F'. induction IH as [|x l Hx Hl IHl]; intros l' k F F'; inversion F as [|? y ? ? [H1 H2] F1]; subst;
      inversion F' as [|? z ? ? [H3 H4] F3]; subst; constructor; [split; [congruence|eauto]|eauto].
  - clear - G G'. rename st'0 into k. revert k G'. induction G as [|x y l l' [H1 H2] G IH]; intros k G'; inversion G' as [|? z ? ? [H3 H4] G3]; subst;
      constructor; [split; [congruence|eapply same_attr_trans; eauto]|auto].
Qed.

Lemma se_refl a : same_entries a a.
Proof. intros n. destruct (a n); [apply same_attr_refl|exact Logic.I]. Qed.
Lemma se_sym a b : same_entries a b -> same_entries b a.
Proof. intros H n. specialize (H n). destruct (a n), (b n); auto. now apply same_attr_sym. Qed.
Lemma se_trans a b c : same_entries a b -> same_entries b c -> same_entries a c.
Proof. intros H H' n. specialize (H n). specialize (H' n). destruct (a n), (b n), (c n); try contradiction; auto. eapply same_attr_trans; eauto. Qed.

Theorem obj_eqb_spec a b : wf_obj a -> wf_obj b -> (obj_eqb a b = true <-> equal a b).
Proof.
  intros Wa Wb.
  assert (M : forall d e, NoDup (map fst d) /\ Forall (fun ka => wf_attr (snd ka)) d -> NoDup (map fst e) /\ Forall (fun ka => wf_attr (snd ka)) e ->
    (dict_attr_eqb d e = true <-> same_entries (fun k => dget k d) (fun k => dget k e))).
  { intros d e [H1 H2] [H3 H4]. now apply dict_attr_eqb_spec. }
  destruct a as [x|c|s|s|i|d], b as [y|c'|t|t|j|e]; cbn [obj_eqb wf_obj] in *;
    try (split; [discriminate|intros H; inversion H as [| |? ? ? ? E1 E2| |]; subst; discriminate]; fail).
  - rewrite pyval_eqb_eq. split; [now constructor|]. intros H. inversion H as [| |? ? ? ? E1 E2| |]; subst; [assumption|discriminate].
  - change (cont_eqb c c') with (attr_eqb (ACont c) (ACont c')). rewrite attr_eqb_spec by assumption. split; [now constructor|].
    intros H. inversion H as [| |? ? ? ? E1 E2| |]; subst; [assumption|discriminate].
  - rewrite M by assumption. split; [intros H; now apply (eq_map _ _ s t)|]. intros H. inversion H as [| |? ? ? ? E1 E2 E3| |]; subst. injection E1 as <-. now injection E2 as <-.
  - rewrite M by assumption. split; [intros H; now apply (eq_map _ _ s t)|]. intros H. inversion H as [| |? ? ? ? E1 E2 E3| |]; subst. injection E1 as <-. now injection E2 as <-.
  - rewrite M by assumption. split; [intros H; apply (eq_map _ _ s t); auto using se_sym|]. intros H. inversion H as [| |? ? ? ? E1 E2 E3| |]; subst. injection E1 as <-. injection E2 as <-. now apply se_sym.
  - rewrite M by assumption. split; [intros H; now apply (eq_map _ _ s t)|]. intros H. inversion H as [| |? ? ? ? E1 E2 E3| |]; subst. injection E1 as <-. now injection E2 as <-.
  - rewrite Nat.eqb_eq. split; [intros ->; constructor|]. intros H. inversion H as [| |? ? ? ? E1 E2| |]; subst; [discriminate|reflexivity].
  - rewrite mdef_eqb_same by assumption. split; [now constructor|]. intros H. inversion H as [| |? ? ? ? E1 E2| |]; subst; [discriminate|assumption].
Qed.
Lemma equal_refl a : equal a a.
Proof.
  destruct a as [x|c|s|s|i|d].
  - constructor. constructor.
  - constructor. apply same_attr_refl.
  - apply (eq_map _ _ s s); auto using se_refl.
  - apply (eq_map _ _ s s); auto using se_refl.
  - constructor.
  - constructor. apply same_def_refl.
Qed.
Lemma equal_sym a b : equal a b -> equal b a.
Proof.
  intros H. destruct H as [x y H|c d H|a b d e E1 E2 H|i|d e H].
  - constructor. now apply py_eq_sym.
  - constructor. now apply same_attr_sym.
  - apply (eq_map _ _ e d); auto using se_sym.
  - constructor.
  - constructor. now apply same_def_sym.
Qed.
Lemma equal_trans a b c : equal a b -> equal b c -> equal a c.
Proof.
  intros H H'. destruct H as [x y H|x y H|a b d e E1 E2 H|i|d e H].
  - inversion H' as [? z Q| |? ? ? ? E1| |]; subst; [|discriminate]. constructor. eapply py_eq_trans; eauto.
  - inversion H' as [|? z Q|? ? ? ? E1| |]; subst; [|discriminate]. constructor. eapply same_attr_trans; eauto.
  - inversion H' as [? z Q|? z Q|? ? d' e' E3 E4 Q|?|? z Q]; subst; try discriminate. rewrite E2 in E3. injection E3 as <-.
    apply (eq_map _ _ d e'); auto. eapply se_trans; eauto.
  - exact H'.
  - inversion H' as [| |? ? ? ? E1| |? z Q]; subst; [discriminate|]. constructor. eapply same_def_trans; eauto.
Qed.

(** ** hash *)
Section Hash.
Variables (h_none : nat) (h_num : Z -> nat) (h_str : string -> nat) (h_cls : cls -> nat) (h_obj : cls -> nat -> nat)
          (mix : list nat -> nat) (w : world).
Notation val_hash := (val_hash h_none h_num h_str h_obj mix w).
Notation cont_hash := (cont_hash h_none h_num h_str h_obj mix w).
Notation attr_hash := (attr_hash h_none h_num h_str h_obj mix w).
Notation def_hash := (def_hash h_none h_num h_str h_cls h_obj mix w).
Notation obj_hash := (obj_hash h_none h_num h_str h_cls h_obj mix w).

Lemma val_hash_tuple l : val_hash (PyTuple l) = rmap mix (rmapM val_hash l).
Proof. cbn [HashM.val_hash]. f_equal. induction l as [|x l IH]; [reflexivity|]. cbn [rmapM]. rewrite IH. reflexivity. Qed.
Definition subs_hash (l : list (string * mdef)) : result (list nat) := rmapM (fun nd => do h <- def_hash (snd nd); Ok (mix [h_str (fst nd); h])) l.
Lemma rmapM_cons {A B} (f : A -> result B) x l : rmapM f (x :: l) = do y <- f x; do ys <- rmapM f l; Ok (y :: ys).
Proof. reflexivity. Qed.
Lemma def_hash_MDef c i subs st b : def_hash (MDef c i subs st b) =
  do hs <- subs_hash subs; do ht <- rmapM (fun na => do h <- attr_hash (snd na); Ok (mix [h_str (fst na); h])) st;
  Ok (mix [h_cls c; mix hs; mix ht]).
Proof.
  cbn [HashM.def_hash]. match goal with |- rbind (?f subs) _ = _ => set (go := f) end.
  assert (E : forall l, go l = subs_hash l).
  { induction l as [|[n x] l IH]; [reflexivity|]. unfold subs_hash in *. rewrite rmapM_cons, <- IH. cbn [fst snd].
    change (go ((n, x) :: l)) with (do h <- def_hash x; do hs <- go l; Ok (mix [h_str n; h] :: hs)). destruct (def_hash x); reflexivity. }
  now rewrite E.
Qed.

Lemma val_hash_eq a : forall b, py_eq a b -> val_hash a = val_hash b.
Proof.
  intros b H. induction H as [v|a b z Ha Hb|l l' F IH] using py_eq_ind'; [reflexivity| |].
  - destruct Ha; inversion Hb; subst; reflexivity.
  - rewrite !val_hash_tuple. f_equal. clear F. induction IH as [|x y l l' H1 H2 IH]; [reflexivity|]. now rewrite !rmapM_cons, H1, IH.
Qed.
Lemma attr_hash_eq a b : attr_eqb a b = true -> attr_hash a = attr_hash b.
Proof.
  destruct a as [x|c], b as [y|d]; cbn; try discriminate; intros H.
  - apply val_hash_eq. now apply pyval_eqb_eq.
  - unfold cont_eqb in H. rewrite !andb_true_iff, cls_eqb_eq, pyval_eqb_eq in H. destruct H as [[H1 _] H2]. unfold HashM.cont_hash. rewrite H1.
    now rewrite (val_hash_eq _ _ H2).
Qed.
Lemma def_hash_eq d : forall e, mdef_eqb d e = true -> def_hash d = def_hash e.
Proof.
  induction d as [i|c i subs st b IH] using mdef_rect'; intros [j|c' i' subs' st' b'] H; try discriminate.
  - apply Nat.eqb_eq in H. now subst.
  - rewrite mdef_eqb_MDef, !andb_true_iff, cls_eqb_eq in H. destruct H as [[-> H1] H2]. rewrite !def_hash_MDef.
    assert (E1 : subs_hash subs = subs_hash subs').
    { clear H2. revert subs' H1. induction IH as [|[n d] l Hd Hl IHl]; intros [|[m e] l'] H1; cbn in H1; try discriminate; [reflexivity|].
      rewrite !andb_true_iff, String.eqb_eq in H1. destruct H1 as [[-> H1] H2]. unfold subs_hash in *. rewrite !rmapM_cons. cbn [fst snd] in *.
      rewrite (Hd _ H1), (IHl _ H2). reflexivity. }
    rewrite E1. assert (E2 : forall s s', statics_eqb s s' = true -> rmapM (fun na => do h <- attr_hash (snd na); Ok (mix [h_str (fst na); h])) s =
      rmapM (fun na => do h <- attr_hash (snd na); Ok (mix [h_str (fst na); h])) s').
    { clear. induction s as [|[n a] s IH]; intros [|[m b] s'] H; cbn in H; try discriminate; [reflexivity|].
      rewrite !andb_true_iff, String.eqb_eq in H. destruct H as [[-> H1] H2]. rewrite !rmapM_cons. cbn [fst snd]. rewrite (attr_hash_eq _ _ H1), (IH _ H2). reflexivity. }
    now rewrite (E2 _ _ H2).
Qed.
Theorem obj_hash_eq a b : obj_eqb a b = true -> obj_hash a = obj_hash b.
Proof.
  destruct a as [x|c|s|s|i|d], b as [y|c'|t|t|j|e]; cbn [obj_eqb HashM.obj_hash]; try discriminate; auto; intros H.
  - apply val_hash_eq. now apply pyval_eqb_eq.
  - exact (attr_hash_eq (ACont c) (ACont c') H).
  - apply Nat.eqb_eq in H. now subst.
  - now apply def_hash_eq.
Qed.

(** which objects have a hash *)
Definition hashes (r : result nat) (P : Prop) : Prop := (P -> exists h, r = Ok h) /\ (~ P -> r = Err TypeError) /\ (P \/ ~ P).
Lemma hashes_list {A} (f : A -> result nat) (P : A -> Prop) l : Forall (fun x => hashes (f x) (P x)) l ->
  (Forall P l -> exists hs, rmapM f l = Ok hs) /\ (~ Forall P l -> rmapM f l = Err TypeError) /\ (Forall P l \/ ~ Forall P l).
Proof.
  induction 1 as [|x l (H1 & H2 & H3) _ (I1 & I2 & I3)].
  - split; [intros _; exists []; reflexivity|]. split; [intros N; destruct N; constructor|left; constructor].
  - rewrite rmapM_cons. split; [|split].
    + intros F. inversion F as [|? ? Px Pl]; subst. destruct (H1 Px) as [h ->], (I1 Pl) as [hs ->]. cbn. eauto.
    + intros N. destruct H3 as [Px|NP]; [|now rewrite (H2 NP)]. destruct (H1 Px) as [h ->]. destruct I3 as [Pl|NL]; [destruct N; now constructor|].
      now rewrite (I2 NL).
    + destruct H3 as [Px|NP]; [|right; intros F; inversion F; contradiction]. destruct I3 as [Pl|NL]; [left; now constructor|right; intros F; inversion F; contradiction].
Qed.
Lemma val_hashes v : val_live w v -> hashes (val_hash v) (has_hash_val v).
Proof.
  induction v as [| b | z | s | l IH | r | c i] using pyval_ind'; intros L.
  - split; [cbn; eauto|]. split; [intros N; destruct N; constructor|left; constructor].
  - split; [cbn; eauto|]. split; [intros N; destruct N; constructor|left; constructor].
  - split; [cbn; eauto|]. split; [intros N; destruct N; constructor|left; constructor].
  - split; [cbn; eauto|]. split; [intros N; destruct N; constructor|left; constructor].
  - assert (F : Forall (fun x => hashes (val_hash x) (has_hash_val x)) l).
    { cbn in L. revert L. induction IH as [|x l Hx Hl IHl]; intros L; [constructor|]. cbn in L. destruct L. constructor; auto. }
    destruct (hashes_list val_hash has_hash_val l F) as (I1 & I2 & I3). rewrite val_hash_tuple. split; [|split].
    + intros H. inversion H as [| | | | | |? Fl]; subst. destruct (I1 Fl) as [hs ->]. cbn. eauto.
    + intros N. rewrite I2; [reflexivity|]. intros Fl. apply N. now constructor.
    + destruct I3 as [Fl|N]; [left; now constructor|right; intros H; inversion H; contradiction].
  - cbn in L. apply nth_error_Some in L. cbn [HashM.val_hash]. unfold get_obj. destruct (nth_error (w_heap w) r) as [o|]; [|contradiction].
    split; [eauto|]. split; [intros N; destruct N; constructor|left; constructor].
  - cbn [HashM.val_hash]. destruct (existsb (fun n => smem n c) no_hash_classes) eqn:E.
    + apply existsb_exists in E as (n & I & S). apply smem_In in S.
      assert (N : ~ has_hash_val (PyObj c i)) by (intros H; inversion H as [| | | | |? ? Q|]; subst; exact (Q n I S)).
      split; [contradiction|]. split; [reflexivity|now right].
    + assert (P : has_hash_val (PyObj c i)).
      { constructor. intros n I S. assert (X : existsb (fun n => smem n c) no_hash_classes = true) by (apply existsb_exists; exists n; split; [exact I|now apply smem_In]). congruence. }
      split; [eauto|]. split; [contradiction|now left].
Qed.
Lemma attr_hashes a : attr_live w a -> hashes (attr_hash a) (attr_has_hash a).
Proof.
  destruct a as [v|c]; intros L; [now apply val_hashes|]. cbn [HashM.attr_hash attr_has_hash]. unfold HashM.cont_hash. cbn in L.
  destruct (val_hashes (c_val c) L) as (H1 & H2 & H3). destruct (smem "Static" (c_cls c)) eqn:S.
  - apply smem_In in S. split; [intros [_ P]; auto|]. split; [intros N; apply H2; tauto|tauto].
  - assert (N : ~ In "Static" (c_cls c)) by (intros I; apply smem_In in I; congruence). split; [tauto|]. split; [reflexivity|tauto].
Qed.
Lemma hashes_map (r : result nat) (f : nat -> nat) P : hashes r P -> hashes (do h <- r; Ok (f h)) P.
Proof.
  intros (H1 & H2 & H3). split; [|split; [|exact H3]].
  - intros p. destruct (H1 p) as [h ->]. cbn. eauto.
  - intros n. now rewrite (H2 n).
Qed.
Lemma def_hashes d : def_live w d -> hashes (def_hash d) (def_has_hash d).
Proof.
  induction d as [i|c i subs st b IH] using mdef_rect'; intros L.
  - split; [cbn; eauto|]. split; [intros N; destruct N; constructor|left; constructor].
  - inversion L as [|? ? ? ? ? L1 L2]; subst. rewrite def_hash_MDef.
    assert (F1 : Forall (fun x => hashes (do h <- def_hash (snd x); Ok (mix [h_str (fst x); h])) (def_has_hash (snd x))) subs).
    { clear - IH L1. induction IH as [|x l Hx Hl IHl]; constructor; inversion L1; subst; auto. apply (hashes_map _ (fun h => mix [h_str (fst x); h])); auto. }
    assert (F2 : Forall (fun x => hashes (do h <- attr_hash (snd x); Ok (mix [h_str (fst x); h])) (attr_has_hash (snd x))) st).
    { clear - L2. induction L2 as [|x l Hx Hl IHl]; constructor; auto. apply (hashes_map _ (fun h => mix [h_str (fst x); h])). now apply attr_hashes. }
    destruct (hashes_list _ (fun x => def_has_hash (snd x)) subs F1) as (A1 & A2 & A3). destruct (hashes_list _ (fun x => attr_has_hash (snd x)) st F2) as (B1 & B2 & B3).
    fold (subs_hash subs) in *. split; [|split].
    + intros H. inversion H as [|? ? ? ? ? H1 H2]; subst. destruct (A1 H1) as [hs ->], (B1 H2) as [ht ->]. cbn. eauto.
    + intros N. destruct A3 as [P|NP]; [|now rewrite (A2 NP)]. destruct (A1 P) as [hs ->]. cbn [rbind]. rewrite B2; [reflexivity|]. intros Q. apply N. now constructor.
    + destruct A3 as [P|NP]; [|right; intros H; inversion H; contradiction]. destruct B3 as [Q|NQ]; [left; now constructor|right; intros H; inversion H; contradiction].
Qed.
Theorem obj_hashes a : obj_live w a -> hashes (obj_hash a) (has_hash_obj a).
Proof.
  destruct a as [x|c|s|s|i|d]; cbn [obj_live HashM.obj_hash has_hash_obj]; intros L.
  - now apply val_hashes.
  - exact (attr_hashes (ACont c) L).
  - split; [tauto|]. split; [reflexivity|tauto].
  - split; [tauto|]. split; [reflexivity|tauto].
  - split; [eauto|]. split; [tauto|tauto].
  - now apply def_hashes.
Qed.

(** ** dicts keyed by objects *)
Section Table.
Context {V : Type}.
Notation table_get := (table_get h_none h_num h_str h_cls h_obj mix w).
Notation table_set := (table_set h_none h_num h_str h_cls h_obj mix w).
Definition wf_table (t : table V) : Prop := Forall (fun e => wf_obj (snd (fst e))) t.
Lemma hits_true h k (e : nat * obj * V) : wf_obj k -> wf_obj (snd (fst e)) -> (hits h k e = true <-> fst (fst e) = h /\ equal (snd (fst e)) k).
Proof. intros W1 W2. unfold hits. now rewrite andb_true_iff, Nat.eqb_eq, obj_eqb_spec. Qed.
Lemma put_found t h k k' v : wf_table t -> wf_obj k -> wf_obj k' -> equal k k' -> option_map snd (find (hits h k') (put t h k v)) = Some v.
Proof.
  intros W Wk Wk' E. induction W as [|[[h0 k0] v0] t We W IH]; cbn [put].
  - cbn [find]. rewrite (proj2 (hits_true h k' (h, k, v) Wk' Wk)); [reflexivity|]. split; [reflexivity|exact E].
  - destruct (hits h k (h0, k0, v0)) eqn:H; cbn [find fst].
    + apply (hits_true h k _ Wk We) in H. cbn in H. destruct H as [-> H].
      rewrite (proj2 (hits_true h k' (h, k0, v) Wk' We)); [reflexivity|]. split; [reflexivity|]. eapply equal_trans; eauto.
    + destruct (hits h k' (h0, k0, v0)) eqn:H'; [|exact IH]. apply (hits_true h k' _ Wk' We) in H'. cbn in H'. destruct H' as [-> H'].
      rewrite (proj2 (hits_true h k (h, k0, v0) Wk We)) in H; [discriminate|]. split; [reflexivity|]. eapply equal_trans; [exact H'|now apply equal_sym].
Qed.
Lemma put_other t h k h' k' v : wf_table t -> wf_obj k -> wf_obj k' -> ~ equal k k' ->
  option_map snd (find (hits h' k') (put t h k v)) = option_map snd (find (hits h' k') t).
Proof.
  intros W Wk Wk' N. induction W as [|[[h0 k0] v0] t We W IH]; cbn [put].
  - cbn [find]. destruct (hits h' k' (h, k, v)) eqn:H; [|reflexivity]. apply (hits_true h' k' (h, k, v) Wk' Wk) in H. cbn in H. tauto.
  - destruct (hits h k (h0, k0, v0)) eqn:H; cbn [find fst]; [|destruct (hits h' k' (h0, k0, v0)); [reflexivity|exact IH]].
    assert (F : forall v1 : V, hits h' k' (h0, k0, v1) = false).
    { intros v1. destruct (hits h' k' (h0, k0, v1)) eqn:H'; [|reflexivity]. apply (hits_true h' k' _ Wk' We) in H'. apply (hits_true h k _ Wk We) in H. cbn in *.
      destruct N. eapply equal_trans; [apply equal_sym; apply H|apply H']. }
    now rewrite !F.
Qed.
Lemma put_wf t h k v : wf_table t -> wf_obj k -> wf_table (put t h k v).
Proof. intros W Wk. induction W as [|[[h0 k0] v0] t We W IH]; cbn [put]; [repeat constructor; exact Wk|]. destruct (hits h k (h0, k0, v0)); constructor; auto. Qed.
Theorem table_laws t k v t' : wf_table t -> wf_obj k -> table_set t k v = Ok t' ->
  wf_table t' /\ (forall k', wf_obj k' -> equal k k' -> table_get t' k' = Ok (Some v)) /\
  (forall k', wf_obj k' -> ~ equal k k' -> table_get t' k' = table_get t k').
Proof.
  intros W Wk E. unfold HashM.table_set in E. destruct (obj_hash k) as [h|] eqn:H; [|discriminate]. cbn [rbind] in E. injection E as <-.
  split; [now apply put_wf|]. split.
  - intros k' Wk' Q. unfold HashM.table_get. rewrite <- (obj_hash_eq k k') by now apply obj_eqb_spec. rewrite H. cbn [rbind]. f_equal. now apply put_found.
  - intros k' Wk' N. unfold HashM.table_get. destruct (obj_hash k') as [h'|]; [|reflexivity]. cbn [rbind]. f_equal. now apply put_other.
Qed.
End Table.
End Hash.
