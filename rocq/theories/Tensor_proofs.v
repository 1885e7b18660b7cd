From Coq Require Import ZArith QArith Qcanon Permutation Lia.
From Verif Require Import PyBase TensorM.
Local Open Scope nat_scope.
Local Open Scope list_scope.

Lemma in_range_length shape idx : in_range shape idx -> List.length idx = List.length shape.
Proof. unfold in_range. induction 1; cbn; congruence. Qed.

Lemma in_all_idx shape : forall idx, In idx (all_idx shape) <-> in_range shape idx.
Proof.
  induction shape as [|n s IH]; intros idx; cbn [all_idx]; split.
  - intros [<-|[]]. constructor.
  - intros H. inversion H. now left.
  - intros H. apply in_flat_map in H. destruct H as (i & Hi & H). apply in_map_iff in H.
    destruct H as (t & <- & Ht). apply in_seq in Hi. constructor; [lia|]. now apply IH.
  - intros H. inversion H as [|i n' t s' Hlt Ht]; subst. apply in_flat_map. exists i. split; [apply in_seq; lia|].
    apply in_map. now apply IH.
Qed.
Lemma nodup_app {A} (l l' : list A) : NoDup l -> NoDup l' -> (forall x, In x l -> ~ In x l') -> NoDup (l ++ l').
Proof.
  induction l as [|a l IH]; cbn; intros Hl Hl' Hd; auto. inversion Hl; subst. constructor.
  - intros H. apply in_app_or in H. destruct H; [contradiction|]. apply (Hd a); auto.
  - apply IH; auto.
Qed.
Lemma nodup_flat_map {A B} (f : A -> list B) l :
  NoDup l -> (forall a, In a l -> NoDup (f a)) -> (forall a b x, In a l -> In b l -> In x (f a) -> In x (f b) -> a = b) ->
  NoDup (flat_map f l).
Proof.
  induction l as [|a l IH]; cbn; intros Hl Hf Hd; [constructor|]. inversion Hl as [|? ? Hn Hl']; subst. apply nodup_app.
  - apply Hf; auto.
  - apply IH; auto. intros; eapply Hd; eauto.
  - intros x Hx H. apply in_flat_map in H. destruct H as (b & Hb & H).
    assert (a = b) by (eapply Hd; eauto). subst. contradiction.
Qed.
Lemma nodup_all_idx shape : NoDup (all_idx shape).
Proof.
  induction shape as [|n s IH]; cbn [all_idx]; [constructor; [intros []|constructor]|].
  apply nodup_flat_map.
  - apply seq_NoDup.
  - intros a _. apply FinFun.Injective_map_NoDup; [|exact IH]. intros x y H. congruence.
  - intros a b x _ _ Ha Hb. apply in_map_iff in Ha. apply in_map_iff in Hb.
    destruct Ha as (? & <- & _), Hb as (? & E & _). congruence.
Qed.
Lemma length_all_idx shape : List.length (all_idx shape) = prod shape.
Proof.
  induction shape as [|n s IH]; cbn [all_idx prod fold_right]; auto.
  assert (H : forall l, List.length (flat_map (fun i : nat => map (cons i) (all_idx s)) l) = List.length l * prod s).
  { induction l as [|a l IHl]; cbn; auto. now rewrite app_length, map_length, IH, IHl. }
  rewrite H, seq_length. reflexivity.
Qed.

(** ** row-major positions *)
Lemma flat_pos_lt shape : forall idx, in_range shape idx -> flat_pos shape idx < prod shape.
Proof.
  induction shape as [|n s IH]; intros idx H; inversion H as [|i ? t ? Hi Ht]; subst; cbn [flat_pos prod fold_right]; [lia|].
  apply IH in Ht. fold (prod s) in *. nia.
Qed.
Lemma unflat_flat shape : forall idx, in_range shape idx -> unflat shape (flat_pos shape idx) = idx.
Proof.
  induction shape as [|n s IH]; intros idx H; inversion H as [|i ? t ? Hi Ht]; subst; cbn [flat_pos unflat]; auto.
  pose proof (flat_pos_lt _ _ Ht) as Hlt.
  assert (E1 : (i * prod s + flat_pos s t) / prod s = i).
  { rewrite Nat.div_add_l by lia. rewrite Nat.div_small by exact Hlt. lia. }
  assert (E2 : (i * prod s + flat_pos s t) mod prod s = flat_pos s t).
  { rewrite Nat.add_comm, Nat.mod_add by lia. now apply Nat.mod_small. }
  rewrite E1, E2, IH by exact Ht. reflexivity.
Qed.
Lemma prod_app a b : prod (a ++ b) = prod a * prod b.
Proof. unfold prod. induction a as [|n a IH]; cbn [app fold_right]; [lia|]. rewrite IH. ring. Qed.
Lemma flat_pos_app : forall a b i j, List.length i = List.length a ->
  flat_pos (a ++ b) (i ++ j) = flat_pos a i * prod b + flat_pos b j.
Proof.
  induction a as [|n a IH]; intros b [|x i] j H; try discriminate; cbn [app flat_pos]; [lia|].
  rewrite IH by (cbn in H; lia). rewrite prod_app. ring.
Qed.
Lemma unflat_range shape : forall p, p < prod shape -> in_range shape (unflat shape p).
Proof.
  induction shape as [|n s IH]; intros p Hp; cbn [unflat]; [constructor|]. cbn [prod fold_right] in Hp. fold (prod s) in Hp.
  assert (prod s <> 0) by (intros E; rewrite E in Hp; lia).
  constructor.
  - apply Nat.div_lt_upper_bound; auto. lia.
  - apply IH. now apply Nat.mod_upper_bound.
Qed.
Lemma flat_unflat shape : forall p, p < prod shape -> flat_pos shape (unflat shape p) = p.
Proof.
  induction shape as [|n s IH]; intros p Hp; cbn [unflat flat_pos]; [cbn in Hp; lia|]. cbn [prod fold_right] in Hp. fold (prod s) in Hp.
  assert (Hz : prod s <> 0) by (intros E; rewrite E in Hp; lia).
  rewrite IH by now apply Nat.mod_upper_bound. pose proof (Nat.div_mod p (prod s) Hz). lia.
Qed.

(** ** sums *)
Lemma qsum_app a b : (qsum (a ++ b) = qsum a + qsum b)%Qc.
Proof. induction a as [|x a IH]; cbn; [ring|]. rewrite IH. ring. Qed.
Lemma qsum_perm a b : Permutation a b -> qsum a = qsum b.
Proof. induction 1; cbn; try congruence; ring. Qed.
Lemma qsum_ext {A} (f g : A -> Qc) l : (forall x, In x l -> f x = g x) -> qsum (map f l) = qsum (map g l).
Proof. intros H. f_equal. apply map_ext_in. exact H. Qed.
Lemma qsum_add {A} (f g : A -> Qc) l : (qsum (map (fun x => f x + g x) l) = qsum (map f l) + qsum (map g l))%Qc.
Proof. induction l as [|x l IH]; cbn; [ring|]. rewrite IH. ring. Qed.
Lemma qsum_scale {A} c (f : A -> Qc) l : (qsum (map (fun x => c * f x) l) = c * qsum (map f l))%Qc.
Proof. induction l as [|x l IH]; cbn; [ring|]. rewrite IH. ring. Qed.
Lemma qsum_zero {A} (f : A -> Qc) l : (forall x, In x l -> f x = 0%Qc) -> qsum (map f l) = 0%Qc.
Proof. induction l as [|x l IH]; cbn; intros H; auto. rewrite H, IH by auto. ring. Qed.
Lemma qnat_S n : qnat (S n) = (1 + qnat n)%Qc.
Proof.
  unfold qnat. rewrite Nat2Z.inj_succ, <- Z.add_1_l, inject_Z_plus. apply Qc_is_canon.
  unfold Qcplus, Q2Qc, this. rewrite !Qred_correct. reflexivity.
Qed.
Lemma qnat_0 : qnat 0 = 0%Qc.
Proof. reflexivity. Qed.
Lemma qsum_const {A} c (l : list A) : (qsum (map (fun _ => c) l) = c * qnat (List.length l))%Qc.
Proof. induction l as [|x l IH]; cbn [map qsum List.length]; [rewrite qnat_0; ring|]. rewrite IH, qnat_S. ring. Qed.
Lemma qnat_nonneg n : (0 <= qnat n)%Qc.
Proof.
  induction n as [|n IH]; [apply Qcle_refl|]. rewrite qnat_S. replace 0%Qc with (0 + 0)%Qc by ring.
  apply Qcplus_le_compat; [|exact IH]. discriminate.
Qed.
Lemma qnat_pos n : n <> 0 -> (0 < qnat n)%Qc.
Proof.
  destruct n as [|n]; [congruence|]. intros _. rewrite qnat_S. apply Qclt_le_trans with 1%Qc; [reflexivity|].
  replace 1%Qc with (1 + 0)%Qc at 1 by ring. apply Qcplus_le_compat; [apply Qcle_refl|apply qnat_nonneg].
Qed.
Lemma qnat_neq n : n <> 0 -> qnat n <> 0%Qc.
Proof. intros H E. apply (Qclt_not_eq _ _ (qnat_pos n H)). congruence. Qed.
Lemma qsum_nonneg l : (forall x, In x l -> 0 <= x)%Qc -> (0 <= qsum l)%Qc.
Proof.
  induction l as [|x l IH]; cbn; intros H; [apply Qcle_refl|]. replace 0%Qc with (0 + 0)%Qc by ring.
  apply Qcplus_le_compat; auto.
Qed.
Lemma Qc_sq_nonneg (x : Qc) : (0 <= x * x)%Qc.
Proof.
  destruct (Qclt_le_dec x 0) as [H|H].
  - assert (H' : (0 <= - x)%Qc) by (apply Qclt_le_weak in H; apply Qcopp_le_compat in H; exact H).
    replace (x * x)%Qc with ((- x) * (- x))%Qc by ring. replace 0%Qc with (0 * (- x))%Qc by ring.
    now apply Qcmult_le_compat_r.
  - replace 0%Qc with (0 * x)%Qc by ring. now apply Qcmult_le_compat_r.
Qed.
Lemma Qc_div_nonneg a b : (0 <= a -> 0 < b -> 0 <= a / b)%Qc.
Proof.
  intros Ha Hb. unfold Qcdiv. replace 0%Qc with (0 * / b)%Qc by ring. apply Qcmult_le_compat_r; auto.
  destruct (Qclt_le_dec (/ b)%Qc 0) as [H|H]; auto. exfalso.
  assert (Hn : b <> 0%Qc) by (intros E; rewrite E in Hb; discriminate).
  assert (E : (b * / b = 1)%Qc) by (apply Qcmult_inv_r; exact Hn).
  assert (b * / b <= 0)%Qc.
  { replace 0%Qc with (0 * b)%Qc by ring. rewrite (Qcmult_comm b). apply Qcmult_le_compat_r; apply Qclt_le_weak; assumption. }
  rewrite E in H0. apply Qcle_not_lt in H0. apply H0. reflexivity.
Qed.
Lemma average_nonneg l : l <> [] -> (forall x, In x l -> 0 <= x)%Qc -> (0 <= average l)%Qc.
Proof.
  intros Hn H. apply Qc_div_nonneg; [now apply qsum_nonneg|]. apply qnat_pos. destruct l; [congruence|discriminate].
Qed.
