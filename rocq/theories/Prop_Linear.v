(** Properties C63 (Linear and Embed) and C64 (constructors of the layers). *)
From Coq Require Import ZArith QArith Qcanon Lia.
From Verif Require Import PyBase PyBaseFacts ModuleM ContextM TensorM NnM LinearM Spec_Nn Spec_Conv Spec_Linear Tensor_proofs Norm_proofs Conv_proofs ConvValue_proofs.
Local Open Scope string_scope.
Local Open Scope nat_scope.
Local Open Scope list_scope.

(** ** C63 *)
Lemma snoc_not_nil {A} (l : list A) a : l ++ [a] <> [].
Proof. destruct l; discriminate. Qed.

(** The last axis goes through the affine map; the other axes are batch axes. *)
Theorem C63_linear i o l x bs :
  linear_wf i o l -> t_shape x = bs ++ [i] ->
  exists y, linear_call l x = Ok y /\ t_shape y = bs ++ [o] /\
    forall b f, in_range bs b -> f < o ->
      t_at y (b ++ [f]) = affine i (fun j => t_at x (b ++ [j])) (fun j f => t_at (l_kernel l) [j; f]) (l_bias l) f.
Proof.
  intros (Hk & Hb) Hs. unfold linear_call. rewrite Hk, Hs.
  destruct (bs ++ [i]) as [|n0 s0] eqn:E0; [now apply snoc_not_nil in E0|]. rewrite <- E0.
  rewrite last_last, Nat.eqb_refl, removelast_last. unfold add_bias. cbn [t_shape t_at].
  destruct (l_bias l) as [bt|].
  - rewrite (Hb bt eq_refl), last_last, Nat.eqb_refl. eexists. split; [reflexivity|]. split; [reflexivity|].
    intros b f _ _. cbn [t_at]. rewrite removelast_last, last_last. reflexivity.
  - eexists. split; [reflexivity|]. split; [reflexivity|]. intros b f _ _. cbn [t_at]. rewrite removelast_last, last_last. unfold affine. ring.
Qed.
(** A wrong number of features is a TypeError. *)
Theorem C63_features i o l x : linear_wf i o l -> last (t_shape x) 0 <> i -> linear_call l x = Err TypeError.
Proof.
  intros (Hk & _) Hn. unfold linear_call. rewrite Hk. destruct (t_shape x) as [|n s]; [reflexivity|].
  destruct (Nat.eqb_spec (last (n :: s) 0) i); [congruence|reflexivity].
Qed.
(** A bias of another size is a TypeError. *)
Theorem C63_bias i o l x bs n t :
  t_shape (l_kernel l) = [i; o] -> l_bias l = Some t -> t_shape t = [n] -> t_shape x = bs ++ [i] ->
  n <> o -> n <> 1 -> o <> 1 -> linear_call l x = Err TypeError.
Proof.
  intros Hk Hb Ht Hs N1 N2 N3. unfold linear_call. rewrite Hk, Hs.
  destruct (bs ++ [i]) as [|n0 s0] eqn:E0; [now apply snoc_not_nil in E0|]. rewrite <- E0.
  rewrite last_last, Nat.eqb_refl, removelast_last. unfold add_bias. rewrite Hb, Ht. cbn [t_shape]. rewrite last_last.
  apply Nat.eqb_neq in N1, N2, N3. now rewrite N1, N2, N3.
Qed.
(** One row never influences another. *)
Theorem C63_rows i o l x x' bs y y' b f :
  linear_wf i o l -> t_shape x = bs ++ [i] -> t_shape x' = bs ++ [i] -> linear_call l x = Ok y -> linear_call l x' = Ok y' ->
  in_range bs b -> f < o -> (forall j, j < i -> t_at x (b ++ [j]) = t_at x' (b ++ [j])) -> t_at y (b ++ [f]) = t_at y' (b ++ [f]).
Proof.
  intros Hw Hs Hs' Hy Hy' Hb Hf Hag.
  destruct (C63_linear i o l x bs Hw Hs) as (z & E & _ & H). rewrite E in Hy. injection Hy as ->.
  destruct (C63_linear i o l x' bs Hw Hs') as (z & E' & _ & H'). rewrite E' in Hy'. injection Hy' as ->.
  rewrite H, H' by assumption. unfold affine. f_equal. apply qsum_ext. intros j Hj. apply in_seq in Hj. rewrite Hag by lia. reflexivity.
Qed.

(** A convolution with kernel size 1 is a Linear. *)
Lemma all_idx_ones r : all_idx (repeat 1 r) = [repeat 0 r].
Proof. induction r; cbn [repeat all_idx seq]; auto. rewrite IHr. reflexivity. Qed.
Lemma valid_sizes : forall sp ds, List.length ds = List.length sp ->
  padded_sizes sp (repeat 1 (List.length sp)) ds (repeat 1 (List.length sp)) (repeat (0, 0)%Z (List.length sp)) = sp.
Proof.
  induction sp as [|n sp IH]; intros [|d ds] Hd; try discriminate; cbn [List.length repeat padded_sizes]; auto.
  rewrite IH by (cbn in Hd; lia). f_equal. unfold padded_size, span. cbn [Nat.sub Nat.mul Nat.add fst snd].
  rewrite Z.div_1_r. destruct (Z.ltb_spec (Z.of_nat n + 0 + 0 - Z.of_nat 1) 0); lia.
Qed.
Lemma valid_read : forall sp ds o, List.length ds = List.length sp -> in_range sp o ->
  padded_read sp ds (repeat 1 (List.length sp)) (repeat (0, 0)%Z (List.length sp)) o (repeat 0 (List.length sp)) = Some o.
Proof.
  induction sp as [|n sp IH]; intros [|d ds] o Hd Ho; try discriminate; inversion Ho as [|i ? o' ? Hi Ho']; subst; cbn [List.length repeat padded_read]; auto.
  cbn [fst Nat.mul]. rewrite Nat.add_0_r, Nat.mul_1_r, Z.sub_0_r.
  destruct (Z.ltb_spec (Z.of_nat i) 0); [lia|]. destruct (Z.leb_spec (Z.of_nat n) (Z.of_nat i)); [lia|].
  rewrite IH by (auto; cbn in Hd; lia). now rewrite Nat2Z.id.
Qed.
Theorem C63_conv_one l c i o ds x bs sp :
  linear_wf i o l -> conv_shape c (repeat 1 (List.length sp)) (repeat 1 (List.length sp)) ds i o -> cv_groups c = 1 ->
  cv_padding c = PStr "VALID" -> cv_bias c = l_bias l ->
  (forall j f, j < i -> f < o -> t_at (kernel_of c) (repeat 0 (List.length sp) ++ [j; f]) = t_at (l_kernel l) [j; f]) ->
  t_shape x = bs ++ sp ++ [i] ->
  exists y y', conv_call c x = Ok y /\ linear_call l x = Ok y' /\ teq y y'.
Proof.
  intros Hw Hc Hg Hpad Hbias Hk Hs. pose proof (cs_len_d _ _ _ _ _ _ Hc) as Hd. rewrite repeat_length in Hd.
  destruct (padded_call c _ _ _ _ _ x bs sp (repeat (0, 0)%Z (List.length sp)) Hc Hs) as (y & E & Hys & Hy).
  { now rewrite repeat_length. } { rewrite Hpad. constructor. }
  rewrite valid_sizes in Hys, Hy by assumption.
  destruct (C63_linear i o l x (bs ++ sp) Hw) as (y' & E' & Hys' & Hy'); [now rewrite <- app_assoc|].
  exists y, y'. split; [exact E|]. split; [exact E'|]. split; [now rewrite Hys, Hys', <- app_assoc|].
  intros idx Hidx. rewrite Hys, app_assoc in Hidx. apply Forall2_app_inv_r in Hidx. destruct Hidx as (bo & fl & Hbo & Hfl & ->).
  inversion Hfl as [|f ? fl' ? Hf Hfl']; subst. inversion Hfl'; subst.
  apply Forall2_app_inv_r in Hbo. destruct Hbo as (b & o' & Hb & Ho & ->).
  rewrite Hy' by (auto; apply Forall2_app; auto). rewrite <- app_assoc, Hy by assumption.
  unfold conv_value, affine. rewrite (cs_ks _ _ _ _ _ _ Hc), all_idx_ones, Hg, Hbias. cbn [map qsum]. rewrite valid_read by assumption.
  rewrite !Nat.div_1_r, (Nat.div_small f o) by assumption. cbn [Nat.mul Nat.add]. rewrite Qcplus_0_r. f_equal.
  apply qsum_ext. intros j Hj. apply in_seq in Hj. rewrite Hk by (auto; lia). now rewrite <- app_assoc.
Qed.

(** Embed: row number id, for ids in range (negative ones count from the end); any
    shape of ids. *)
Theorem C63_embed emb n f shape ids :
  t_shape emb = [n; f] -> exists y, embed_call emb true shape ids = Ok y /\ t_shape y = shape ++ [f] /\
    forall idx j r, (ids idx = Z.of_nat r \/ ids idx = Z.of_nat r - Z.of_nat n)%Z -> r < n -> t_at y (idx ++ [j]) = t_at emb [r; j].
Proof.
  intros Hs. unfold embed_call. rewrite Hs. cbn [negb]. eexists. split; [reflexivity|]. split; [reflexivity|].
  intros idx j r Hr Hn. cbn [t_at]. rewrite removelast_last, last_last. unfold take_row, py_index.
  assert (E : (if ids idx <? 0 then Z.of_nat n + ids idx else ids idx)%Z = Z.of_nat r) by (destruct (Z.ltb_spec (ids idx) 0); lia).
  rewrite E. replace ((0 <=? Z.of_nat r) && (Z.of_nat r <? Z.of_nat n))%Z%bool with true; [now rewrite Nat2Z.id|].
  symmetry. apply andb_true_intro. split; [apply Z.leb_le|apply Z.ltb_lt]; lia.
Qed.
Theorem C63_embed_type emb shape ids : embed_call emb false shape ids = Err ValueError.
Proof. reflexivity. Qed.

(** An embedding is the linear layer of the one-hot encoding. *)
Lemma qsum_one_hot n r (g : nat -> Qc) : r < n -> (qsum (map (fun j => (if Nat.eqb r j then 1 else 0) * g j) (seq 0 n)) = g r)%Qc.
Proof.
  assert (H : forall m a, (qsum (map (fun j => (if Nat.eqb r j then 1 else 0) * g j) (seq a m)) = if Nat.leb a r && Nat.ltb r (a + m) then g r else 0)%Qc).
  { induction m as [|m IH]; intros a; cbn [seq map qsum].
    - destruct (Nat.leb_spec a r), (Nat.ltb_spec r (a + 0)); auto; lia.
    - rewrite IH. destruct (Nat.eqb_spec r a).
      + subst. replace (S a <=? a) with false by (symmetry; apply Nat.leb_gt; lia). cbn [andb].
        replace ((a <=? a) && (a <? a + S m)) with true by (symmetry; apply andb_true_intro; split; [apply Nat.leb_le|apply Nat.ltb_lt]; lia). ring.
      + replace ((a <=? r) && (r <? a + S m)) with ((S a <=? r) && (r <? S a + m)); [ring|].
        apply eq_true_iff_eq. rewrite !andb_true_iff, !Nat.leb_le, !Nat.ltb_lt. lia. }
  intros Hr. rewrite H. cbn [Nat.leb andb Nat.add]. replace (r <? n) with true; auto. symmetry. now apply Nat.ltb_lt.
Qed.
Theorem C63_embed_one_hot emb n f shape ids :
  t_shape emb = [n; f] -> (forall idx, in_range shape idx -> ids idx < n) ->
  exists y y', embed_call emb true shape (fun idx => Z.of_nat (ids idx)) = Ok y /\
    linear_call (mkLinear emb None) (one_hot n shape ids) = Ok y' /\ teq y y'.
Proof.
  intros Hs Hi. destruct (C63_embed emb n f shape (fun idx => Z.of_nat (ids idx)) Hs) as (y & E & Hys & Hy).
  destruct (C63_linear n f (mkLinear emb None) (one_hot n shape ids) shape) as (y' & E' & Hys' & Hy'); [split; [exact Hs|intros; discriminate]|reflexivity|].
  exists y, y'. split; auto. split; auto. split; [congruence|]. intros idx Hidx. rewrite Hys in Hidx.
  apply Forall2_app_inv_r in Hidx. destruct Hidx as (b & fl & Hb & Hfl & ->). inversion Hfl as [|j ? fl' ? Hj Hfl']; subst. inversion Hfl'; subst.
  rewrite (Hy b j (ids b)) by auto. rewrite Hy' by assumption. unfold affine, one_hot. cbn [t_at l_kernel l_bias].
  rewrite <- (qsum_one_hot n (ids b) (fun r => t_at emb [r; j])) at 1 by auto. rewrite Qcplus_0_r.
  apply qsum_ext. intros k _. rewrite removelast_last, last_last. reflexivity.
Qed.
(** attend: inner products with every row *)
Theorem C63_attend emb n f q bs :
  t_shape emb = [n; f] -> t_shape q = bs ++ [f] -> exists y, attend emb q = Ok y /\ t_shape y = bs ++ [n] /\
    forall b r, t_at y (b ++ [r]) = qsum (map (fun j => t_at q (b ++ [j]) * t_at emb [r; j])%Qc (seq 0 f)).
Proof.
  intros Hs Hq. unfold attend. rewrite Hs, Hq. destruct (bs ++ [f]) as [|n0 s0] eqn:E0; [now apply snoc_not_nil in E0|]. rewrite <- E0.
  rewrite last_last, Nat.eqb_refl, removelast_last. eexists. split; [reflexivity|]. split; [reflexivity|].
  intros b r. cbn [t_at]. now rewrite removelast_last, last_last.
Qed.

(** A query with another number of features is refused. *)
Theorem C63_attend_mismatch emb n f q bs k :
  t_shape emb = [n; f] -> t_shape q = bs ++ [k] -> k <> f -> attend emb q = Err TypeError.
Proof.
  intros Hs Hq N. unfold attend. rewrite Hs, Hq. destruct (bs ++ [k]) as [|n0 s0] eqn:E0; [now apply snoc_not_nil in E0|]. rewrite <- E0.
  rewrite last_last. destruct (Nat.eqb_spec k f); [contradiction|reflexivity].
Qed.

Definition ex_lin : linear := mkLinear (mkT [2; 3] (fun i => qnat (nth 0 i 0 + 2 * nth 1 i 0))) (Some (mkT [3] (fun i => qnat (nth 0 i 0)))).
Example C63_example :
  linear_wf 2 3 ex_lin /\
  (exists y, linear_call ex_lin (mkT [2; 2] (fun i => qnat (1 + nth 0 i 0 + 2 * nth 1 i 0))) = Ok y /\
    map (fun i => this (t_at y i)) (all_idx [2; 3]) = [3; 12; 21; 4; 17; 30]%Q) /\
  (exists y, embed_call (l_kernel ex_lin) true [2] (fun i => if Nat.eqb (nth 0 i 0) 0 then (-1)%Z else 0%Z) = Ok y /\
    map (fun i => this (t_at y i)) (all_idx [2; 3]) = [1; 3; 5; 0; 2; 4]%Q).
Proof.
  split; [split; [reflexivity|intros b E; injection E as <-; reflexivity]|].
  split; eexists; (split; [reflexivity|]); vm_compute; reflexivity.
Qed.
Definition ex_conv1 : conv := mkConv (mkT [1; 2; 3] (fun i => qnat (nth 1 i 0 + 2 * nth 2 i 0))) (l_bias ex_lin) 2 [1] DNone (PStr "VALID") DNone DNone 1 None.
Example C63_conv_one_example : conv_shape ex_conv1 (repeat 1 1) (repeat 1 1) [1] 2 3 /\
  forall j f, j < 2 -> f < 3 -> t_at (kernel_of ex_conv1) (repeat 0 1 ++ [j; f]) = t_at (l_kernel ex_lin) [j; f].
Proof.
  split; [constructor; try reflexivity; try apply axis_none; [repeat constructor; auto|repeat constructor|]; intros t E; injection E as <-; reflexivity|].
  reflexivity.
Qed.

Print Assumptions C63_linear.
Print Assumptions C63_conv_one.
Print Assumptions C63_embed_one_hot.
Print Assumptions C63_attend.
