From Coq Require Import ZArith QArith Qcanon Lia.
From Verif Require Import PyBase ModuleM ContextM TensorM NnM Spec_Nn Tensor_proofs Context_proofs.
Local Open Scope string_scope.
Local Open Scope nat_scope.
Local Open Scope list_scope.

Lemma first_from_flag call modl ctx name :
  first_from [call; modl; ctx_flag ctx name] =
  match flag_of call modl ctx name with Some b => Ok b | None => Err ValueError end.
Proof. unfold flag_of, ctx_flag, get_flag. destruct call, modl, ctx as [c|]; cbn; auto; now destruct (dget name (x_flags c)). Qed.

Lemma qc_eqb_refl q : Qc_eq_bool q q = true.
Proof. unfold Qc_eq_bool. destruct (Qc_eq_dec q q); congruence. Qed.
Lemma qc_eqb_neq p q : p <> q -> Qc_eq_bool p q = false.
Proof. unfold Qc_eq_bool. destruct (Qc_eq_dec p q); congruence. Qed.

Lemma nth_list_set {A} (d x : A) : forall l i j, i < List.length l -> nth j (list_set i x l) d = if Nat.eqb j i then x else nth j l d.
Proof.
  induction l as [|a l IH]; intros [|i] [|j] H; cbn in *; try lia; auto. rewrite IH by lia. reflexivity.
Qed.
Lemma length_list_set {A} (x : A) : forall l i, List.length (list_set i x l) = List.length l.
Proof. induction l as [|a l IH]; intros [|i]; cbn; auto. Qed.

Lemma py_index_valid n d : valid_axis n d -> exists i, py_index n d = Ok i /\ i < n /\
  forall j, j < n -> names_axis n d j = Nat.eqb j i.
Proof.
  unfold valid_axis, py_index, names_axis. intros H. destruct (Z.ltb_spec d 0).
  - exists (Z.to_nat (Z.of_nat n + d)).
    replace ((0 <=? Z.of_nat n + d)%Z && (Z.of_nat n + d <? Z.of_nat n)%Z)%bool with true
      by (symmetry; apply andb_true_intro; split; [apply Z.leb_le|apply Z.ltb_lt]; lia).
    repeat split; [lia|]. intros j Hj. destruct (Nat.eqb_spec j (Z.to_nat (Z.of_nat n + d))) as [E|E].
    + apply orb_true_intro. right. apply Z.eqb_eq. lia.
    + apply orb_false_intro; apply Z.eqb_neq; lia.
  - exists (Z.to_nat d).
    replace ((0 <=? d)%Z && (d <? Z.of_nat n)%Z)%bool with true
      by (symmetry; apply andb_true_intro; split; [apply Z.leb_le|apply Z.ltb_lt]; lia).
    repeat split; [lia|]. intros j Hj. destruct (Nat.eqb_spec j (Z.to_nat d)) as [E|E].
    + apply orb_true_intro. left. apply Z.eqb_eq. lia.
    + apply orb_false_intro; apply Z.eqb_neq; lia.
Qed.
Lemma py_index_invalid n d : ~ valid_axis n d -> py_index n d = Err IndexError.
Proof.
  unfold valid_axis, py_index. intros H. destruct (Z.ltb_spec d 0).
  - destruct (Z.leb_spec 0 (Z.of_nat n + d)); cbn; auto. lia.
  - destruct (Z.ltb_spec d (Z.of_nat n)); cbn; rewrite ?andb_false_r; auto. lia.
Qed.

Lemma nth_set_axes dims v l i d : i < List.length l ->
  nth i (set_axes dims v l) d = if existsb (fun z => names_axis (List.length l) z i) dims then v else nth i l 0.
Proof.
  intros H. unfold set_axes.
  set (f := fun i => _). replace (nth i (map f (seq 0 (List.length l))) d) with (f i); [reflexivity|].
  rewrite (nth_indep _ d (f 0)) by now rewrite map_length, seq_length. rewrite map_nth, seq_nth by exact H. reflexivity.
Qed.
Lemma length_set_axes dims v l : List.length (set_axes dims v l) = List.length l.
Proof. unfold set_axes. now rewrite map_length, seq_length. Qed.

Lemma nth_eq {A} (d : A) : forall l l', List.length l = List.length l' -> (forall i, i < List.length l -> nth i l d = nth i l' d) -> l = l'.
Proof.
  intros l l' Hl H. apply (nth_ext l l' d d); auto.
Qed.

Lemma broadcast_shape_ok dims : forall shape, (forall d, In d dims -> valid_axis (List.length shape) d) ->
  broadcast_shape shape dims = Ok (set_axes dims 1 shape).
Proof.
  induction dims as [|d dims IH]; intros shape Hv; cbn [broadcast_shape].
  - f_equal. symmetry. apply (nth_eq 0); rewrite length_set_axes; auto. intros i Hi. now rewrite nth_set_axes.
  - destruct (py_index_valid (List.length shape) d) as (i & E & Hi & Hn); [apply Hv; now left|]. rewrite E. cbn [rbind].
    rewrite IH by (intros; rewrite length_list_set; apply Hv; now right). f_equal.
    apply (nth_eq 0); rewrite ?length_set_axes, ?length_list_set; auto. intros j Hj.
    rewrite !nth_set_axes by (rewrite ?length_list_set; exact Hj). rewrite length_list_set. cbn [existsb].
    rewrite Hn by exact Hj. rewrite nth_list_set by exact Hi. destruct (Nat.eqb j i); cbn [orb]; auto. now destruct (existsb _ _).
Qed.
Lemma broadcast_shape_err dims : forall shape d, In d dims -> ~ valid_axis (List.length shape) d -> broadcast_shape shape dims = Err IndexError.
Proof.
  induction dims as [|e dims IH]; intros shape d Hd Hv; [destruct Hd|]. cbn [broadcast_shape].
  destruct (py_index (List.length shape) e) as [i|x] eqn:E; cbn [rbind].
  - destruct Hd as [<-|Hd]; [rewrite (py_index_invalid _ _ Hv) in E; discriminate|].
    apply (IH _ d); auto. now rewrite length_list_set.
  - revert E. unfold py_index. destruct (_ && _)%bool; congruence.
Qed.

Lemma nth_broadcast_idx : forall ms idx i, List.length idx = List.length ms -> i < List.length idx ->
  nth i (broadcast_idx ms idx) 0 = if Nat.eqb (nth i ms 0) 1 then 0 else nth i idx 0.
Proof.
  induction ms as [|m ms IH]; intros [|x idx] [|i] Hl Hi; cbn in *; try lia; auto. apply IH; lia.
Qed.
Lemma length_broadcast_idx : forall ms idx, List.length idx = List.length ms -> List.length (broadcast_idx ms idx) = List.length idx.
Proof. induction ms as [|m ms IH]; intros [|x idx] H; cbn in *; try lia. rewrite IH; lia. Qed.
Lemma in_range_nth shape idx i : in_range shape idx -> i < List.length shape -> nth i idx 0 < nth i shape 0.
Proof.
  intros H. revert i. induction H as [|x n idx shape Hx H IH]; intros [|i] Hi; cbn in *; try lia. apply IH. lia.
Qed.
Lemma broadcast_idx_axes dims shape idx : in_range shape idx ->
  broadcast_idx (set_axes dims 1 shape) idx = set_axes dims 0 idx.
Proof.
  intros Hr. pose proof (in_range_length _ _ Hr) as Hl.
  assert (Hl' : List.length idx = List.length (set_axes dims 1 shape)) by now rewrite length_set_axes.
  apply (nth_eq 0); rewrite length_broadcast_idx by exact Hl'.
  - now rewrite length_set_axes.
  - intros i Hi. rewrite nth_broadcast_idx by auto. rewrite !nth_set_axes by lia. rewrite Hl.
    destruct (existsb _ dims); cbn; auto. destruct (Nat.eqb_spec (nth i shape 0) 1) as [E|E]; auto.
    pose proof (in_range_nth shape idx i Hr ltac:(lia)). lia.
Qed.
Lemma set_axes_same dims idx idx' v : same_outside dims idx idx' -> set_axes dims v idx = set_axes dims v idx'.
Proof.
  intros (Hl & H). apply (nth_eq 0); rewrite ?length_set_axes; auto. intros i Hi. rewrite !nth_set_axes by lia. rewrite <- Hl.
  destruct (existsb _ dims) eqn:E; auto. apply H; auto. intros d Hd.
  destruct (names_axis (List.length idx) d i) eqn:E2; auto. exfalso.
  assert (existsb (fun z => names_axis (List.length idx) z i) dims = true) by (apply existsb_exists; eauto). congruence.
Qed.

Lemma one_draw_bump ss i s : nth_error ss i = Some s -> one_draw ss (list_set i (bump s) ss) i.
Proof.
  intros H. exists s. split; auto. assert (Hi : i < List.length ss) by (apply nth_error_Some; congruence).
  split; [|split].
  - unfold bump. rewrite Nat.add_1_r. revert i H Hi. induction ss as [|a ss IH]; intros [|i] H Hi; cbn in *; try lia; auto. apply IH; auto. lia.
  - apply length_list_set.
  - intros j Hj. clear -Hj. revert i j Hj. induction ss as [|a ss IH]; intros [|i] [|j] Hj; cbn in *; try congruence; auto.
Qed.

Lemma dropout_sampling blake bern cur d x call c ss i s :
  flag_of call (d_det d) (Some c) "deterministic" = Some false ->
  d_rate d <> 0%Qc -> d_rate d <> 1%Qc ->
  dget (d_coll d) (x_rngs c) = Some i -> nth_error ss i = Some s -> trace_ok cur (x_trace c) = true ->
  (forall z, In z (d_broadcast d) -> valid_axis (List.length (t_shape x)) z) ->
  dropout_call blake bern cur d x call (Some c) ss =
  (Ok (mkT (t_shape x) (fun idx => if bern (KFold (s_key s) (stable_hash blake (s_path s ++ [s_count s]))) (1 - d_rate d)%Qc
                                          (set_axes (d_broadcast d) 1 (t_shape x)) (broadcast_idx (set_axes (d_broadcast d) 1 (t_shape x)) idx)
                                   then (t_at x idx / (1 - d_rate d))%Qc else 0%Qc)), list_set i (bump s) ss).
Proof.
  intros Hf H0 H1 Hs Hn Ht Hv. unfold dropout_call. rewrite first_from_flag, Hf. rewrite !qc_eqb_neq by assumption. cbn [orb].
  unfold make_rng. rewrite Hs, Ht, Hn. cbn [negb]. rewrite broadcast_shape_ok by exact Hv. reflexivity.
Qed.
