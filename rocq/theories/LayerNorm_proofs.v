From Coq Require Import ZArith QArith Qcanon Lia.
From Verif Require Import PyBase ModuleM ContextM TensorM NnM Spec_Nn Tensor_proofs Dropout_proofs Norm_proofs BatchNorm_proofs.
Local Open Scope string_scope.
Local Open Scope nat_scope.
Local Open Scope list_scope.

Lemma py_index_axis rank d : valid_axis rank d -> py_index rank d = Ok (axis_of rank d).
Proof.
  intros H. destruct (axis_of_valid _ _ H) as (Ha & E). unfold py_index. rewrite E.
  replace ((0 <=? Z.of_nat (axis_of rank d)) && (Z.of_nat (axis_of rank d) <? Z.of_nat rank))%Z%bool with true.
  - now rewrite Nat2Z.id.
  - symmetry. apply andb_true_intro. split; [apply Z.leb_le|apply Z.ltb_lt]; lia.
Qed.
Lemma names_axis_of rank d i : valid_axis rank d -> i < rank -> names_axis rank d i = Nat.eqb i (axis_of rank d).
Proof.
  intros H Hi. destruct (py_index_valid rank d H) as (j & E & _ & Hn). rewrite py_index_axis in E by exact H. injection E as ->. now apply Hn.
Qed.
Lemma existsb_eqb_in i l : existsb (Nat.eqb i) l = true <-> In i l.
Proof.
  rewrite existsb_exists. split; [intros (x & Hx & E); apply Nat.eqb_eq in E; now subst|]. intros H. exists i. now rewrite Nat.eqb_refl.
Qed.
Lemma check_axes_ok rank : forall red seen, (forall d, In d red -> valid_axis rank d) -> NoDup (map (axis_of rank) red) ->
  (forall d, In d red -> ~ In (axis_of rank d) seen) -> check_axes rank red seen = Ok (map (axis_of rank) red).
Proof.
  induction red as [|d red IH]; intros seen Hv Hn Hs; cbn [check_axes map]; auto.
  rewrite py_index_axis by (apply Hv; now left). cbn [rbind].
  destruct (existsb (Nat.eqb (axis_of rank d)) seen) eqn:E; [apply existsb_eqb_in in E; exfalso; eapply Hs; [now left|exact E]|].
  cbn [map] in Hn. inversion Hn as [|? ? Hni Hnd]; subst.
  rewrite IH; auto.
  - intros; apply Hv; now right.
  - intros e He [Heq|Hin]; [|eapply Hs; [right; exact He|exact Hin]]. apply Hni. rewrite Heq. now apply in_map.
Qed.
Lemma check_axes_err rank : forall red seen, ~ ((forall d, In d red -> valid_axis rank d) /\ NoDup (map (axis_of rank) red) /\
  (forall d, In d red -> ~ In (axis_of rank d) seen)) -> check_axes rank red seen = Err ValueError.
Proof.
  induction red as [|d red IH]; intros seen H; cbn [check_axes].
  - exfalso. apply H. split; [intros ? []|]. split; [constructor|intros ? []].
  - destruct (py_index rank d) as [i|e] eqn:E; cbn [rbind]; auto.
    assert (Hv : valid_axis rank d).
    { unfold py_index in E. unfold valid_axis. destruct (Z.ltb_spec d 0) as [Hd|Hd].
      - destruct (Z.leb_spec 0 (Z.of_nat rank + d)%Z); cbn in E; [lia|discriminate].
      - destruct (Z.ltb_spec d (Z.of_nat rank)); [lia|]. rewrite andb_false_r in E. discriminate. }
    rewrite py_index_axis in E by exact Hv. injection E as <-.
    destruct (existsb (Nat.eqb (axis_of rank d)) seen) eqn:Es; auto.
    rewrite IH; auto. intros (H1 & H2 & H3). apply H. split; [|split].
    + intros e [<-|He]; auto.
    + cbn [map]. constructor; auto. intros Hin. apply in_map_iff in Hin. destruct Hin as (e & Ee & He). apply (H3 e He). left. congruence.
    + intros e [<-|He] Hin; [apply existsb_eqb_in in Hin; congruence|]. apply (H3 e He). now right.
Qed.

Lemma canon_axes rank red : axes_ok rank red -> canonicalize_axes rank red = map Z.of_nat (map (axis_of rank) red).
Proof.
  intros (Hv & Hn). unfold canonicalize_axes. rewrite map_map.
  replace (map _ red) with (map (fun d => Z.of_nat (axis_of rank d)) red).
  - apply nodup_fixed_point. rewrite <- map_map. apply FinFun.Injective_map_NoDup; auto. intros a b; lia.
  - apply map_ext_in. intros d Hd. symmetry. now apply axis_of_valid, Hv.
Qed.

Lemma select_eq f : forall i l l', List.length l = List.length l' ->
  (select f i l = select f i l' <-> forall j, j < List.length l -> f (i + j) = true -> nth j l 0 = nth j l' 0).
Proof.
  intros i l. revert i. induction l as [|x l IH]; intros i [|y l'] Hl; try discriminate; cbn [select].
  - split; auto; intros _ j Hj; cbn in Hj; lia.
  - cbn in Hl. specialize (IH (S i) l' ltac:(lia)). split.
    + intros H [|j] Hj Hf; cbn in Hj.
      * rewrite Nat.add_0_r in Hf. rewrite Hf in H. cbn. congruence.
      * cbn [nth]. apply IH; [destruct (f i); congruence|lia|]. now rewrite Nat.add_succ_comm.
    + intros H. assert (E : select f (S i) l = select f (S i) l').
      { apply IH. intros j Hj Hf. apply (H (S j)); [cbn; lia|]. now rewrite <- Nat.add_succ_comm. }
      rewrite E. destruct (f i) eqn:Ef; auto. f_equal. apply (H 0); [cbn; lia|]. now rewrite Nat.add_0_r.
Qed.

Lemma existsb_names rank red i : (forall d, In d red -> valid_axis rank d) -> i < rank ->
  existsb (fun d => names_axis rank d i) red = existsb (Nat.eqb i) (map (axis_of rank) red).
Proof.
  intros Hv Hi. induction red as [|d red IH]; cbn [existsb map]; auto. rewrite IH by (intros; apply Hv; now right).
  rewrite names_axis_of by (auto; apply Hv; now left). reflexivity.
Qed.

Lemma fiber_row s red idx : (forall d, In d red -> valid_axis (List.length s) d) -> in_range s idx ->
  fiber s (map (axis_of (List.length s)) red) (kept (map (axis_of (List.length s)) red) idx) = filter (same_rowb red idx) (all_idx s).
Proof.
  intros Hv Hr. unfold fiber. apply filter_ext_in. intros idx' Hi. apply in_all_idx in Hi.
  pose proof (in_range_length _ _ Hr) as Hl. pose proof (in_range_length _ _ Hi) as Hl'.
  set (rl := map (axis_of (List.length s)) red).
  assert (Hiff : kept rl idx' = kept rl idx <-> same_rowb red idx idx' = true).
  { unfold kept. rewrite select_eq by lia. unfold same_rowb. rewrite forallb_forall. split.
    - intros H i Hi'. apply in_seq in Hi'. rewrite Hl, existsb_names by (auto; lia). fold rl.
      destruct (existsb (Nat.eqb i) rl) eqn:E; auto. cbn [orb]. apply Nat.eqb_eq. symmetry. apply H; [lia|]. unfold reduced. cbn. now rewrite E.
    - intros H j Hj Hf. cbn in Hf. unfold reduced in Hf. specialize (H j ltac:(apply in_seq; lia)).
      rewrite Hl, existsb_names in H by (auto; lia). fold rl in H. apply negb_true_iff in Hf. rewrite Hf in H. cbn [orb] in H. apply Nat.eqb_eq in H. congruence. }
  unfold nlist_eqb. destruct (list_eq_dec Nat.eq_dec (kept rl idx') (kept rl idx)) as [E|E].
  - symmetry. now apply Hiff.
  - destruct (same_rowb red idx idx') eqn:Es; auto. exfalso. apply E, Hiff. reflexivity.
Qed.

Definition ln_wf (n : nat) (l : layernorm) : Prop :=
  (forall t, ln_scale l = Some t -> is_vec n t) /\ (forall t, ln_bias l = Some t -> is_vec n t).

Lemma layernorm_ok rsqrt l x n d :
  axes_ok (List.length (t_shape x)) (ln_red l) -> ln_feat l = [d] -> valid_axis (List.length (t_shape x)) d ->
  let a := axis_of (List.length (t_shape x)) d in
  nth a (t_shape x) 0 = n -> ln_wf n l ->
  exists y, ln_call rsqrt l x = Ok y /\ t_shape y = t_shape x /\
    forall idx, in_range (t_shape x) idx ->
      let f := nth a idx 0 in
      t_at y idx = ((t_at x idx - mean_of (row x (ln_red l) idx)) *
                    (rsqrt (variance_of (row x (ln_red l) idx) + ln_epsilon l) * opt_at (ln_scale l) [f] 1)
                    + opt_at (ln_bias l) [f] 0)%Qc.
Proof.
  intros Hax Hfe Hd a Hn (Hs & Hb). unfold ln_call. pose proof Hax as (Hv & Hnd).
  rewrite check_axes_ok by auto. cbn [rbind]. set (rl := map (axis_of (List.length (t_shape x))) (ln_red l)).
  destruct (compute_stats x rl) as [mean var] eqn:Es.
  destruct (axis_of_valid _ _ Hd) as (Ha & Ea). fold a in Ha.
  assert (Hself : forall idx, List.length idx = List.length (t_shape x) ->
            select (fun i => zmem (Z.of_nat i) (canonicalize_axes (List.length (t_shape x)) [d])) 0 idx = [nth a idx 0]).
  { intros idx Hl. rewrite canon_one by exact Hd. rewrite (select_ext _ (fun j => Nat.eqb j a)).
    - rewrite select_one by lia. now rewrite Nat.sub_0_r.
    - intros j Hj. apply zmem_one. }
  assert (Hselr : forall idx, select (fun i => negb (zmem (Z.of_nat i) (canonicalize_axes (List.length (t_shape x)) (ln_red l)))) 0 idx = kept rl idx).
  { intros idx. rewrite canon_axes by exact Hax. unfold kept, reduced. apply select_ext. intros j _. now rewrite zmem_map. }
  assert (Hsh : t_shape mean = kept rl (t_shape x) /\ t_shape var = kept rl (t_shape x)).
  { revert Es. unfold compute_stats. intros Es. injection Es as <- <-. split; reflexivity. }
  destruct (normalize_eq rsqrt x mean var (ln_scale l) (ln_bias l) (ln_red l) (ln_feat l) (ln_epsilon l)) as (y & E & Hy & H).
  - rewrite canon_axes by exact Hax. intros z Hz. apply in_map_iff in Hz. destruct Hz as (i & <- & Hi). apply in_map_iff in Hi.
    destruct Hi as (e & <- & He). pose proof (axis_of_valid _ _ (Hv e He)). lia.
  - rewrite Hfe, canon_one by exact Hd. intros z [<-|[]]. fold a. lia.
  - rewrite Hselr. apply Hsh.
  - rewrite Hselr. apply Hsh.
  - rewrite Hfe, Hself by reflexivity. rewrite Hn. intros t [Ht|Ht]; unfold is_vec in *; cbn; rewrite Nat.mul_1_r; auto.
  - exists y. split; [exact E|]. split; [exact Hy|]. intros idx Hr. rewrite H by exact Hr. cbv zeta. rewrite Hfe, !Hself by (reflexivity || now apply in_range_length).
    rewrite Hselr. unfold prod. cbn [flat_pos fold_right]. rewrite Nat.mul_1_r, Nat.add_0_r.
    pose proof (compute_stats_at x rl (kept rl idx)) as Hst. rewrite Es in Hst. cbn [fst snd] in Hst.
    assert (Hf : fiber (t_shape x) rl (kept rl idx) = filter (same_rowb (ln_red l) idx) (all_idx (t_shape x))) by now apply fiber_row.
    destruct Hst as (H1 & H2).
    + intros Enil. assert (Hin : In idx (fiber (t_shape x) rl (kept rl idx))) by now apply fiber_in. rewrite Enil in Hin. destruct Hin.
    + rewrite H1, H2, Hf. unfold variance_of, row. rewrite map_map. reflexivity.
Qed.

(** the last axis *)
Lemma row_last_ext x x' red idx : t_shape x' = t_shape x ->
  (forall idx', in_range (t_shape x) idx' -> same_rowb red idx idx' = true -> t_at x idx' = t_at x' idx') ->
  row x red idx = row x' red idx.
Proof.
  intros Hs H. unfold row. rewrite Hs. apply map_ext_in. intros idx' Hi. apply filter_In in Hi. destruct Hi as (Hi & Hb).
  apply H; auto. now apply in_all_idx.
Qed.
