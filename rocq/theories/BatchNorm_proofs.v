From Coq Require Import ZArith QArith Qcanon Lia.
From Verif Require Import PyBase ModuleM ContextM TensorM NnM Spec_Nn Tensor_proofs Dropout_proofs Norm_proofs.
Local Open Scope string_scope.
Local Open Scope nat_scope.
Local Open Scope list_scope.

Lemma axis_of_valid rank d : valid_axis rank d -> axis_of rank d < rank /\
  (if (d <? 0)%Z then Z.of_nat rank + d else d)%Z = Z.of_nat (axis_of rank d).
Proof. unfold valid_axis, axis_of. intros H. destruct (Z.ltb_spec d 0); lia. Qed.

Lemma canon_one rank d : valid_axis rank d -> canonicalize_axes rank [d] = [Z.of_nat (axis_of rank d)].
Proof. intros H. unfold canonicalize_axes. cbn [map]. destruct (axis_of_valid _ _ H) as (_ & ->). reflexivity. Qed.

Definition others (rank a : nat) : list nat := filter (fun i => negb (zmem (Z.of_nat i) [Z.of_nat a])) (seq 0 rank).
Lemma zmem_one i a : zmem (Z.of_nat i) [Z.of_nat a] = Nat.eqb i a.
Proof. cbn [zmem existsb]. rewrite orb_false_r. destruct (Nat.eqb_spec i a); [apply Z.eqb_eq|apply Z.eqb_neq]; lia. Qed.
Lemma in_others rank a i : In i (others rank a) <-> i < rank /\ i <> a.
Proof.
  unfold others. rewrite filter_In, in_seq, zmem_one. destruct (Nat.eqb_spec i a); cbn [negb]; intuition (try lia; try discriminate).
Qed.
Lemma canon_nats rank l : NoDup l -> canonicalize_axes rank (map Z.of_nat l) = map Z.of_nat l.
Proof.
  intros H. unfold canonicalize_axes. rewrite map_map.
  replace (map _ l) with (map Z.of_nat l).
  - apply nodup_fixed_point. apply FinFun.Injective_map_NoDup; auto. intros x y; lia.
  - apply map_ext. intros i. destruct (Z.ltb_spec (Z.of_nat i) 0); lia.
Qed.
Lemma zmem_map i l : zmem (Z.of_nat i) (map Z.of_nat l) = existsb (Nat.eqb i) l.
Proof.
  unfold zmem. induction l as [|x l IH]; cbn; auto. rewrite IH. f_equal. destruct (Nat.eqb_spec i x); [apply Z.eqb_eq|apply Z.eqb_neq]; lia.
Qed.
Lemma existsb_others rank a i : i < rank -> existsb (Nat.eqb i) (others rank a) = negb (Nat.eqb i a).
Proof.
  intros Hi. destruct (existsb (Nat.eqb i) (others rank a)) eqn:E.
  - apply existsb_exists in E. destruct E as (x & Hx & E). apply Nat.eqb_eq in E. subst x. apply in_others in Hx.
    destruct (Nat.eqb_spec i a); [lia|auto].
  - destruct (Nat.eqb_spec i a); auto. exfalso.
    assert (existsb (Nat.eqb i) (others rank a) = true) by (apply existsb_exists; exists i; rewrite Nat.eqb_refl, in_others; auto). congruence.
Qed.
Lemma nodup_others rank a : NoDup (others rank a).
Proof. apply NoDup_filter, seq_NoDup. Qed.
Lemma kept_others rank a idx : a < rank -> List.length idx = rank -> kept (others rank a) idx = [nth a idx 0].
Proof.
  intros Ha Hl. unfold kept, reduced. rewrite (select_ext _ (fun j => Nat.eqb j a)).
  - rewrite select_one by lia. now rewrite Nat.sub_0_r.
  - intros j Hj. rewrite existsb_others by lia. apply negb_involutive.
Qed.
Lemma fiber_others s a f : a < List.length s ->
  fiber s (others (List.length s) a) [f] = filter (fun idx => Nat.eqb (nth a idx 0) f) (all_idx s).
Proof.
  intros Ha. unfold fiber. apply filter_ext_in. intros idx Hi. apply in_all_idx, in_range_length in Hi.
  rewrite kept_others by assumption. unfold nlist_eqb. destruct (list_eq_dec _ _ _) as [E|E], (Nat.eqb_spec (nth a idx 0) f); congruence.
Qed.
Lemma channel_inhabited s a f : a < List.length s -> f < nth a s 0 -> Forall (fun m => 0 < m) s ->
  exists idx, In idx (filter (fun idx => Nat.eqb (nth a idx 0) f) (all_idx s)).
Proof.
  intros Ha Hf Hp. exists (list_set a f (map (fun _ => 0) s)). apply filter_In. split.
  - apply in_all_idx. clear -Hf Ha Hp. revert a Ha Hf. induction Hp as [|m s Hm Hp IH]; intros [|a] Ha Hf; cbn in *; try lia.
    + constructor; auto. clear -Hp. induction Hp; cbn; constructor; auto.
    + constructor; auto. apply IH; auto. lia.
  - rewrite nth_list_set by now rewrite map_length. rewrite Nat.eqb_refl. apply Nat.eqb_refl.
Qed.

Lemma average_mean_of l : average l = mean_of l.
Proof. reflexivity. Qed.

Definition bn_out (rsqrt : Qc -> Qc) (b : batchnorm) (x : tensor) (a : nat) (mean var : nat -> Qc) (y : tensor) : Prop :=
  t_shape y = t_shape x /\ forall idx, in_range (t_shape x) idx ->
    let f := nth a idx 0 in
    t_at y idx = ((t_at x idx - mean f) * (rsqrt (var f + bn_epsilon b) * opt_at (bn_scale b) [f] 1) + opt_at (bn_bias b) [f] 0)%Qc.

Lemma bn_normalize rsqrt n b x mean var :
  bn_wf n b -> bn_fits n b x -> is_vec n mean -> is_vec n var ->
  let a := axis_of (List.length (t_shape x)) (bn_axis b) in
  exists y, normalize rsqrt x mean var (bn_scale b) (bn_bias b) (map Z.of_nat (others (List.length (t_shape x)) a)) [Z.of_nat a] (bn_epsilon b) = Ok y /\
    bn_out rsqrt b x a (fun f => t_at mean [f]) (fun f => t_at var [f]) y.
Proof.
  intros (_ & _ & Hs & Hb) (Hv & Hn & Hp) Hm Hva a. destruct (axis_of_valid _ _ Hv) as (Ha & _). fold a in Ha, Hn.
  set (s := t_shape x) in *. set (rank := List.length s) in *.
  assert (Er : canonicalize_axes rank (map Z.of_nat (others rank a)) = map Z.of_nat (others rank a)) by apply canon_nats, nodup_others.
  assert (Ef : canonicalize_axes rank [Z.of_nat a] = [Z.of_nat a]).
  { unfold canonicalize_axes. cbn [map]. destruct (Z.ltb_spec (Z.of_nat a) 0); [lia|reflexivity]. }
  assert (Hselr : forall idx, List.length idx = rank ->
            select (fun i => negb (zmem (Z.of_nat i) (canonicalize_axes rank (map Z.of_nat (others rank a))))) 0 idx = [nth a idx 0]).
  { intros idx Hl. rewrite Er. rewrite (select_ext _ (fun j => Nat.eqb j a)).
    - rewrite select_one by lia. now rewrite Nat.sub_0_r.
    - intros j Hj. rewrite zmem_map, existsb_others by lia. apply negb_involutive. }
  assert (Hself : forall idx, List.length idx = rank ->
            select (fun i => zmem (Z.of_nat i) (canonicalize_axes rank [Z.of_nat a])) 0 idx = [nth a idx 0]).
  { intros idx Hl. rewrite Ef. rewrite (select_ext _ (fun j => Nat.eqb j a)).
    - rewrite select_one by lia. now rewrite Nat.sub_0_r.
    - intros j Hj. apply zmem_one. }
  destruct (normalize_eq rsqrt x mean var (bn_scale b) (bn_bias b) (map Z.of_nat (others rank a)) [Z.of_nat a] (bn_epsilon b)) as (y & E & Hsh & H).
  - fold s rank. rewrite Er. intros z Hz. apply in_map_iff in Hz. destruct Hz as (i & <- & Hi). apply in_others in Hi. lia.
  - fold s rank. rewrite Ef. intros z [<-|[]]. lia.
  - fold s rank. rewrite Hselr by reflexivity. rewrite Hn. exact Hm.
  - fold s rank. rewrite Hselr by reflexivity. rewrite Hn. exact Hva.
  - fold s rank. rewrite Hself by reflexivity. rewrite Hn. intros t [Ht|Ht]; unfold is_vec in *; cbn; rewrite Nat.mul_1_r; auto.
  - exists y. split; [exact E|]. split; [exact Hsh|]. intros idx Hr f. fold s rank in H. rewrite H by exact Hr. cbv zeta.
    pose proof (in_range_length _ _ Hr) as Hl. rewrite Hselr, !Hself by assumption || reflexivity.
    unfold prod. cbn [flat_pos fold_right]. rewrite Nat.mul_1_r, Nat.add_0_r. fold f. reflexivity.
Qed.

Lemma bn_eval rsqrt n b x ura ctx :
  bn_wf n b -> bn_fits n b x -> flag_of ura (bn_ura b) ctx "use_running_average" = Some true ->
  exists y, bn_call rsqrt b x ura ctx = (b, Ok y) /\
    bn_out rsqrt b x (axis_of (List.length (t_shape x)) (bn_axis b)) (fun f => t_at (bn_mean b) [f]) (fun f => t_at (bn_var b) [f]) y.
Proof.
  intros Hw Hf Hfl. destruct (bn_normalize rsqrt n b x (bn_mean b) (bn_var b) Hw Hf (proj1 Hw) (proj1 (proj2 Hw))) as (y & E & H).
  exists y. split; auto. unfold bn_call, bn_norm, bn_axes. rewrite first_from_flag, Hfl. cbv zeta. rewrite canon_one by apply Hf.
  change (filter _ (seq 0 (List.length (t_shape x)))) with (others (List.length (t_shape x)) (axis_of (List.length (t_shape x)) (bn_axis b))).
  now rewrite E.
Qed.

Definition same_config (b b' : batchnorm) : Prop :=
  bn_scale b' = bn_scale b /\ bn_bias b' = bn_bias b /\ bn_ura b' = bn_ura b /\ bn_axis b' = bn_axis b /\
  bn_momentum b' = bn_momentum b /\ bn_epsilon b' = bn_epsilon b.

Lemma bn_axes_ok n b x : bn_fits n b x ->
  let a := axis_of (List.length (t_shape x)) (bn_axis b) in
  bn_axes b x = ([Z.of_nat a], others (List.length (t_shape x)) a).
Proof. intros (Hv & _) a. unfold bn_axes. rewrite canon_one by exact Hv. reflexivity. Qed.

(** what is done with the statistics of a batch, wherever they come from *)
Lemma bn_update_ok rsqrt n b x mean var :
  bn_wf n b -> bn_fits n b x -> is_vec n mean -> is_vec n var ->
  let a := axis_of (List.length (t_shape x)) (bn_axis b) in
  let m := bn_momentum b in
  exists b' y, bn_update rsqrt b x mean var = (b', Ok y) /\ bn_wf n b' /\ same_config b b' /\
    (forall f, f < n -> t_at (bn_mean b') [f] = (m * t_at (bn_mean b) [f] + (1 - m) * t_at mean [f])%Qc) /\
    (forall f, f < n -> t_at (bn_var b') [f] = (m * t_at (bn_var b) [f] + (1 - m) * t_at var [f])%Qc) /\
    bn_out rsqrt b x a (fun f => t_at mean [f]) (fun f => t_at var [f]) y.
Proof.
  intros Hw Hf Hms Hvs a m. pose proof Hw as (Wm & Wv & Ws & Wb).
  destruct (bn_normalize rsqrt n b x mean var Hw Hf Hms Hvs) as (y & E & Hy & Hout). fold a in E.
  exists (bn_set_var (bn_set_mean b (mkT [n] (fun i => t_at (scaled (bn_momentum b) (bn_mean b)) i + t_at (scaled (1 - bn_momentum b)%Qc mean) i)%Qc))
                     (mkT [n] (fun i => t_at (scaled (bn_momentum b) (bn_var b)) i + t_at (scaled (1 - bn_momentum b)%Qc var) i)%Qc)), y.
  split; [|split; [|split; [|split; [|split]]]].
  - unfold bn_update, add1. cbn [t_shape scaled bn_momentum bn_set_mean bn_var]. rewrite Wm, Wv, Hms, Hvs, Nat.eqb_refl.
    unfold bn_norm. cbn [bn_set_mean bn_set_var bn_scale bn_bias bn_epsilon].
    change (bn_axes _ x) with (bn_axes b x). rewrite (bn_axes_ok n b x Hf). fold a. rewrite E. reflexivity.
  - unfold bn_wf, is_vec. cbn. auto.
  - repeat split.
  - intros f Hfn. reflexivity.
  - intros f Hfn. reflexivity.
  - split; [exact Hy|]. intros idx Hr. cbv zeta. rewrite Hout by exact Hr. reflexivity.
Qed.

Lemma bn_out_ext rsqrt n b x a mean var mean' var' y :
  nth a (t_shape x) 0 = n -> a < List.length (t_shape x) ->
  (forall f, f < n -> mean f = mean' f) -> (forall f, f < n -> var f = var' f) ->
  bn_out rsqrt b x a mean var y -> bn_out rsqrt b x a mean' var' y.
Proof.
  intros Hn Ha Hm Hv (Hs & H). split; [exact Hs|]. intros idx Hr. cbv zeta. rewrite H by exact Hr. cbv zeta.
  assert (Hfn : nth a idx 0 < n) by (rewrite <- Hn; now apply in_range_nth). now rewrite Hm, Hv.
Qed.

Lemma bn_train rsqrt n b x ura ctx :
  bn_wf n b -> bn_fits n b x -> flag_of ura (bn_ura b) ctx "use_running_average" = Some false ->
  let a := axis_of (List.length (t_shape x)) (bn_axis b) in
  let m := bn_momentum b in
  exists b' y, bn_call rsqrt b x ura ctx = (b', Ok y) /\ bn_wf n b' /\ same_config b b' /\
    (forall f, f < n -> t_at (bn_mean b') [f] = (m * t_at (bn_mean b) [f] + (1 - m) * mean_of (channel x a f))%Qc) /\
    (forall f, f < n -> t_at (bn_var b') [f] = (m * t_at (bn_var b) [f] + (1 - m) * variance_of (channel x a f))%Qc) /\
    bn_out rsqrt b x a (fun f => mean_of (channel x a f)) (fun f => variance_of (channel x a f)) y.
Proof.
  intros Hw Hf Hfl a m. pose proof Hf as (Hv & Hn & Hp). destruct (axis_of_valid _ _ Hv) as (Ha & _). fold a in Ha, Hn.
  set (red := others (List.length (t_shape x)) a).
  destruct (compute_stats x red) as [mean var] eqn:Es.
  assert (Hms : t_shape mean = [n] /\ t_shape var = [n]).
  { revert Es. unfold compute_stats. intros Es. injection Es as <- <-. cbn [t_shape mean_over]. unfold red. rewrite kept_others by auto. now rewrite Hn. }
  destruct Hms as (Hms & Hvs).
  assert (Hst : forall f, f < n -> t_at mean [f] = mean_of (channel x a f) /\ t_at var [f] = variance_of (channel x a f)).
  { intros f Hfn. destruct (compute_stats_at x red [f]) as (H1 & H2).
    - unfold red. rewrite fiber_others by exact Ha. destruct (channel_inhabited (t_shape x) a f) as (idx & Hi); auto; [now rewrite Hn|].
      intros E. rewrite E in Hi. destruct Hi.
    - rewrite Es in H1, H2. cbn [fst snd] in H1, H2. unfold red in H1, H2. rewrite fiber_others in H1, H2 by exact Ha.
      split; [exact H1|]. rewrite H2. unfold variance_of, channel. rewrite map_map. reflexivity. }
  destruct (bn_update_ok rsqrt n b x mean var Hw Hf Hms Hvs) as (b' & y & E & Hw' & Hc & Hm' & Hv' & Ho).
  exists b', y. split; [|split; [exact Hw'|split; [exact Hc|split; [|split]]]].
  - unfold bn_call. rewrite first_from_flag, Hfl, (bn_axes_ok n b x Hf). fold a. cbn [snd]. fold red. rewrite Es. exact E.
  - intros f Hfn. rewrite Hm' by exact Hfn. fold m. now rewrite (proj1 (Hst f Hfn)).
  - intros f Hfn. rewrite Hv' by exact Hfn. fold m. now rewrite (proj2 (Hst f Hfn)).
  - eapply bn_out_ext; [exact Hn|exact Ha| | |exact Ho]; intros f Hfn; now apply Hst.
Qed.

(** ** histories *)
Lemma moving_average_nil m init : moving_average m init [] = init.
Proof. unfold moving_average. cbn. ring. Qed.
Lemma moving_average_cons m init v vs : moving_average m init (v :: vs) = moving_average m (m * init + (1 - m) * v)%Qc vs.
Proof.
  unfold moving_average. cbn [List.length]. set (t := List.length vs).
  cbn [seq map qsum]. replace (S t - 1 - 0) with t by lia. cbn [nth].
  rewrite <- seq_shift, map_map.
  rewrite (qsum_ext _ (fun i => m ^ (t - 1 - i) * nth i vs 0)%Qc).
  - cbn [Qcpower]. ring.
  - intros i Hi. apply in_seq in Hi. cbn [nth]. replace (S t - 1 - S i) with (t - 1 - i) by lia. reflexivity.
Qed.
Lemma bn_fits_config n b b' x : same_config b b' -> bn_fits n b x -> bn_fits n b' x.
Proof. intros (_ & _ & _ & Ea & _) H. unfold bn_fits in *. now rewrite Ea. Qed.
Lemma same_config_trans a b c : same_config a b -> same_config b c -> same_config a c.
Proof. unfold same_config. intuition congruence. Qed.

Lemma bn_history rsqrt n : forall ops b, bn_wf n b -> (forall x u c, In (x, u, c) ops -> bn_fits n b x) ->
  let tr := training_inputs (bn_ura b) ops in
  let ax x := axis_of (List.length (t_shape x)) (bn_axis b) in
  bn_wf n (bn_run rsqrt b ops) /\ same_config b (bn_run rsqrt b ops) /\
  (forall f, f < n -> t_at (bn_mean (bn_run rsqrt b ops)) [f] =
     moving_average (bn_momentum b) (t_at (bn_mean b) [f]) (map (fun x => mean_of (channel x (ax x) f)) tr)) /\
  (forall f, f < n -> t_at (bn_var (bn_run rsqrt b ops)) [f] =
     moving_average (bn_momentum b) (t_at (bn_var b) [f]) (map (fun x => variance_of (channel x (ax x) f)) tr)).
Proof.
  induction ops as [|[[x u] c] ops IH]; intros b Hw Hf tr ax; cbn [bn_run].
  - split; [exact Hw|]. split; [repeat split|]. unfold tr. cbn. split; intros; now rewrite moving_average_nil.
  - assert (Hfx : bn_fits n b x) by (eapply Hf; now left).
    assert (Hstep : flag_of u (bn_ura b) c "use_running_average" = Some false \/ fst (bn_call rsqrt b x u c) = b).
    { destruct (flag_of u (bn_ura b) c "use_running_average") as [[|]|] eqn:E; auto.
      - destruct (bn_eval rsqrt n b x u c Hw Hfx E) as (y & Ey & _). right. now rewrite Ey.
      - right. unfold bn_call. now rewrite first_from_flag, E. }
    unfold tr. cbn [training_inputs flat_map].
    destruct (flag_of u (bn_ura b) c "use_running_average") as [[|]|] eqn:E.
    + destruct Hstep as [|Hb]; [discriminate|]. rewrite Hb. apply IH; auto. intros; eapply Hf; right; eauto.
    + destruct (bn_train rsqrt n b x u c Hw Hfx E) as (b' & y & Ey & Hw' & Hc & Hm & Hv & _). rewrite Ey. cbn [fst].
      destruct (IH b' Hw') as (Hw2 & Hc2 & Hm2 & Hv2).
      { intros x' u' c' Hin. eapply bn_fits_config; [exact Hc|]. eapply Hf. right. exact Hin. }
      pose proof Hc as (_ & _ & Eu & Ea & Em & _). rewrite Eu, Ea, Em in *.
      split; [exact Hw2|]. split; [eapply same_config_trans; eauto|]. cbn [app map].
      split; intros f Hfn; rewrite moving_average_cons.
      * rewrite Hm2, Hm by exact Hfn. reflexivity.
      * rewrite Hv2, Hv by exact Hfn. reflexivity.
    + destruct Hstep as [|Hb]; [discriminate|]. rewrite Hb. apply IH; auto. intros; eapply Hf; right; eauto.
Qed.

Lemma Qc_mul_nonneg a b : (0 <= a -> 0 <= b -> 0 <= a * b)%Qc.
Proof. intros Ha Hb. replace 0%Qc with (0 * b)%Qc by ring. now apply Qcmult_le_compat_r. Qed.
Lemma Qc_add_nonneg a b : (0 <= a -> 0 <= b -> 0 <= a + b)%Qc.
Proof. intros Ha Hb. replace 0%Qc with (0 + 0)%Qc by ring. now apply Qcplus_le_compat. Qed.
Lemma moving_average_nonneg m : (0 <= m <= 1)%Qc -> forall vs init, (0 <= init)%Qc -> (forall v, In v vs -> 0 <= v)%Qc ->
  (0 <= moving_average m init vs)%Qc.
Proof.
  intros (H0 & H1). induction vs as [|v vs IH]; intros init Hi Hv; [now rewrite moving_average_nil|].
  rewrite moving_average_cons. apply IH; [|intros; apply Hv; now right].
  assert (0 <= 1 - m)%Qc by (unfold Qcminus; apply -> Qcle_minus_iff; exact H1).
  apply Qc_add_nonneg; apply Qc_mul_nonneg; auto. apply Hv. now left.
Qed.
Lemma variance_of_nonneg l : l <> [] -> (0 <= variance_of l)%Qc.
Proof. intros H. apply (variance_nonneg (fun e => e) l (mean_of l) H). Qed.
