(** Prop_Norm: C54 (BatchNorm) and C62 (LayerNorm). *)
From Coq Require Import ZArith QArith Qcanon Lia.
From Verif Require Import PyBase ModuleM ContextM TensorM NnM Spec_Nn Tensor_proofs Dropout_proofs Norm_proofs BatchNorm_proofs LayerNorm_proofs.
Local Open Scope string_scope.
Local Open Scope nat_scope.
Local Open Scope list_scope.

Section C54.
  Context (rsqrt : Qc -> Qc).

  (** With use_running_average the layer is unchanged, and every entry is
      normalized with the stored statistics of its feature. *)
  Theorem C54_eval n b x ura ctx :
    bn_wf n b -> bn_fits n b x -> flag_of ura (bn_ura b) ctx "use_running_average" = Some true ->
    exists y, bn_call rsqrt b x ura ctx = (b, Ok y) /\ t_shape y = t_shape x /\
      forall idx, in_range (t_shape x) idx ->
        let f := nth (axis_of (List.length (t_shape x)) (bn_axis b)) idx 0 in
        t_at y idx = ((t_at x idx - t_at (bn_mean b) [f]) * (rsqrt (t_at (bn_var b) [f] + bn_epsilon b) * opt_at (bn_scale b) [f] 1)
                      + opt_at (bn_bias b) [f] 0)%Qc.
  Proof. intros Hw Hf Hfl. destruct (bn_eval rsqrt n b x ura ctx Hw Hf Hfl) as (y & E & Hs & H). exists y. auto. Qed.

  (** Otherwise the statistics move towards the mean and variance of the batch, and
      the output is normalized with those of the batch. *)
  Theorem C54_train n b x ura ctx :
    bn_wf n b -> bn_fits n b x -> flag_of ura (bn_ura b) ctx "use_running_average" = Some false ->
    let a := axis_of (List.length (t_shape x)) (bn_axis b) in
    let m := bn_momentum b in
    exists b' y, bn_call rsqrt b x ura ctx = (b', Ok y) /\ bn_wf n b' /\ same_config b b' /\
      (forall f, f < n -> t_at (bn_mean b') [f] = (m * t_at (bn_mean b) [f] + (1 - m) * mean_of (channel x a f))%Qc) /\
      (forall f, f < n -> t_at (bn_var b') [f] = (m * t_at (bn_var b) [f] + (1 - m) * variance_of (channel x a f))%Qc) /\
      t_shape y = t_shape x /\
      forall idx, in_range (t_shape x) idx ->
        let f := nth a idx 0 in
        t_at y idx = ((t_at x idx - mean_of (channel x a f)) *
                      (rsqrt (variance_of (channel x a f) + bn_epsilon b) * opt_at (bn_scale b) [f] 1) + opt_at (bn_bias b) [f] 0)%Qc.
  Proof.
    intros Hw Hf Hfl a m. destruct (bn_train rsqrt n b x ura ctx Hw Hf Hfl) as (b' & y & E & Hw' & Hc & Hm & Hv & Hs & Ho).
    exists b', y. do 6 (split; [assumption|]). exact Ho.
  Qed.

  (** If the flag is given nowhere the call fails and nothing changes. *)
  Theorem C54_no_flag b x ura ctx :
    flag_of ura (bn_ura b) ctx "use_running_average" = None -> bn_call rsqrt b x ura ctx = (b, Err ValueError).
  Proof. intros H. unfold bn_call. now rewrite first_from_flag, H. Qed.

  (** An input with another number of features: a TypeError, and the statistics stay as
      they are.  In training this needs both numbers to be different from 1
      ([C54_atomic_refuted], [C54_shape_refuted]). *)
  Theorem C54_features n k b x ura ctx :
    bn_wf n b -> bn_fits k b x -> k <> n ->
    flag_of ura (bn_ura b) ctx "use_running_average" = Some true \/
    (flag_of ura (bn_ura b) ctx "use_running_average" = Some false /\ k <> 1 /\ n <> 1) ->
    bn_call rsqrt b x ura ctx = (b, Err TypeError).
  Proof.
    intros (Wm & _) Hf Hkn [Hfl|(Hfl & N1 & N2)]; pose proof Hf as (Hv & Hn & Hp); destruct (axis_of_valid _ _ Hv) as (Ha & _);
      unfold bn_call; rewrite first_from_flag, Hfl; cbn iota; set (a := axis_of (List.length (t_shape x)) (bn_axis b)) in *.
    - f_equal. unfold bn_norm. rewrite (bn_axes_ok k b x Hf). fold a. unfold normalize. cbv zeta.
      set (s := t_shape x) in *. set (rank := List.length s) in *.
      assert (Er : canonicalize_axes rank (map Z.of_nat (others rank a)) = map Z.of_nat (others rank a)) by apply canon_nats, nodup_others.
      rewrite Er. unfold rank. rewrite stats_shape_ok by (intros z Hz; apply in_map_iff in Hz as (i & <- & Hi); apply in_others in Hi; lia). cbn [rbind].
      unfold reshape. rewrite prod_maskv, Wm. rewrite (select_ext _ (fun j => Nat.eqb j a)).
      + rewrite select_one by (fold rank; lia). rewrite Nat.sub_0_r, Hn. cbn [prod fold_right]. rewrite !Nat.mul_1_r.
        destruct (Nat.eqb_spec k n); [congruence|reflexivity].
      + intros j Hj. rewrite zmem_map, existsb_others by lia. apply negb_involutive.
    - rewrite (bn_axes_ok k b x Hf). fold a. cbn [snd]. unfold compute_stats. unfold bn_update, add1. cbn [t_shape scaled mean_over].
      rewrite Wm, kept_others by auto. rewrite Hn.
      destruct (Nat.eqb_spec n k); [congruence|]. destruct (Nat.eqb_spec k 1); [congruence|]. destruct (Nat.eqb_spec n 1); [congruence|]. reflexivity.
  Qed.

  (** If one of the numbers is 1 the statistics are broadcast before anything is checked:
      the one batch mean goes into all running means, or the one running mean becomes [k]. *)
  Theorem C54_broadcast n k b x ura ctx :
    bn_wf n b -> bn_fits k b x -> k <> n -> k = 1 \/ n = 1 -> 0 < n ->
    flag_of ura (bn_ura b) ctx "use_running_average" = Some false ->
    let a := axis_of (List.length (t_shape x)) (bn_axis b) in
    let m := bn_momentum b in
    let b' := fst (bn_call rsqrt b x ura ctx) in
    t_shape (bn_mean b') = [Nat.max k n] /\ t_shape (bn_var b') = [Nat.max k n] /\
    forall f, f < Nat.max k n ->
      let from c := if Nat.eqb c 1 then 0 else f in
      t_at (bn_mean b') [f] = (m * t_at (bn_mean b) [from n] + (1 - m) * mean_of (channel x a (from k)))%Qc /\
      t_at (bn_var b') [f] = (m * t_at (bn_var b) [from n] + (1 - m) * variance_of (channel x a (from k)))%Qc.
  Proof.
    intros (Wm & Wv & _) Hf Hkn K1 N0 Hfl a m. pose proof Hf as (Hv & Hn & Hp). destruct (axis_of_valid _ _ Hv) as (Ha & _).
    cbv zeta. unfold bn_call. rewrite first_from_flag, Hfl. cbn iota. fold a in Ha, Hn. rewrite (bn_axes_ok k b x Hf). fold a. cbn [snd].
    assert (K0 : 0 < k). { rewrite <- Hn. rewrite Forall_forall in Hp. apply Hp. now apply nth_In. }
    set (red := others (List.length (t_shape x)) a).
    destruct (compute_stats x red) as [mean var] eqn:Es.
    assert (Hsh : t_shape mean = [k] /\ t_shape var = [k]).
    { revert Es. unfold compute_stats. intros Es. injection Es as <- <-. cbn [t_shape mean_over]. unfold red. rewrite kept_others by auto. now rewrite Hn. }
    assert (Hst : forall f, f < k -> t_at mean [f] = mean_of (channel x a f) /\ t_at var [f] = variance_of (channel x a f)).
    { intros f Hfn. destruct (compute_stats_at x red [f]) as (H1 & H2).
      - unfold red. rewrite fiber_others by exact Ha. destruct (channel_inhabited (t_shape x) a f) as (idx & Hi); auto; [now rewrite Hn|].
        intros E. rewrite E in Hi. destruct Hi.
      - rewrite Es in H1, H2. cbn [fst snd] in H1, H2. unfold red in H1, H2. rewrite fiber_others in H1, H2 by exact Ha.
        split; [exact H1|]. rewrite H2. unfold variance_of, channel. rewrite map_map. reflexivity. }
    destruct Hsh as [Sm Sv]. unfold is_vec in *. unfold bn_update, add1. cbn [t_shape scaled]. rewrite Wm, Sm.
    destruct (Nat.eqb_spec n k); [congruence|]. destruct (Nat.eqb_spec k 1) as [->|K].
    - cbn [t_shape scaled bn_set_mean bn_var bn_momentum]. rewrite Wv, Sv. destruct (Nat.eqb_spec n 1); [congruence|]. cbn [Nat.eqb].
      cbn [fst bn_set_var bn_set_mean bn_mean bn_var t_shape t_at scaled]. replace (Nat.max 1 n) with n by lia.
      split; [reflexivity|]. split; [reflexivity|]. intros f Hfn. destruct (Hst 0 ltac:(lia)) as [-> ->]. cbv zeta. destruct (Nat.eqb_spec n 1); [congruence|]. split; reflexivity.
    - destruct K1 as [K1|K1]; [congruence|subst n]. cbn [Nat.eqb t_shape scaled bn_set_mean bn_var bn_momentum]. rewrite Wv, Sv.
      destruct (Nat.eqb_spec 1 k); [congruence|]. destruct (Nat.eqb_spec k 1); [congruence|]. cbn [Nat.eqb fst bn_set_var bn_set_mean bn_mean bn_var t_shape t_at scaled].
      replace (Nat.max k 1) with k by lia. split; [reflexivity|]. split; [reflexivity|]. intros f Hfn. destruct (Hst f Hfn) as [-> ->]. cbv zeta. destruct (Nat.eqb_spec k 1); [congruence|]. split; reflexivity.
  Qed.

  (** After any history of calls, in both modes in any order, the statistics are the
      exponential moving averages of the batch means and variances of the training
      calls; scale, bias and settings never change. *)
  Theorem C54_history n b ops :
    bn_wf n b -> (forall x u c, In (x, u, c) ops -> bn_fits n b x) ->
    let b' := bn_run rsqrt b ops in
    let inputs := training_inputs (bn_ura b) ops in
    let axis x := axis_of (List.length (t_shape x)) (bn_axis b) in
    bn_wf n b' /\ same_config b b' /\
    (forall f, f < n -> t_at (bn_mean b') [f] =
       moving_average (bn_momentum b) (t_at (bn_mean b) [f]) (map (fun x => mean_of (channel x (axis x) f)) inputs)) /\
    (forall f, f < n -> t_at (bn_var b') [f] =
       moving_average (bn_momentum b) (t_at (bn_var b) [f]) (map (fun x => variance_of (channel x (axis x) f)) inputs)).
  Proof. intros Hw Hf. exact (bn_history rsqrt n ops b Hw Hf). Qed.

  (** The running variance stays non-negative if the momentum is in [0, 1]. *)
  Theorem C54_var_nonneg n b ops :
    bn_wf n b -> (forall x u c, In (x, u, c) ops -> bn_fits n b x) ->
    (0 <= bn_momentum b <= 1)%Qc -> (forall f, f < n -> (0 <= t_at (bn_var b) [f])%Qc) ->
    forall f, f < n -> (0 <= t_at (bn_var (bn_run rsqrt b ops)) [f])%Qc.
  Proof.
    intros Hw Hf Hm Hv f Hfn. destruct (bn_history rsqrt n ops b Hw Hf) as (_ & _ & _ & H). rewrite H by exact Hfn.
    apply moving_average_nonneg; auto. intros v Hin. apply in_map_iff in Hin. destruct Hin as (x & <- & Hx).
    unfold training_inputs in Hx. apply in_flat_map in Hx. destruct Hx as ([[x' u] c] & Hin & Hx).
    assert (x = x') by (destruct (flag_of u (bn_ura b) c "use_running_average") as [[|]|]; cbn in Hx; intuition congruence). subst x'.
    apply Hf in Hin. destruct Hin as (Hva & Hn & Hp). apply variance_of_nonneg.
    destruct (axis_of_valid _ _ Hva) as (Ha & _).
    destruct (channel_inhabited (t_shape x) _ f Ha ltac:(rewrite Hn; exact Hfn) Hp) as (idx & Hi).
    unfold channel. intros E. apply map_eq_nil in E. rewrite E in Hi. destruct Hi.
  Qed.

  (** In evaluation an entry of the output depends on that entry of the input only:
      the other examples of the batch have no influence. *)
  Theorem C54_eval_pointwise n b x x' ura ctx y y' idx :
    bn_wf n b -> bn_fits n b x -> t_shape x' = t_shape x ->
    flag_of ura (bn_ura b) ctx "use_running_average" = Some true ->
    snd (bn_call rsqrt b x ura ctx) = Ok y -> snd (bn_call rsqrt b x' ura ctx) = Ok y' ->
    in_range (t_shape x) idx -> t_at x idx = t_at x' idx -> t_at y idx = t_at y' idx.
  Proof.
    intros Hw Hf Hs Hfl Hy Hy' Hr Hx.
    destruct (C54_eval n b x ura ctx Hw Hf Hfl) as (z & E & _ & H). rewrite E in Hy. cbn in Hy. injection Hy as <-.
    destruct (C54_eval n b x' ura ctx Hw) as (z' & E' & _ & H'); [unfold bn_fits; rewrite Hs; exact Hf|exact Hfl|].
    rewrite E' in Hy'. cbn in Hy'. injection Hy' as <-. cbv zeta in H, H'. rewrite H, H', Hs, Hx; auto. now rewrite Hs.
  Qed.

  (** In training every feature of the output has mean [bias] and variance
      [var * (rsqrt (var + eps) * scale)^2]. *)
  Theorem C54_output_moments n b x ura ctx b' y f :
    bn_wf n b -> bn_fits n b x -> flag_of ura (bn_ura b) ctx "use_running_average" = Some false ->
    bn_call rsqrt b x ura ctx = (b', Ok y) -> f < n ->
    let a := axis_of (List.length (t_shape x)) (bn_axis b) in
    let v := variance_of (channel x a f) in
    let g := (rsqrt (v + bn_epsilon b) * opt_at (bn_scale b) [f] 1)%Qc in
    mean_of (channel y a f) = opt_at (bn_bias b) [f] 0%Qc /\ variance_of (channel y a f) = (v * (g * g))%Qc.
  Proof.
    intros Hw Hf Hfl Hc Hfn a v g. destruct (C54_train n b x ura ctx Hw Hf Hfl) as (b2 & y2 & E & _ & _ & _ & _ & Hs & H).
    rewrite Hc in E. injection E as <- <-. fold a in H.
    set (l := filter (fun idx => Nat.eqb (nth a idx 0) f) (all_idx (t_shape x))).
    assert (Hl : l <> []).
    { destruct Hf as (Hva & Hn & Hp). destruct (axis_of_valid _ _ Hva) as (Ha & _).
      destruct (channel_inhabited (t_shape x) a f Ha ltac:(unfold a; rewrite Hn; exact Hfn) Hp) as (idx & Hi). fold l in Hi.
      intros E. rewrite E in Hi. destruct Hi. }
    assert (Hq : qnat (List.length l) <> 0%Qc) by (apply qnat_neq; destruct l; [congruence|discriminate]).
    set (bi := opt_at (bn_bias b) [f] 0%Qc) in *. set (mu := mean_of (channel x a f)).
    assert (Hch : channel y a f = map (fun i => (t_at x i - mu) * g + bi)%Qc l).
    { unfold channel. rewrite Hs. fold l. apply map_ext_in. intros i Hi. apply filter_In in Hi. destruct Hi as (Hi & Ei).
      apply in_all_idx in Hi. apply Nat.eqb_eq in Ei. rewrite H by exact Hi. cbv zeta. rewrite Ei. reflexivity. }
    assert (Hmu : (qsum (map (t_at x) l) = mu * qnat (List.length l))%Qc).
    { unfold mu, mean_of, channel. fold l. rewrite map_length. field. exact Hq. }
    assert (Hsum : forall c d l, (qsum (map (fun i => (t_at x i - mu) * c + d) l) = c * (qsum (map (t_at x) l) - mu * qnat (List.length l)) + d * qnat (List.length l))%Qc).
    { intros c d l0. induction l0 as [|i l0 IH]; [cbn [map qsum List.length]; rewrite qnat_0; ring|]. cbn [map qsum List.length]. rewrite IH, qnat_S. ring. }
    assert (Hmean : mean_of (channel y a f) = bi).
    { rewrite Hch. unfold mean_of. rewrite map_length, Hsum, Hmu. field. exact Hq. }
    split; [exact Hmean|].
    assert (Hvx : (v = qsum (map (fun i => (t_at x i - mu) * (t_at x i - mu)) l) / qnat (List.length l))%Qc).
    { unfold v, variance_of. fold mu. unfold channel. fold l. rewrite map_map. unfold mean_of. now rewrite map_length. }
    rewrite Hvx. unfold variance_of. rewrite Hmean, Hch, map_map. unfold mean_of. rewrite map_length.
    rewrite (qsum_ext _ (fun i => (g * g) * ((t_at x i - mu) * (t_at x i - mu)))%Qc) by (intros; ring).
    rewrite (qsum_scale (g * g)%Qc). field. exact Hq.
  Qed.
End C54.

(** ** Examples *)
Definition vec (l : list Qc) : tensor := mkT [List.length l] (fun i => nth (nth 0 i 0) l 0%Qc).
Definition mat (r c : nat) (l : list Qc) : tensor := mkT [r; c] (fun i => nth (nth 0 i 0 * c + nth 1 i 0) l 0%Qc).
Definition ex_bn : batchnorm := mkBN (vec [0; 0]%Qc) (vec [1; 1]%Qc) (Some (vec [1; 1]%Qc)) (Some (vec [0; 0]%Qc)) None (-1) (Q2Qc (1 # 2)) 1.
Definition ex_in : tensor := mat 2 2 [1; Q2Qc 2; Q2Qc 3; Q2Qc 6]%Qc.
Definition ex_ops : list bn_op := [(ex_in, Some false, None); (ex_in, Some true, None); (ex_in, Some false, None)].

(** The hypotheses of the theorems hold; two training calls with an evaluation
    between. *)
Example C54_example :
  bn_wf 2 ex_bn /\ bn_fits 2 ex_bn ex_in /\
  (forall x u c, In (x, u, c) ex_ops -> bn_fits 2 ex_bn x) /\
  let b' := bn_run (fun q => q) ex_bn ex_ops in
  map (fun i => this (t_at (bn_mean b') [i])) [0; 1] = [3 # 2; 3]%Q /\ map (fun i => this (t_at (bn_var b') [i])) [0; 1] = [1; 13 # 4]%Q.
Proof.
  assert (Hf : bn_fits 2 ex_bn ex_in).
  { split; [unfold valid_axis; cbn; lia|]. split; [reflexivity|]. repeat constructor. }
  split; [|split; [exact Hf|split]].
  - repeat split; intros t E; injection E as <-; reflexivity.
  - intros x u c [E|[E|[E|[]]]]; injection E as <- _ _; exact Hf.
  - vm_compute. split; reflexivity.
Qed.

(** "A call that fails leaves the layer as it was": false.  A batch whose feature
    axis has size 1 broadcasts into the statistics before the check of the shapes
    fails. *)
Theorem C54_atomic_refuted :
  exists rsqrt n b x b' e, bn_wf n b /\ bn_call rsqrt b x (Some false) None = (b', Err e) /\
    t_at (bn_mean b') [0] <> t_at (bn_mean b) [0].
Proof.
  exists (fun q => q), 2, ex_bn, (mat 2 1 [Q2Qc 4; Q2Qc 8]%Qc). eexists. eexists. split; [|split].
  - repeat split; intros t E; injection E as <-; reflexivity.
  - reflexivity.
  - vm_compute. discriminate.
Qed.
(** The hypotheses of [C54_broadcast] in both directions. *)
Example C54_broadcast_example :
  (bn_wf 2 ex_bn /\ bn_fits 1 ex_bn (mat 2 1 [Q2Qc 4; Q2Qc 8]%Qc)) /\
  (let b := mkBN (vec [Q2Qc 5]%Qc) (vec [1]%Qc) None None None (-1) (Q2Qc (1 # 2)) 1 in bn_wf 1 b /\ bn_fits 2 b ex_in).
Proof.
  split; split; try (repeat split; intros t E; (discriminate || (injection E as <-; reflexivity))).
  all: repeat split; repeat constructor; vm_compute; try reflexivity; try discriminate.
Qed.
(** "The statistics have num_features entries": false.  With num_features 1 and no
    scale and bias, a batch with 2 features is accepted and the statistics get 2
    entries. *)
Theorem C54_shape_refuted :
  exists rsqrt b x b' y, bn_wf 1 b /\ bn_call rsqrt b x (Some false) None = (b', Ok y) /\ ~ bn_wf 1 b' /\
    (let m := bn_momentum b in forall f : nat, (f < 2)%nat ->
       t_at (bn_mean b') [f] = m * t_at (bn_mean b) [0%nat] + (1 - m) * mean_of (map (fun i => t_at x [i; f]) (seq 0 2)))%Qc.
Proof.
  exists (fun q => q), (mkBN (vec [Q2Qc 5]%Qc) (vec [1]%Qc) None None None (-1) (Q2Qc (1 # 2)) 1), ex_in. eexists. eexists. split; [|split; [|split]].
  - repeat split; intros t E; discriminate.
  - reflexivity.
  - intros (H & _). vm_compute in H. discriminate.
  - intros m f Hf. destruct f as [|[|f]]; [| |lia]; apply Qc_is_canon; vm_compute; reflexivity.
Qed.
(** "Features are normalized separately": false for an axis below [-rank], which is
    accepted: with axis -3 on a matrix the mean is that of all entries. *)
Theorem C54_axis_refuted :
  exists b x b' y, ~ valid_axis (List.length (t_shape x)) (bn_axis b) /\ bn_wf 2 b /\
    bn_call (fun _ => 1%Qc) b x (Some false) None = (b', Ok y) /\
    t_at y [0; 0] = Qcminus (t_at x [0; 0]) (mean_of (map (t_at x) (all_idx (t_shape x)))) /\
    (let m := bn_momentum b in forall f : nat, (f < 2)%nat ->
       t_at (bn_mean b') [f] = m * t_at (bn_mean b) [f] + (1 - m) * mean_of (map (t_at x) (all_idx (t_shape x))))%Qc.
Proof.
  exists (mkBN (vec [0; 0]%Qc) (vec [1; 1]%Qc) (Some (vec [1; 1]%Qc)) (Some (vec [0; 0]%Qc)) None (-3) (Q2Qc (1 # 2)) 1), ex_in.
  eexists. eexists. split; [|split; [|split; [|split]]].
  - unfold valid_axis. cbn. lia.
  - repeat split; intros t E; injection E as <-; reflexivity.
  - reflexivity.
  - apply Qc_is_canon. vm_compute. reflexivity.
  - intros m f Hf. destruct f as [|[|f]]; [| |lia]; apply Qc_is_canon; vm_compute; reflexivity.
Qed.

(** ** C62: LayerNorm *)
Section C62.
  Context (rsqrt : Qc -> Qc).

  (** Every entry is normalized with the mean and variance of the entries that share
      its coordinates outside the reduction axes. *)
  Theorem C62_layernorm l x n d :
    axes_ok (List.length (t_shape x)) (ln_red l) -> ln_feat l = [d] -> valid_axis (List.length (t_shape x)) d ->
    let a := axis_of (List.length (t_shape x)) d in
    nth a (t_shape x) 0 = n -> ln_wf n l ->
    exists y, ln_call rsqrt l x = Ok y /\ t_shape y = t_shape x /\
      forall idx, in_range (t_shape x) idx ->
        let f := nth a idx 0 in
        t_at y idx = ((t_at x idx - mean_of (row x (ln_red l) idx)) *
                      (rsqrt (variance_of (row x (ln_red l) idx) + ln_epsilon l) * opt_at (ln_scale l) [f] 1)
                      + opt_at (ln_bias l) [f] 0)%Qc.
  Proof. exact (layernorm_ok rsqrt l x n d). Qed.

  (** So the output at an entry depends on those entries only: with the default
      axes, one example never influences another. *)
  Theorem C62_independent l x x' n d y y' idx :
    axes_ok (List.length (t_shape x)) (ln_red l) -> ln_feat l = [d] -> valid_axis (List.length (t_shape x)) d ->
    nth (axis_of (List.length (t_shape x)) d) (t_shape x) 0 = n -> ln_wf n l -> t_shape x' = t_shape x ->
    ln_call rsqrt l x = Ok y -> ln_call rsqrt l x' = Ok y' -> in_range (t_shape x) idx ->
    (forall idx', in_range (t_shape x) idx' -> same_rowb (ln_red l) idx idx' = true -> t_at x idx' = t_at x' idx') ->
    t_at y idx = t_at y' idx.
  Proof.
    intros Hax Hfe Hd Hn Hw Hs Hy Hy' Hr Hag.
    destruct (layernorm_ok rsqrt l x n d Hax Hfe Hd Hn Hw) as (z & E & _ & H). rewrite E in Hy. injection Hy as <-.
    pose proof (layernorm_ok rsqrt l x' n d) as H'. rewrite Hs in H'. destruct (H' Hax Hfe Hd Hn Hw) as (z' & E' & _ & H2).
    rewrite E' in Hy'. injection Hy' as <-. cbv zeta in H, H2. rewrite H, H2 by exact Hr.
    rewrite <- (row_last_ext x x' (ln_red l) idx Hs Hag). rewrite <- Hag; auto.
    unfold same_rowb. apply forallb_forall. intros i _. rewrite Nat.eqb_refl. apply orb_true_r.
  Qed.

  Lemma centered_zero_mean x red idx (g : Qc) :
    in_range (t_shape x) idx ->
    mean_of (map (fun e => (e - mean_of (row x red idx)) * g)%Qc (row x red idx)) = 0%Qc.
  Proof.
    intros Hr. set (l := row x red idx).
    assert (Hl : l <> []).
    { unfold l, row. intros E. apply map_eq_nil in E.
      assert (Hin : In idx (filter (same_rowb red idx) (all_idx (t_shape x)))).
      { apply filter_In. split; [now apply in_all_idx|]. apply forallb_forall. intros i _. rewrite Nat.eqb_refl. apply orb_true_r. }
      rewrite E in Hin. destruct Hin. }
    assert (Hq : qnat (List.length l) <> 0%Qc) by (apply qnat_neq; destruct l; [congruence|discriminate]).
    set (mu := mean_of l). assert (Hmu : (qsum l = mu * qnat (List.length l))%Qc) by (unfold mu, mean_of; field; exact Hq).
    assert (Hsum : forall m l, (qsum (map (fun e => (e - m) * g) l) = g * (qsum l - m * qnat (List.length l)))%Qc).
    { intros m l0. induction l0 as [|e l0 IH]; [cbn [map qsum List.length]; rewrite qnat_0; ring|].
      cbn [map qsum List.length]. rewrite IH, qnat_S. ring. }
    unfold mean_of. rewrite map_length, Hsum, Hmu. field. exact Hq.
  Qed.

  Lemma row_shared x red idx idx' : in_range (t_shape x) idx -> in_range (t_shape x) idx' -> same_rowb red idx idx' = true ->
    row x red idx' = row x red idx.
  Proof.
    intros Hr Hr' Hs. unfold row. f_equal. apply filter_ext. intros j. unfold same_rowb in *.
    apply in_range_length in Hr, Hr'. rewrite forallb_forall in Hs. rewrite <- Hr, <- Hr' in *.
    apply eq_true_iff_eq. rewrite !forallb_forall. split; intros H i Hi; specialize (H i Hi); specialize (Hs i Hi);
      destruct (existsb _ red); auto; cbn [orb] in *; apply Nat.eqb_eq in H, Hs; apply Nat.eqb_eq; congruence.
  Qed.
  (** Without scale and bias, the output averages to 0 over every normalized group. *)
  Theorem C62_zero_mean l x d y idx :
    axes_ok (List.length (t_shape x)) (ln_red l) -> ln_feat l = [d] -> valid_axis (List.length (t_shape x)) d ->
    ln_scale l = None -> ln_bias l = None -> ln_call rsqrt l x = Ok y -> in_range (t_shape x) idx ->
    mean_of (row y (ln_red l) idx) = 0%Qc.
  Proof.
    intros Hax Hfe Hd Hsc Hbi Hy Hr.
    destruct (layernorm_ok rsqrt l x _ d Hax Hfe Hd eq_refl) as (z & E & Hzs & H).
    { split; intros t Et; congruence. }
    rewrite E in Hy. injection Hy as ->. cbv zeta in H. rewrite Hsc, Hbi in H. cbn [opt_at] in H.
    rewrite <- (centered_zero_mean x (ln_red l) idx (rsqrt (variance_of (row x (ln_red l) idx) + ln_epsilon l)) Hr).
    f_equal. unfold row at 1. rewrite Hzs. change (row x (ln_red l) idx) with (map (t_at x) (filter (same_rowb (ln_red l) idx) (all_idx (t_shape x)))) at 3. rewrite map_map. apply map_ext_in. intros j Hj. apply filter_In in Hj. destruct Hj as (Hj1 & Hj2).
    apply in_all_idx in Hj1. rewrite H by exact Hj1. rewrite (row_shared x (ln_red l) idx j) by assumption. ring.
  Qed.

  (** Axes that do not exist, or that are named twice, are rejected. *)
  Theorem C62_bad_axes l x : ~ axes_ok (List.length (t_shape x)) (ln_red l) -> ln_call rsqrt l x = Err ValueError.
  Proof.
    intros H. unfold ln_call. rewrite check_axes_err; [reflexivity|]. intros (H1 & H2 & _). apply H. split; auto.
  Qed.
End C62.

Definition ex_ln : layernorm := mkLN (Some (vec [Q2Qc 2; 1]%Qc)) None [(-1)%Z] [(-1)%Z] 0.
Example C62_example :
  axes_ok 2 (ln_red ex_ln) /\ valid_axis 2 (-1) /\ ln_wf 2 ex_ln /\
  exists y, ln_call (fun _ => 1%Qc) ex_ln ex_in = Ok y /\ map (fun i => this (t_at y i)) (all_idx [2; 2]) = [-1; 1 # 2; -3; 3 # 2]%Q.
Proof.
  split; [|split; [|split]].
  - split; [intros d [<-|[]]; unfold valid_axis; lia|]. repeat constructor. intros [].
  - unfold valid_axis. lia.
  - split; intros t E; [injection E as <-; reflexivity|discriminate].
  - eexists. split; [reflexivity|]. vm_compute. reflexivity.
Qed.

Print Assumptions C54_history.
Print Assumptions C54_output_moments.
Print Assumptions C62_independent.
