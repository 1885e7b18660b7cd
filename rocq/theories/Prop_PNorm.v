(** Prop_PNorm: C83, BatchNorm and LayerNorm over the devices of an axis. *)
From Coq Require Import ZArith QArith Qcanon Lia Permutation.
From Verif Require Import PyBase ModuleM ContextM TensorM NnM Spec_Nn Tensor_proofs Dropout_proofs Norm_proofs BatchNorm_proofs LayerNorm_proofs PNormM Spec_PNorm PNorm_proofs Prop_Norm.
Local Open Scope string_scope.
Local Open Scope nat_scope.
Local Open Scope list_scope.

Section C83.
  Context (rsqrt : Qc -> Qc).

  (** A training step: every device uses, for its output and for its running
      statistics, the mean and variance of the inputs of all devices of its group
      together. *)
  Theorem C83_train n groups devs ura ctx :
    devs <> [] -> bn_devices_ok n devs -> groups_ok (List.length devs) groups ->
    (forall b x, In (b, x) devs -> flag_of ura (bn_ura b) ctx "use_running_average" = Some false) ->
    exists out, bn_call_on rsqrt groups devs ura ctx = Ok out /\ List.length out = List.length devs /\
      forall d b x g, nth_error devs d = Some (b, x) -> is_group (List.length devs) groups d g ->
        let a := axis_of (List.length (t_shape x)) (bn_axis b) in
        let m := bn_momentum b in
        let entries := joint_channel (map snd devs) g a in
        exists b' y, nth_error out d = Some (b', y) /\ bn_wf n b' /\ same_config b b' /\
          (forall f, f < n -> t_at (bn_mean b') [f] = (m * t_at (bn_mean b) [f] + (1 - m) * mean_of (entries f))%Qc) /\
          (forall f, f < n -> t_at (bn_var b') [f] = (m * t_at (bn_var b) [f] + (1 - m) * variance_of (entries f))%Qc) /\
          t_shape y = t_shape x /\
          forall idx, in_range (t_shape x) idx ->
            let f := nth a idx 0 in
            t_at y idx = ((t_at x idx - mean_of (entries f)) * (rsqrt (variance_of (entries f) + bn_epsilon b) * opt_at (bn_scale b) [f] 1)
                          + opt_at (bn_bias b) [f] 0)%Qc.
  Proof.
    intros H1 H2 H3 H4. destruct (bn_train_on rsqrt n groups devs ura ctx H1 H2 H3 H4) as (out & E & Hl & H). exists out. split; [exact E|].
    split; [exact Hl|]. intros d b x g Hd Hg. destruct (H d b x g Hd Hg) as (b' & y & Ed & Hw & Hc & Hm & Hv & Hs & Hy). cbv zeta.
    exists b', y. do 6 (split; [assumption|]). exact Hy.
  Qed.

  (** With use_running_average the devices do not communicate: each gets what the
      layer would give without an axis name, and no layer changes. *)
  Theorem C83_eval n groups devs ura ctx :
    devs <> [] -> bn_devices_ok n devs ->
    (forall b x, In (b, x) devs -> flag_of ura (bn_ura b) ctx "use_running_average" = Some true) ->
    exists out, bn_call_on rsqrt groups devs ura ctx = Ok out /\ List.length out = List.length devs /\
      forall d b x, nth_error devs d = Some (b, x) ->
        exists y, nth_error out d = Some (b, y) /\ bn_call rsqrt b x ura ctx = (b, Ok y).
  Proof. exact (bn_eval_on rsqrt n groups devs ura ctx). Qed.

  (** After any history of steps, in both modes in any order, the statistics of a
      device are the moving averages of the statistics of its group. *)
  Theorem C83_history n groups ops bs :
    bs <> [] -> bn_replicas n bs -> groups_ok (List.length bs) groups ->
    (forall xs u c, In (xs, u, c) ops -> step_fits n bs xs) ->
    let bs' := bn_run_on rsqrt groups bs ops in
    List.length bs' = List.length bs /\
    forall d b g, nth_error bs d = Some b -> is_group (List.length bs) groups d g ->
      let steps := training_steps (bn_ura b) ops in
      exists b', nth_error bs' d = Some b' /\ same_config b b' /\
        (forall f, f < n -> t_at (bn_mean b') [f] = moving_average (bn_momentum b) (t_at (bn_mean b) [f]) (step_values mean_of (bn_axis b) g f steps)) /\
        (forall f, f < n -> t_at (bn_var b') [f] = moving_average (bn_momentum b) (t_at (bn_var b) [f]) (step_values variance_of (bn_axis b) g f steps)).
  Proof. intros H1 H2 H3 H4 bs'. destruct (bn_history_on rsqrt n groups ops bs H1 H2 H3 H4) as (A & _ & B). split; [exact A|exact B]. Qed.

  (** So devices of one group that start with equal statistics have equal statistics
      after any history, whatever their inputs. *)
  Theorem C83_in_sync n groups ops bs d e g b c b' c' :
    bs <> [] -> bn_replicas n bs -> groups_ok (List.length bs) groups ->
    (forall xs u k, In (xs, u, k) ops -> step_fits n bs xs) ->
    is_group (List.length bs) groups d g -> is_group (List.length bs) groups e g ->
    nth_error bs d = Some b -> nth_error bs e = Some c ->
    (forall f, f < n -> t_at (bn_mean b) [f] = t_at (bn_mean c) [f] /\ t_at (bn_var b) [f] = t_at (bn_var c) [f]) ->
    nth_error (bn_run_on rsqrt groups bs ops) d = Some b' -> nth_error (bn_run_on rsqrt groups bs ops) e = Some c' ->
    forall f, f < n -> t_at (bn_mean b') [f] = t_at (bn_mean c') [f] /\ t_at (bn_var b') [f] = t_at (bn_var c') [f].
  Proof.
    intros H1 H2 H3 H4 Hgd Hge Hb Hc Heq Hb' Hc' f Hf.
    destruct (C83_history n groups ops bs H1 H2 H3 H4) as (_ & H).
    destruct (H d b g Hb Hgd) as (b2 & Eb & _ & Mb & Vb). destruct (H e c g Hc Hge) as (c2 & Ec & _ & Mc & Vc).
    rewrite Hb' in Eb. injection Eb as <-. rewrite Hc' in Ec. injection Ec as <-.
    destruct (H2 b c (nth_error_In _ _ Hb) (nth_error_In _ _ Hc)) as (_ & Eu & Ea & Em & _).
    rewrite Mb, Vb, Mc, Vc, Eu, Ea, Em by exact Hf. destruct (Heq f Hf) as (-> & ->). auto.
  Qed.

  (** Cutting a batch along axis 0 into one piece for each of [D] devices changes
      nothing: output and statistics are those of one device with the whole batch. *)
  Theorem C83_whole_batch n b x D m s ura ctx fl :
    bn_wf n b -> bn_fits n b x -> t_shape x = D * m :: s -> axis_of (List.length (t_shape x)) (bn_axis b) <> 0 ->
    flag_of ura (bn_ura b) ctx "use_running_average" = Some fl ->
    exists b' y out, bn_call rsqrt b x ura ctx = (b', Ok y) /\
      bn_call_on rsqrt None (map (fun d => (b, shard m x d)) (seq 0 D)) ura ctx = Ok out /\ List.length out = D /\
      forall d, d < D -> exists bd yd, nth_error out d = Some (bd, yd) /\
        teq (bn_mean bd) (bn_mean b') /\ teq (bn_var bd) (bn_var b') /\ same_config b' bd /\ teq yd (shard m y d).
  Proof. exact (bn_whole_batch rsqrt n b x D m s ura ctx fl). Qed.

  (** Groups in which a device is missing or repeated are rejected. *)
  Theorem C83_bad_groups n gs devs ura ctx :
    devs <> [] -> bn_devices_ok n devs ->
    (forall b x, In (b, x) devs -> flag_of ura (bn_ura b) ctx "use_running_average" = Some false) ->
    ~ Permutation (List.concat gs) (seq 0 (List.length (List.concat gs))) ->
    bn_call_on rsqrt (Some gs) devs ura ctx = Err ValueError.
  Proof.
    intros Hne Hok Hfl Hp. destruct devs as [|[b0 x0] devs']; [congruence|]. set (devs := (b0, x0) :: devs') in *.
    assert (H0 : In (b0, x0) devs) by now left. destruct (Hok b0 x0 b0 x0 H0 H0) as (_ & F0 & _). pose proof F0 as (Hv & Hn & _).
    destruct (axis_of_valid _ _ Hv) as (Ha & _).
    unfold bn_call_on, devs at 1. fold devs. rewrite (bn_one_program n b0 x0 devs' Hok : forallb _ devs = true). cbn [negb].
    rewrite first_from_flag, (Hfl b0 x0 H0). cbn [rbind]. rewrite (bn_axes_ok n b0 x0 F0). cbn [snd].
    set (red := others (List.length (t_shape x0)) _). unfold compute_stats_on.
    destruct (rmapM_forall2 (fun x => let mean2 := mean_over (mkT (t_shape x) (fun i => (t_at x i * t_at x i)%Qc)) red in
                           let mean := mean_over x red in concat0 mean mean2) (fun _ _ => True) (map snd devs)) as (cs & Ecs & _).
    { intros x Hx. apply in_map_iff in Hx. destruct Hx as ([b x'] & <- & Hin). destruct (Hok b0 x0 b x' H0 Hin) as (_ & _ & Es & _).
      cbv zeta. unfold concat0. cbn [mean_over t_shape snd]. rewrite Es. unfold red. rewrite kept_others by auto.
      rewrite nlist_eqb_refl. eauto. }
    cbv zeta in Ecs |- *. rewrite Ecs. cbn [rbind]. unfold pmean. rewrite groups_check_false by exact Hp. reflexivity.
  Qed.

  (** LayerNorm: every entry is normalized with the mean and variance of the entries,
      on any device of the group, that share its coordinates outside the reduction
      axes; some axis must not be reduced. *)
  Theorem C83_layernorm n groups devs dax s red :
    devs <> [] -> ln_devices_ok n devs -> groups_ok (List.length devs) groups ->
    (forall l x, In (l, x) devs -> t_shape x = s /\ ln_red l = red /\ ln_feat l = [dax]) ->
    axes_ok (List.length s) red -> valid_axis (List.length s) dax ->
    let a := axis_of (List.length s) dax in
    nth a s 0 = n -> (exists i, i < List.length s /\ forall e, In e red -> names_axis (List.length s) e i = false) ->
    exists out, ln_call_on rsqrt groups devs = Ok out /\ List.length out = List.length devs /\
      forall d l x g, nth_error devs d = Some (l, x) -> is_group (List.length devs) groups d g ->
        exists y, nth_error out d = Some y /\ t_shape y = s /\
          forall idx, in_range s idx ->
            let f := nth a idx 0 in
            let group := joint_row (map snd devs) g red idx in
            t_at y idx = ((t_at x idx - mean_of group) * (rsqrt (variance_of group + ln_epsilon l) * opt_at (ln_scale l) [f] 1)
                          + opt_at (ln_bias l) [f] 0)%Qc.
  Proof. exact (ln_on rsqrt n groups devs dax s red). Qed.

  (** If all axes are reduced, as for vectors with the default settings, LayerNorm
      with an axis name raises. *)
  Theorem C83_layernorm_scalar n groups devs s red :
    devs <> [] -> ln_devices_ok n devs -> (forall l x, In (l, x) devs -> t_shape x = s /\ ln_red l = red) ->
    axes_ok (List.length s) red -> (forall i, i < List.length s -> exists e, In e red /\ names_axis (List.length s) e i = true) ->
    ln_call_on rsqrt groups devs = Err ValueError.
  Proof. exact (ln_on_scalar rsqrt n groups devs s red). Qed.
End C83.

(** "LayerNorm with an axis name accepts what it accepts without one": false for
    vectors. *)
Theorem C83_vector_refuted :
  exists l x y, ln_call (fun q => q) l x = Ok y /\ ln_call_on (fun q => q) None [(l, x); (l, x)] = Err ValueError.
Proof. exists ex_ln, (vec [1; Q2Qc 3]%Qc). eexists. split; reflexivity. Qed.

(** ** Examples *)
Definition ex_xs : list tensor := [ex_in; mat 2 2 [Q2Qc 5; 0; Q2Qc 7; 0]%Qc; mat 2 2 [0; 1; 0; 1]%Qc; mat 2 2 [Q2Qc 2; 1; Q2Qc 2; 1]%Qc].
Definition ex_gs : list (list nat) := [[0; 1]; [3; 2]].
Definition ex_steps : list bn_op_on := [(ex_xs, Some false, None); (ex_xs, Some true, None); (ex_xs, Some false, None)].

Lemma ex_bn_wf : bn_wf 2 ex_bn.
Proof. repeat split; intros t E; injection E as <-; reflexivity. Qed.
Lemma ex_bn_fits x : In x ex_xs -> bn_fits 2 ex_bn x.
Proof.
  intros H. assert (Hs : t_shape x = [2; 2]) by (repeat (destruct H as [<-|H]; [reflexivity|]); destruct H).
  unfold bn_fits. rewrite Hs. split; [unfold valid_axis; cbn; lia|]. split; [reflexivity|]. repeat constructor.
Qed.
Lemma ex_groups_ok : groups_ok 4 (Some ex_gs).
Proof.
  split; [|split; [|exists 2]].
  - repeat constructor; cbn; intuition discriminate.
  - intros d. cbn. split; [intuition lia|]. intros H. do 4 (destruct d as [|d]; [tauto|]). lia.
  - intros g [<-|[<-|[]]]; reflexivity.
Qed.

(** Four devices in two groups; two training steps with an evaluation between.  The
    means of the first feature: 4 on devices 0 and 1, 1 on devices 2 and 3; after the
    two steps with momentum 1/2 the running means are three quarters of that. *)
Example C83_example :
  bn_replicas 2 (repeat ex_bn 4) /\ groups_ok 4 (Some ex_gs) /\
  (forall xs u c, In (xs, u, c) ex_steps -> step_fits 2 (repeat ex_bn 4) xs) /\
  bn_devices_ok 2 (combine (repeat ex_bn 4) ex_xs) /\
  (is_group 4 (Some ex_gs) 2 [3; 2] /\ is_group 4 (Some ex_gs) 3 [3; 2]) /\
  map (fun b => this (t_at (bn_mean b) [0])) (bn_run_on (fun q => q) (Some ex_gs) (repeat ex_bn 4) ex_steps) = [3; 3; 3 # 4; 3 # 4]%Q.
Proof.
  assert (Hr : bn_replicas 2 (repeat ex_bn 4)).
  { intros b b' Hb Hb'. apply repeat_spec in Hb, Hb'. subst. split; [exact ex_bn_wf|]. tauto. }
  assert (Hst : forall xs u c, In (xs, u, c) ex_steps -> step_fits 2 (repeat ex_bn 4) xs).
  { intros xs u c H. assert (xs = ex_xs) by (destruct H as [E|[E|[E|[]]]]; now injection E as <- _ _). subst xs. split; [reflexivity|]. split.
    - intros x x' Hx Hx'. repeat (destruct Hx as [<-|Hx]; [repeat (destruct Hx' as [<-|Hx']; [reflexivity|]); destruct Hx'|]). destruct Hx.
    - intros b x Hb Hx. apply repeat_spec in Hb. subst b. now apply ex_bn_fits. }
  split; [exact Hr|]. split; [exact ex_groups_ok|]. split; [exact Hst|]. split.
  - apply devices_of; [exact Hr|]. eapply Hst. now left.
  - split; [split; (split; [right; now left|cbn; tauto])|]. vm_compute. reflexivity.
Qed.

(** The batch of four examples cut in two, with the first device's output. *)
Definition ex_batch : tensor := mat 4 2 [1; Q2Qc 2; Q2Qc 3; Q2Qc 6; Q2Qc 5; 0; Q2Qc 7; 0]%Qc.
Example C83_whole_example :
  bn_fits 2 ex_bn ex_batch /\ t_shape ex_batch = [2 * 2; 2] /\ axis_of 2 (bn_axis ex_bn) <> 0 /\
  match bn_call_on (fun _ => 1%Qc) None (map (fun d => (ex_bn, shard 2 ex_batch d)) (seq 0 2)) (Some false) None with
  | Ok ((b, y) :: _) => this (t_at (bn_var b) [0]) = (3 # 1)%Q /\ map (fun i => this (t_at y i)) (all_idx [2; 2]) = [-3; 0; -1; 4]%Q
  | _ => False
  end.
Proof.
  split; [|split; [reflexivity|split; [discriminate|vm_compute; split; reflexivity]]].
  unfold bn_fits. split; [unfold valid_axis; cbn; lia|]. split; [reflexivity|]. repeat constructor; cbn; lia.
Qed.

(** A group that names device 0 twice. *)
Example C83_bad_groups_example : ~ Permutation (List.concat [[0; 0]]) (seq 0 (List.length (List.concat [[0; 0]]))).
Proof. intros H. assert (H1 : In 1 (List.concat [[0; 0]])) by (eapply Permutation_in; [symmetry; exact H|cbn; tauto]). cbn in H1. intuition discriminate. Qed.

(** A row of four features over two devices. *)
Definition ex_halves : list tensor := [mat 1 2 [0; Q2Qc 2]%Qc; mat 1 2 [Q2Qc 4; Q2Qc 6]%Qc].
Definition ex_lns : list (layernorm * tensor) := map (fun x => (ex_ln, x)) ex_halves.
Example C83_layernorm_example :
  ln_devices_ok 2 ex_lns /\ axes_ok 2 (ln_red ex_ln) /\ (exists i, i < 2 /\ forall e, In e (ln_red ex_ln) -> names_axis 2 e i = false) /\
  match ln_call_on (fun _ => 1%Qc) None ex_lns with
  | Ok [y0; y1] => map (fun i => this (t_at y0 i)) (all_idx [1; 2]) = [-6; -1]%Q /\ map (fun i => this (t_at y1 i)) (all_idx [1; 2]) = [2; 3]%Q
  | _ => False
  end.
Proof.
  split; [|split; [|split]].
  - intros l x l' x' H H'. unfold ex_lns in *. apply in_map_iff in H, H'. destruct H as (h & E & Hh), H' as (h' & E' & Hh').
    injection E as <- <-. injection E' as <- <-.
    assert (Hs : forall t, In t ex_halves -> t_shape t = [1; 2]) by (intros t [<-|[<-|[]]]; reflexivity).
    rewrite (Hs h Hh), (Hs h' Hh'). repeat split; auto; intros t Et; [injection Et as <-; reflexivity|discriminate].
  - split; [intros d [<-|[]]; unfold valid_axis; lia|]. repeat constructor. intros [].
  - exists 0. split; [lia|]. intros e [<-|[]]. reflexivity.
  - vm_compute. split; reflexivity.
Qed.

Print Assumptions C83_train.
Print Assumptions C83_history.
Print Assumptions C83_in_sync.
Print Assumptions C83_whole_batch.
Print Assumptions C83_layernorm.
