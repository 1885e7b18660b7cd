(** Prop_Dropout: C53, what a Dropout layer returns and how many rng keys it
    uses. *)
From Coq Require Import ZArith QArith Qcanon Lia.
From Verif Require Import PyBase ModuleM ContextM TensorM NnM Spec_Nn Tensor_proofs Dropout_proofs.
Local Open Scope string_scope.
Local Open Scope nat_scope.
Local Open Scope list_scope.

Section C53.
  Context (blake : string -> nat) (bernoulli : key -> Qc -> list nat -> list nat -> bool) (cur : trace_state).
  Let call := dropout_call blake bernoulli cur.

  (** The flag is looked up in the call, then on the module, then in the context;
      if it is True, or the rate is 0, the very input is returned and no stream
      moves, with or without a context. *)
  Theorem C53_identity d x det ctx ss b :
    flag_of det (d_det d) ctx "deterministic" = Some b ->
    b = true \/ d_rate d = 0%Qc ->
    call d x det ctx ss = (Ok x, ss).
  Proof.
    intros Hf H. unfold call, dropout_call. rewrite first_from_flag, Hf.
    destruct H as [-> | ->]; [now rewrite orb_true_r|]. now rewrite qc_eqb_refl.
  Qed.

  (** If the flag is given nowhere the call fails, whatever the rate. *)
  Theorem C53_no_flag d x det ctx ss :
    flag_of det (d_det d) ctx "deterministic" = None -> call d x det ctx ss = (Err ValueError, ss).
  Proof. intros Hf. unfold call, dropout_call. now rewrite first_from_flag, Hf. Qed.

  (** Sampling: with the flag False, a rate other than 0 and 1, and a live context
      holding the stream, exactly one key of that stream is used.  The entries that
      are kept are decided by the key and the positions outside the broadcast axes
      alone; a kept entry is divided by [1 - rate], the others are 0. *)
  Theorem C53_sampling d det c ss k ss' shape :
    flag_of det (d_det d) (Some c) "deterministic" = Some false ->
    d_rate d <> 0%Qc -> d_rate d <> 1%Qc ->
    make_rng blake cur c (d_coll d) ss = (Ok k, ss') ->
    (forall z, In z (d_broadcast d) -> valid_axis (List.length shape) z) ->
    (exists i, dget (d_coll d) (x_rngs c) = Some i /\ one_draw ss ss' i) /\
    exists keep : list nat -> bool,
      (forall idx, in_range shape idx ->
         keep idx = bernoulli k (1 - d_rate d)%Qc (set_axes (d_broadcast d) 1 shape) (set_axes (d_broadcast d) 0 idx)) /\
      (forall idx idx', in_range shape idx -> in_range shape idx' -> same_outside (d_broadcast d) idx idx' -> keep idx = keep idx') /\
      forall x, t_shape x = shape -> exists y,
        call d x det (Some c) ss = (Ok y, ss') /\ t_shape y = shape /\
        forall idx, t_at y idx = if keep idx then (t_at x idx / (1 - d_rate d))%Qc else 0%Qc.
  Proof.
    intros Hf H0 H1 Hm Hv. unfold make_rng in Hm.
    destruct (dget (d_coll d) (x_rngs c)) as [i|] eqn:Hd; [|discriminate].
    destruct (trace_ok cur (x_trace c)) eqn:Ht; cbn [negb] in Hm; [|discriminate].
    destruct (nth_error ss i) as [s|] eqn:Hs; [|discriminate]. injection Hm as <- <-.
    split; [exists i; split; [reflexivity|now apply one_draw_bump]|].
    exists (fun idx => bernoulli (KFold (s_key s) (stable_hash blake (s_path s ++ [s_count s]))) (1 - d_rate d)%Qc
                        (set_axes (d_broadcast d) 1 shape) (broadcast_idx (set_axes (d_broadcast d) 1 shape) idx)).
    split; [|split].
    - intros idx Hr. now rewrite broadcast_idx_axes.
    - intros idx idx' Hr Hr' Hso. rewrite !broadcast_idx_axes by assumption. now rewrite (set_axes_same _ _ _ 0 Hso).
    - intros x <-. eexists. split; [unfold call; eapply dropout_sampling; eauto|]. split; reflexivity.
  Qed.

  (** Scaling preserves the mean: if an entry is kept with probability
      [1 - rate], its expectation is the input. *)
  Theorem C53_mean_preserved (rate x : Qc) : rate <> 1%Qc -> ((1 - rate) * (x / (1 - rate)) + rate * 0 = x)%Qc.
  Proof.
    intros H. field. intros E. apply H. change ((1 - rate)%Qc = 0%Qc) in E. transitivity (1 - (1 - rate))%Qc; [ring|]. rewrite E. ring.
  Qed.

  (** A rate of 1 gives zeros, without a key. *)
  Theorem C53_rate_one d x det ctx ss :
    flag_of det (d_det d) ctx "deterministic" = Some false -> d_rate d = 1%Qc ->
    exists y, call d x det ctx ss = (Ok y, ss) /\ t_shape y = t_shape x /\ forall idx, t_at y idx = 0%Qc.
  Proof.
    intros Hf H. eexists. split.
    - unfold call, dropout_call. rewrite first_from_flag, Hf, H, qc_eqb_refl. reflexivity.
    - split; reflexivity.
  Qed.

  (** The failures when a mask is needed.  No stream moves, except when a broadcast
      axis is out of range: then the key has been used. *)
  Theorem C53_errors d x det ctx ss :
    flag_of det (d_det d) ctx "deterministic" = Some false -> d_rate d <> 0%Qc -> d_rate d <> 1%Qc ->
    (ctx = None -> call d x det ctx ss = (Err ValueError, ss)) /\
    (forall c, ctx = Some c -> dget (d_coll d) (x_rngs c) = None -> call d x det ctx ss = (Err ValueError, ss)) /\
    (forall c, ctx = Some c -> dget (d_coll d) (x_rngs c) <> None -> trace_ok cur (x_trace c) = false ->
       call d x det ctx ss = (Err TraceContextError, ss)) /\
    (forall c k ss' z, ctx = Some c -> make_rng blake cur c (d_coll d) ss = (Ok k, ss') ->
       In z (d_broadcast d) -> ~ valid_axis (List.length (t_shape x)) z -> call d x det ctx ss = (Err IndexError, ss')).
  Proof.
    intros Hf H0 H1. unfold call, dropout_call. rewrite first_from_flag, Hf, !qc_eqb_neq by assumption. cbn [orb].
    split; [|split; [|split]].
    - intros ->. reflexivity.
    - intros c -> H. unfold make_rng. now rewrite H.
    - intros c -> H Ht. unfold make_rng. destruct (dget (d_coll d) (x_rngs c)); [|congruence]. now rewrite Ht.
    - intros c k ss' z -> -> Hz Hn. now rewrite (broadcast_shape_err _ _ z Hz Hn).
  Qed.
End C53.

(** ** Examples *)
Definition ex_x : tensor := mkT [2; 3] (fun idx => qnat (nth 0 idx 0 * 3 + nth 1 idx 0 + 1)).
Definition ex_stream : stream := mkStream (KSeed 7) 2 [].
Definition ex_c : context := mkCtx [("dropout", 1)] [("deterministic", false)] (0, 0).
Definition ex_d : dropout := mkDropout (Q2Qc (1 # 4)) [(-2)%Z] None "dropout".
Definition ex_bern (k : key) (p : Qc) (shape idx : list nat) : bool := Nat.eqb (nth 1 idx 0) 1.

(** The hypotheses of [C53_sampling] hold here (the flag comes from the context, a
    negative broadcast axis), and the output is what the theorem says. *)
Example C53_example : exists k y,
  make_rng (fun _ => 0) (0, 0) ex_c "dropout" [mkStream (KSeed 1) 0 []; ex_stream] = (Ok k, [mkStream (KSeed 1) 0 []; mkStream (KSeed 7) 3 []]) /\
  flag_of None (d_det ex_d) (Some ex_c) "deterministic" = Some false /\
  d_rate ex_d <> 0%Qc /\ d_rate ex_d <> 1%Qc /\
  (forall z, In z (d_broadcast ex_d) -> valid_axis (List.length (t_shape ex_x)) z) /\
  dropout_call (fun _ => 0) ex_bern (0, 0) ex_d ex_x None (Some ex_c) [mkStream (KSeed 1) 0 []; ex_stream] =
    (Ok y, [mkStream (KSeed 1) 0 []; mkStream (KSeed 7) 3 []]) /\
  map (fun i => this (t_at y i)) (all_idx [2; 3]) = [0; 8 # 3; 0; 0; 20 # 3; 0]%Q.
Proof.
  eexists. eexists. split; [reflexivity|]. split; [reflexivity|]. split; [discriminate|]. split; [discriminate|].
  split; [intros z [<-|[]]; unfold valid_axis; cbn; lia|]. split; [reflexivity|]. vm_compute. reflexivity.
Qed.

(** "With rate 0 the input is returned": false when the flag is given nowhere. *)
Theorem C53_rate_zero_refuted :
  exists blake bern cur d x ss, d_rate d = 0%Qc /\ dropout_call blake bern cur d x None None ss = (Err ValueError, ss).
Proof. exists (fun _ => 0), ex_bern, (0, 0), (mkDropout 0 [] None "dropout"), ex_x, []. split; reflexivity. Qed.
(** "Otherwise exactly one key is used": false with rate 1. *)
Theorem C53_one_key_refuted :
  exists blake bern cur d x c ss y, d_rate d <> 0%Qc /\ flag_of None (d_det d) (Some c) "deterministic" = Some false /\
    (exists k ss', make_rng blake cur c (d_coll d) ss = (Ok k, ss')) /\
    dropout_call blake bern cur d x None (Some c) ss = (Ok y, ss).
Proof.
  exists (fun _ => 0), ex_bern, (0, 0), (mkDropout 1 [] None "dropout"), ex_x, ex_c, [ex_stream; ex_stream]. eexists.
  split; [discriminate|]. split; [reflexivity|]. split; [|reflexivity]. eexists. eexists. reflexivity.
Qed.

Print Assumptions C53_sampling.
Print Assumptions C53_errors.
