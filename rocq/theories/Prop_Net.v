(** Prop_Net: C109, a whole network in evaluation mode (and what any call leaves
    alone). *)
From Coq Require Import ZArith QArith Qcanon Lia.
From Verif Require Import PyBase PyBaseFacts ModuleM ContextM TensorM NnM LinearM HelpersM NetM Spec_Nn Spec_Linear Spec_Conv Spec_Net Net_proofs Prop_Norm Prop_Conv.
Local Open Scope string_scope.
Local Open Scope nat_scope.
Local Open Scope list_scope.

Section C109.
  Context (rsqrt : Qc -> Qc).

  (** Calling a Sequence (C44) is calling its elements one after the other, each with
      the output of the one before; the context reaches every Dropout and every
      BatchNorm, also in Sequences inside. *)
  Theorem C109_sequence blake bernoulli cur ctx fs x bns ss : fs <> [] ->
    seq_call (fun _ => true) takes_ctx (el_run blake bernoulli cur rsqrt) (option_map VCtx ctx) fs (bns, ss) [VArr x] [] =
    let '(s', r) := net_call blake bernoulli cur rsqrt ctx (in_sequence fs) x bns ss in (s', rmap (fun y => Some (OOther (VArr y))) r).
  Proof. intros H. now apply sequence_loop. Qed.

  (** A keyword that the layers do not have is refused by the first one, and nothing has
      happened. *)
  Theorem C109_keyword blake bernoulli cur ctx f fs x k v bns ss : k <> "ctx" ->
    seq_call (fun _ => true) takes_ctx (el_run blake bernoulli cur rsqrt) (option_map VCtx ctx) (f :: fs) (bns, ss) [VArr x] [(k, v)] = ((bns, ss), Err TypeError).
  Proof.
    intros H. apply String.eqb_neq in H. unfold seq_call. cbn [call_loop negb]. unfold call_stage.
    assert (E : el_run blake bernoulli cur rsqrt f (bns, ss) [VArr x] [(k, v)] = ((bns, ss), Err TypeError)).
    { cbn [el_run]. rewrite H. now destruct v. }
    destruct ctx as [c|]; cbn [option_map]; [|now rewrite E]. destruct (takes_ctx f); [|now rewrite E].
    cbn [dset]. rewrite String.eqb_sym in H. rewrite H. cbn [el_run]. now destruct v.
  Qed.

  (** Evaluation mode comes from the context alone: both flags True, no layer with its
      own flag False. *)
  Theorem C109_flags c bns n :
    dget "deterministic" (x_flags c) = Some true -> dget "use_running_average" (x_flags c) = Some true ->
    (forall d, In (LDropout d) (layers n) -> d_det d <> Some false) ->
    (forall i b, In (LBatchNorm i) (layers n) -> nth_error bns i = Some b -> bn_ura b <> Some false) ->
    eval_mode (Some c) bns n.
  Proof.
    intros H1 H2 Hd Hb. split; [intros d Hin; specialize (Hd d Hin)|intros i b Hin Hi; specialize (Hb i b Hin Hi)]; unfold flag_of.
    - destruct (d_det d) as [[|]|]; congruence.
    - destruct (bn_ura b) as [[|]|]; congruence.
  Qed.

  (** In evaluation mode the call is a function of the layers and the input: no
      BatchNorm and no rng stream changes, and the output (or the exception) does not
      depend on the keys, the streams, the trace or the rest of the context. *)
  Theorem C109_pure bns n x : exists r, forall blake bernoulli cur ctx ss,
    eval_mode ctx bns n -> net_call blake bernoulli cur rsqrt ctx n x bns ss = (bns, ss, r).
  Proof. exact (net_pure rsqrt bns n x). Qed.

  (** In evaluation mode the output for an example depends on that example alone: not
      on the other examples, not on its place in the batch, not on the size of the
      batch. *)
  Theorem C109_batch blake bernoulli cur ctx bns net s s' ss m m' x x' i j :
    net_ok bns net s s' -> eval_mode ctx bns net ->
    batch_of m s x -> batch_of m' s x' -> i < m -> j < m' -> same_example s x i x' j ->
    exists y y', net_call blake bernoulli cur rsqrt ctx net x bns ss = (bns, ss, Ok y) /\
      net_call blake bernoulli cur rsqrt ctx net x' bns ss = (bns, ss, Ok y') /\
      batch_of m s' y /\ batch_of m' s' y' /\ same_example s' y i y' j.
  Proof. intros Hok He Hx Hx' Hi Hj Hag. eapply net_row; eauto. Qed.

  (** In any mode: a call that returns uses, of each stream, one key for every Dropout
      that samples from it; a call that raises uses no more. *)
  Theorem C109_keys blake bernoulli cur c net x bns ss bns' ss' r :
    net_call blake bernoulli cur rsqrt (Some c) net x bns ss = (bns', ss', r) ->
    List.length ss' = List.length ss /\
    forall i s, nth_error ss i = Some s ->
      exists k, nth_error ss' i = Some (mkStream (s_key s) (s_count s + k) (s_path s)) /\
        k <= draws c net i /\ forall y, r = Ok y -> k = draws c net i.
  Proof.
    intros E. destruct (net_moved _ _ _ _ _ _ _ _ _ _ _ _ E) as (k & (L & H) & Hle & Hk). split; auto.
    intros i s Hs. exists (k i). split; [now apply H|]. split; [apply Hle|]. intros y Hy. now apply (Hk y).
  Qed.
  (** Without a context no stream changes. *)
  Theorem C109_no_context blake bernoulli cur net : forall x bns ss bns' ss' r,
    net_call blake bernoulli cur rsqrt None net x bns ss = (bns', ss', r) -> ss' = ss.
  Proof.
    induction net as [|l|a IHa b IHb|a IHa b IHb]; intros x bns ss bns' ss' r E; cbn [net_call] in E; try (injection E as <- <- <-; reflexivity).
    - destruct l as [l|cv|d|i|l|g]; cbn [layer_call] in E; try (injection E as <- <- <-; reflexivity).
      + unfold dropout_call in E. destruct (first_from _); [|injection E as <- <- <-; reflexivity].
        destruct (_ || _)%bool; [injection E as <- <- <-; reflexivity|]. destruct (Qc_eq_bool _ _); injection E as <- <- <-; reflexivity.
      + destruct (nth_error bns i) as [b|]; [destruct (bn_call _ _ _ _ _)|]; injection E as <- <- <-; reflexivity.
    - destruct (net_call _ _ _ _ _ a x bns ss) as [[bns1 ss1] [y|e]] eqn:Ea; [apply IHa in Ea; apply IHb in E; congruence|].
      injection E as <- <- <-. eapply IHa; eauto.
    - destruct (net_call _ _ _ _ _ a x bns ss) as [[bns1 ss1] [y|e]] eqn:Ea; [|injection E as <- <- <-; eapply IHa; eauto].
      destruct (net_call _ _ _ _ _ b x bns1 ss1) as [[bns2 ss2] [z|e]] eqn:Eb; injection E as <- <- <-; apply IHa in Ea; apply IHb in Eb; congruence.
  Qed.

  (** In any mode, whether the call returns or raises: only running statistics change,
      and only those of BatchNorms of the network. *)
  Theorem C109_statistics blake bernoulli cur ctx net x bns ss bns' ss' r :
    net_call blake bernoulli cur rsqrt ctx net x bns ss = (bns', ss', r) ->
    List.length bns' = List.length bns /\
    forall i b, nth_error bns i = Some b ->
      exists b', nth_error bns' i = Some b' /\ same_params b b' /\ (~ In (LBatchNorm i) (layers net) -> b' = b).
  Proof. intros E. exact (net_bns _ _ _ _ _ _ _ _ _ _ _ _ E). Qed.
End C109.

(** ** Examples *)
(** Linear, BatchNorm, a residual block of LayerNorm, Dropout and Linear, the same
    BatchNorm again. *)
Definition net_lin : linear := mkLinear (mat 2 2 [1; Q2Qc 2; Q2Qc 3; 1]%Qc) (Some (vec [1; 0]%Qc)).
Definition net_ln : layernorm := mkLN (Some (vec [1; Q2Qc 2]%Qc)) None [(-1)%Z] [(-1)%Z] 1.
Definition net_drop (own : option bool) : dropout := mkDropout (Q2Qc (1 # 2)) [] own "dropout".
Definition ex_net (own : option bool) : net :=
  NThen (NLayer (LLinear net_lin)) (NThen (NLayer (LBatchNorm 0)) (NThen (NLayer (LFun (fun q => (q * q)%Qc)))
    (NThen (NSum NId (NThen (NLayer (LLayerNorm net_ln)) (NThen (NLayer (LDropout (net_drop own))) (NLayer (LLinear net_lin))))) (NLayer (LBatchNorm 0))))).
Definition net_ctx (train : bool) : context :=
  mkCtx [("dropout", 0)] [("deterministic", negb train); ("use_running_average", negb train)] (0, 0).
Definition net_ss : list stream := [mkStream (KSeed 7) 2 []].
Definition net_x : tensor := mat 2 2 [1; Q2Qc 2; Q2Qc 3; Q2Qc 6]%Qc.
Definition net_x' : tensor := mat 3 2 [0; Q2Qc 5; 1; 1; 1; Q2Qc 2]%Qc.
Definition net_bern (k : key) (p : Qc) (shape idx : list nat) : bool := Nat.even (nth 1 idx 0).

(** The hypotheses of [C109_flags] and [C109_batch]: example 0 of one batch is example
    2 of a larger one. *)
Example C109_example :
  (forall d, In (LDropout d) (layers (ex_net None)) -> d_det d <> Some false) /\
  (forall i b, In (LBatchNorm i) (layers (ex_net None)) -> nth_error [ex_bn] i = Some b -> bn_ura b <> Some false) /\
  eval_mode (Some (net_ctx false)) [ex_bn] (ex_net None) /\ net_ok [ex_bn] (ex_net None) [2] [2] /\
  batch_of 2 [2] net_x /\ batch_of 3 [2] net_x' /\ same_example [2] net_x 0 net_x' 2 /\ ~ same_example [2] net_x 1 net_x' 1.
Proof.
  assert (Hd : forall d, In (LDropout d) (layers (ex_net None)) -> d_det d <> Some false).
  { intros d H. cbn in H. repeat (destruct H as [H|H]; [try discriminate; injection H as <-; discriminate|]). contradiction. }
  assert (Hb : forall i b, In (LBatchNorm i) (layers (ex_net None)) -> nth_error [ex_bn] i = Some b -> bn_ura b <> Some false).
  { intros [|[|i]] b _ E; cbn in E; try discriminate. injection E as <-. discriminate. }
  split; [exact Hd|]. split; [exact Hb|]. split; [apply C109_flags; auto|].
  assert (Hl : net_ok [ex_bn] (NLayer (LLinear net_lin)) [2] [2]).
  { constructor. apply (ok_linear _ _ 2 2 []). split; [reflexivity|]. intros b E. injection E as <-. reflexivity. }
  assert (Hn : net_ok [ex_bn] (NLayer (LBatchNorm 0)) [2] [2]).
  { constructor. apply ok_batchnorm with (b := ex_bn) (n := 2); try reflexivity.
    - repeat split; intros t E; injection E as <-; reflexivity.
    - repeat constructor.
    - unfold valid_axis; cbn; lia.
    - discriminate. }
  split.
  { apply nok_then with (t := [2]); [exact Hl|]. apply nok_then with (t := [2]); [exact Hn|].
    apply nok_then with (t := [2]); [constructor; constructor|]. apply nok_then with (t := [2]); [|exact Hn].
    apply nok_sum; [constructor|]. apply nok_then with (t := [2]).
    - constructor. apply ok_layernorm with (d := (-1)%Z) (n := 2); try reflexivity.
      + split; [intros d [<-|[]]; unfold valid_axis; cbn; lia|]. repeat constructor. intros [].
      + intros a [<-|[]]. discriminate.
      + unfold valid_axis; cbn; lia.
      + discriminate.
      + intros t E. injection E as <-. reflexivity.
      + discriminate.
    - apply nok_then with (t := [2]); [constructor; constructor|exact Hl]. }
  split; [reflexivity|]. split; [reflexivity|]. split.
  - intros idx H. inversion H as [|f ? t ? Hf Ht]; subst. inversion Ht; subst. destruct f as [|[|f]]; [reflexivity|reflexivity|lia].
  - intros H. specialize (H [0] ltac:(constructor; [lia|constructor])). discriminate.
Qed.
(** A convolution is accepted too: every padding of C55. *)
Example C109_conv : net_ok [] (NThen (NLayer (LConv (ex_conv (PStr "CIRCULAR") 1))) (NLayer (LDropout (net_drop None)))) [5; 2] [5; 2].
Proof.
  apply nok_then with (t := [5; 2]); [|constructor; constructor]. constructor. apply ok_conv; [reflexivity|repeat constructor|].
  intros x Hx. destruct (C55_circular (ex_conv (PStr "CIRCULAR") 1) [3] [1] [2] 2 2 x [] [5]) as (y & E & Hs & _);
    [apply ex_shape; lia|reflexivity|exact Hx|reflexivity|repeat constructor; lia|]. exists y. split; [exact E|exact Hs].
Qed.
(** What can be seen of a call: the running means, the counters of the streams, and
    the output of one example. *)
Definition see (r : list batchnorm * list stream * result tensor) (i : nat) : list Q * list nat * option (list Q) :=
  (map (fun f => this (t_at (bn_mean (nth 0 (fst (fst r)) ex_bn)) [f])) [0; 1], map s_count (snd (fst r)),
   match snd r with Ok y => Some (map (fun f => this (t_at y [i; f])) [0; 1]) | Err _ => None end).
Definition run (train : bool) (own : option bool) (x : tensor) : list batchnorm * list stream * result tensor :=
  net_call (fun _ => 0) net_bern (0, 0) (fun q => q) (Some (net_ctx train)) (ex_net own) x [ex_bn] net_ss.
(** The values: example 0 of the small batch and example 2 of the large one. *)
Example C109_values :
  see (run false None net_x) 0 = see (run false None net_x') 2 /\ see (run false None net_x) 0 <> see (run false None net_x) 1 /\
  fst (see (run false None net_x) 0) = ([0; 0]%Q, [2]).
Proof. split; [vm_compute; reflexivity|]. split; [vm_compute; discriminate|vm_compute; reflexivity]. Qed.

(** The hypothesis on the flags matters.  A layer's own flag wins over the context: with
    deterministic=False on the Dropout a key is used although the context asks for
    evaluation. *)
Example C109_own_flag :
  fst (see (run false (Some false) net_x) 0) = ([0; 0]%Q, [3]) /\
  draws (net_ctx false) (ex_net (Some false)) 0 = 1 /\ draws (net_ctx false) (ex_net None) 0 = 0.
Proof. split; [vm_compute; reflexivity|]. split; vm_compute; reflexivity. Qed.
(** In training mode the output for an example depends on the others, and the
    statistics move. *)
Example C109_training :
  snd (see (run true None net_x) 0) <> snd (see (run true None net_x') 2) /\ snd (see (run true None net_x) 0) <> None /\
  snd (fst (see (run true None net_x) 0)) = [3] /\ fst (fst (see (run true None net_x) 0)) <> [0; 0]%Q.
Proof. split; [vm_compute; discriminate|]. split; [vm_compute; discriminate|]. split; [vm_compute; reflexivity|vm_compute; discriminate]. Qed.

Print Assumptions C109_sequence.
Print Assumptions C109_keyword.
Print Assumptions C109_flags.
Print Assumptions C109_pure.
Print Assumptions C109_batch.
Print Assumptions C109_keys.
Print Assumptions C109_no_context.
Print Assumptions C109_statistics.
