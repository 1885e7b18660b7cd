(** Property C64: the constructors of the layers. *)
From Coq Require Import ZArith QArith Qcanon Lia.
From Verif Require Import PyBase PyBaseFacts ModuleM ContextM TensorM NnM LinearM Spec_Nn Spec_Conv Spec_Linear Context_proofs Dropout_proofs Tensor_proofs Norm_proofs Prop_Linear.
Local Open Scope string_scope.
Local Open Scope nat_scope.
Local Open Scope list_scope.

Section C64.
  Context (blake : string -> nat) (cur : trace_state) (ctx : context).

  (** Every parameter created is its initializer applied to the next key of "params"
      and the advertised shape, in order; no other stream is touched. *)
  Definition made (s : stream) (from : nat) (ps : list (initializer * list nat)) : list tensor :=
    map (fun p => fst (snd p) (stream_key blake s (fst p)) (snd (snd p))) (combine (seq from (List.length ps)) ps).

  Lemma took_0 ss i s : nth_error ss i = Some s -> took ss ss i 0.
  Proof. intros H. exists s. rewrite Nat.add_0_r. destruct s. auto. Qed.
  Lemma took_trans a b c i n m : took a b i n -> took b c i m -> took a c i (n + m).
  Proof.
    intros (s & H1 & H2 & H3 & H4) (s' & G1 & G2 & G3 & G4). exists s. split; auto. rewrite H2 in G1. injection G1 as <-. cbn [s_key s_count s_path] in G2.
    split; [now rewrite G2, Nat.add_assoc|]. split; [congruence|]. intros j Hj. now rewrite G4, H4.
  Qed.
  Lemma stream_key_shift s n m : stream_key blake (mkStream (s_key s) (s_count s + n) (s_path s)) m = stream_key blake s (n + m).
  Proof. unfold stream_key. cbn [s_key s_count s_path]. now rewrite Nat.add_assoc. Qed.

  Lemma draw_param_ok init shape ss i s :
    dget "params" (x_rngs ctx) = Some i -> trace_ok cur (x_trace ctx) = true -> nth_error ss i = Some s ->
    exists ss', draw_param blake cur ctx init shape ss = (Ok (init (stream_key blake s 0) shape), ss') /\ took ss ss' i 1.
  Proof.
    intros Hp Ht Hs. unfold draw_param, make_rng. rewrite Hp, Ht, Hs. cbn [negb]. eexists. unfold stream_key. rewrite Nat.add_0_r. split; [reflexivity|].
    exists s. split; auto. split; [|split].
    - rewrite nth_list_set_same by (apply nth_error_Some; congruence). unfold bump. now rewrite Nat.add_1_r.
    - apply list_set_length.
    - intros j Hj. rewrite nth_list_set_other; auto.
  Qed.

  Lemma draw_opt_ok use init shape ss i s :
    dget "params" (x_rngs ctx) = Some i -> trace_ok cur (x_trace ctx) = true -> nth_error ss i = Some s ->
    exists ss', draw_opt blake cur ctx use init shape ss = (Ok (if use then Some (init (stream_key blake s 0) shape) else None), ss') /\
      took ss ss' i (if use then 1 else 0).
  Proof.
    intros Hp Ht Hs. unfold draw_opt. destruct use; [|exists ss; split; auto; eapply took_0; eauto].
    destruct (draw_param_ok init shape ss i s Hp Ht Hs) as (ss' & -> & H). eauto.
  Qed.
  Lemma took_at ss ss' i n s : nth_error ss i = Some s -> took ss ss' i n -> nth_error ss' i = Some (mkStream (s_key s) (s_count s + n) (s_path s)).
  Proof. intros H (s' & H1 & H2 & _). congruence. Qed.

  Theorem C64_linear fi fo ub ki bi ss i s :
    dget "params" (x_rngs ctx) = Some i -> trace_ok cur (x_trace ctx) = true -> nth_error ss i = Some s ->
    exists ss', linear_init blake cur ctx fi fo ub ki bi ss =
        (Ok (mkLinear (ki (stream_key blake s 0) [fi; fo]) (if ub then Some (bi (stream_key blake s 1) [fo]) else None)), ss') /\
      took ss ss' i (if ub then 2 else 1).
  Proof.
    intros Hp Ht Hs. unfold linear_init. destruct (draw_param_ok ki [fi; fo] ss i s Hp Ht Hs) as (ss1 & -> & T1).
    destruct (draw_opt_ok ub bi [fo] ss1 i _ Hp Ht (took_at _ _ _ _ _ Hs T1)) as (ss2 & -> & T2).
    rewrite stream_key_shift. exists ss2. split; [reflexivity|]. pose proof (took_trans _ _ _ _ _ _ T1 T2). destruct ub; auto.
  Qed.
  Theorem C64_conv fi fo ks strides padding idil kdil g ub mask ki bi ss i s :
    dget "params" (x_rngs ctx) = Some i -> trace_ok cur (x_trace ctx) = true -> nth_error ss i = Some s ->
    exists ss', conv_init blake cur ctx fi fo (Some ks) strides padding idil kdil g ub mask ki bi ss =
        (Ok (mkConv (ki (stream_key blake s 0) (ks ++ [fi / g; fo])) (if ub then Some (bi (stream_key blake s 1) [fo]) else None)
               fi ks strides padding idil kdil g mask), ss') /\
      took ss ss' i (if ub then 2 else 1).
  Proof.
    intros Hp Ht Hs. unfold conv_init. destruct (draw_param_ok ki (ks ++ [fi / g; fo]) ss i s Hp Ht Hs) as (ss1 & -> & T1).
    destruct (draw_opt_ok ub bi [fo] ss1 i _ Hp Ht (took_at _ _ _ _ _ Hs T1)) as (ss2 & -> & T2).
    rewrite stream_key_shift. exists ss2. split; [reflexivity|]. pose proof (took_trans _ _ _ _ _ _ T1 T2). destruct ub; auto.
  Qed.
  (** an int is not a kernel size; no key is used *)
  Theorem C64_conv_int fi fo strides padding idil kdil g ub mask ki bi ss :
    conv_init blake cur ctx fi fo None strides padding idil kdil g ub mask ki bi ss = (Err TypeError, ss).
  Proof. reflexivity. Qed.
  (** the scale is made before the bias; the running mean is 0 and the variance 1 *)
  Theorem C64_batchnorm n ura axis mom eps ub us bi si ss i s :
    dget "params" (x_rngs ctx) = Some i -> trace_ok cur (x_trace ctx) = true -> nth_error ss i = Some s ->
    exists b ss', bn_init blake cur ctx n ura axis mom eps ub us bi si ss = (Ok b, ss') /\
      took ss ss' i ((if us then 1 else 0) + (if ub then 1 else 0)) /\
      bn_scale b = (if us then Some (si (stream_key blake s 0) [n]) else None) /\
      bn_bias b = (if ub then Some (bi (stream_key blake s (if us then 1 else 0)) [n]) else None) /\
      t_shape (bn_mean b) = [n] /\ t_shape (bn_var b) = [n] /\ (forall j, t_at (bn_mean b) j = 0%Qc /\ t_at (bn_var b) j = 1%Qc) /\
      bn_ura b = ura /\ bn_axis b = axis /\ bn_momentum b = mom /\ bn_epsilon b = eps.
  Proof.
    intros Hp Ht Hs. unfold bn_init. destruct (draw_opt_ok us si [n] ss i s Hp Ht Hs) as (ss1 & -> & T1).
    destruct (draw_opt_ok ub bi [n] ss1 i _ Hp Ht (took_at _ _ _ _ _ Hs T1)) as (ss2 & -> & T2).
    rewrite stream_key_shift, Nat.add_0_r. eexists. exists ss2. split; [reflexivity|]. split; [eapply took_trans; eauto|].
    repeat split.
  Qed.
  Theorem C64_layernorm n eps ub us bi si red feat ss i s :
    dget "params" (x_rngs ctx) = Some i -> trace_ok cur (x_trace ctx) = true -> nth_error ss i = Some s ->
    exists l ss', ln_init blake cur ctx n eps ub us bi si red feat ss = (Ok l, ss') /\
      took ss ss' i ((if us then 1 else 0) + (if ub then 1 else 0)) /\
      ln_scale l = (if us then Some (si (stream_key blake s 0) [n]) else None) /\
      ln_bias l = (if ub then Some (bi (stream_key blake s (if us then 1 else 0)) [n]) else None) /\
      ln_red l = red /\ ln_feat l = feat /\ ln_epsilon l = eps.
  Proof.
    intros Hp Ht Hs. unfold ln_init. destruct (draw_opt_ok us si [n] ss i s Hp Ht Hs) as (ss1 & -> & T1).
    destruct (draw_opt_ok ub bi [n] ss1 i _ Hp Ht (took_at _ _ _ _ _ Hs T1)) as (ss2 & -> & T2).
    rewrite stream_key_shift, Nat.add_0_r. eexists. exists ss2. split; [reflexivity|]. split; [eapply took_trans; eauto|].
    repeat split.
  Qed.
  Theorem C64_embed n f ei ss i s :
    dget "params" (x_rngs ctx) = Some i -> trace_ok cur (x_trace ctx) = true -> nth_error ss i = Some s ->
    exists ss', embed_init blake cur ctx n f ei ss = (Ok (ei (stream_key blake s 0) [n; f]), ss') /\ took ss ss' i 1.
  Proof. apply draw_param_ok. Qed.

  (** ** Any program that builds layers one after the other *)
  Lemma made_app s : forall a b from, made s from (a ++ b) = made s from a ++ made s (from + List.length a) b.
  Proof.
    induction a as [|p a IH]; intros b from; cbn [app List.length]; [now rewrite Nat.add_0_r|].
    unfold made in *. cbn [List.length seq combine map app fst snd]. rewrite IH. f_equal. f_equal. now rewrite <- Nat.add_succ_comm.
  Qed.
  Lemma made_shift s n : forall b from, made (mkStream (s_key s) (s_count s + n) (s_path s)) from b = made s (n + from) b.
  Proof.
    induction b as [|p b IH]; intros from; auto. unfold made in *. cbn [List.length seq combine map fst snd].
    rewrite IH, stream_key_shift. f_equal. now rewrite Nat.add_succ_r.
  Qed.
  Lemma build_ok l ss i s :
    dget "params" (x_rngs ctx) = Some i -> trace_ok cur (x_trace ctx) = true -> nth_error ss i = Some s ->
    exists ss', build blake cur ctx l ss = (Ok (made s 0 (wants l)), ss') /\ took ss ss' i (List.length (wants l)).
  Proof.
    intros Hp Ht Hs. destruct l as [fi fo ub ki bi|fi fo ks g ub ki bi|n ub us bi si|n ub us bi si|n f ei]; cbn [build].
    - destruct (C64_linear fi fo ub ki bi ss i s Hp Ht Hs) as (ss' & -> & T). exists ss'. destruct ub; split; auto.
    - destruct (C64_conv fi fo ks DNone (PStr "SAME") DNone DNone g ub None ki bi ss i s Hp Ht Hs) as (ss' & -> & T). exists ss'. destruct ub; split; auto.
    - destruct (C64_batchnorm n None (-1) 0%Qc 0%Qc ub us bi si ss i s Hp Ht Hs) as (b & ss' & -> & T & E1 & E2 & _). exists ss'.
      rewrite E1, E2. destruct us, ub; split; auto.
    - destruct (C64_layernorm n 0%Qc ub us bi si [(-1)%Z] [(-1)%Z] ss i s Hp Ht Hs) as (b & ss' & -> & T & E1 & E2 & _). exists ss'.
      rewrite E1, E2. destruct us, ub; split; auto.
    - destruct (C64_embed n f ei ss i s Hp Ht Hs) as (ss' & -> & T). exists ss'. split; auto.
  Qed.
  (** The n-th parameter of the whole program is made from the n-th key of "params",
      with its initializer and shape: no key serves two parameters, none is skipped, and
      no other stream moves. *)
  Theorem C64_program : forall ls ss i s,
    dget "params" (x_rngs ctx) = Some i -> trace_ok cur (x_trace ctx) = true -> nth_error ss i = Some s ->
    let ps := flat_map wants ls in
    exists ts ss', build_all blake cur ctx ls ss = (Ok ts, ss') /\ took ss ss' i (List.length ps) /\
      List.length ts = List.length ps /\
      forall n init shape, nth_error ps n = Some (init, shape) -> nth_error ts n = Some (init (stream_key blake s n) shape).
  Proof.
    intros ls ss i s Hp Ht Hs ps. exists (made s 0 ps).
    assert (H : exists ss', build_all blake cur ctx ls ss = (Ok (made s 0 ps), ss') /\ took ss ss' i (List.length ps)).
    { unfold ps. clear ps. revert ss s Hs. induction ls as [|l ls IH]; intros ss s Hs; cbn [build_all flat_map].
      - exists ss. split; auto. eapply took_0; eauto.
      - destruct (build_ok l ss i s Hp Ht Hs) as (ss1 & -> & T1).
        destruct (IH ss1 _ (took_at _ _ _ _ _ Hs T1)) as (ss2 & -> & T2). exists ss2. split.
        + rewrite made_app, made_shift, Nat.add_0_r. reflexivity.
        + rewrite app_length. eapply took_trans; eauto. }
    destruct H as (ss' & E & T). exists ss'. split; [exact E|]. split; [exact T|]. split.
    - unfold made. rewrite map_length, combine_length, seq_length. lia.
    - intros n init shape Hn. assert (G : forall ps from n, nth_error ps n = Some (init, shape) -> nth_error (made s from ps) n = Some (init (stream_key blake s (from + n)) shape)).
      { clear. induction ps as [|p ps IH]; intros from [|n] Hn; try discriminate.
        - injection Hn as ->. cbn. now rewrite Nat.add_0_r.
        - cbn in Hn. specialize (IH (S from) n Hn). rewrite Nat.add_succ_comm in IH. exact IH. }
      apply (G ps 0 n Hn).
  Qed.

  (** ** Failures *)
  (** Without a "params" stream, or in a context of another trace, building any layer
      with a parameter fails and no key is used. *)
  Lemma draw_param_err init shape ss e :
    (dget "params" (x_rngs ctx) = None /\ e = ValueError) \/
    (exists i, dget "params" (x_rngs ctx) = Some i /\ trace_ok cur (x_trace ctx) = false /\ e = TraceContextError) ->
    draw_param blake cur ctx init shape ss = (Err e, ss).
  Proof.
    unfold draw_param, make_rng. intros [(-> & ->)|(i & -> & -> & ->)]; reflexivity.
  Qed.
  Theorem C64_no_stream l ss e :
    (dget "params" (x_rngs ctx) = None /\ e = ValueError) \/
    (exists i, dget "params" (x_rngs ctx) = Some i /\ trace_ok cur (x_trace ctx) = false /\ e = TraceContextError) ->
    wants l <> [] -> build blake cur ctx l ss = (Err e, ss).
  Proof.
    intros H Hw. destruct l as [fi fo ub ki bi|fi fo ks g ub ki bi|n ub us bi si|n ub us bi si|n f ei]; cbn [build].
    - unfold linear_init. now rewrite (draw_param_err _ _ _ e H).
    - unfold conv_init. now rewrite (draw_param_err _ _ _ e H).
    - unfold bn_init, draw_opt. destruct us; [now rewrite (draw_param_err _ _ _ e H)|]. destruct ub; [now rewrite (draw_param_err _ _ _ e H)|]. now destruct Hw.
    - unfold ln_init, draw_opt. destruct us; [now rewrite (draw_param_err _ _ _ e H)|]. destruct ub; [now rewrite (draw_param_err _ _ _ e H)|]. now destruct Hw.
    - unfold embed_init. now rewrite (draw_param_err _ _ _ e H).
  Qed.

  (** ** The layer built is usable *)
  Theorem C64_linear_usable fi fo ub ki bi ss l ss' x bs :
    linear_init blake cur ctx fi fo ub ki bi ss = (Ok l, ss') -> shaped ki -> shaped bi -> t_shape x = bs ++ [fi] ->
    exists y, linear_call l x = Ok y /\ t_shape y = bs ++ [fo].
  Proof.
    intros H Hk Hb Hx. assert (Hw : linear_wf fi fo l).
    { unfold linear_init, draw_opt, draw_param in H. destruct (make_rng _ _ _ _ ss) as [[k|] ss1]; [|discriminate].
      destruct ub.
      - destruct (make_rng _ _ _ _ ss1) as [[k'|] ss2]; [|discriminate]. injection H as <- <-. split; [apply Hk|]. intros b E. injection E as <-. apply Hb.
      - injection H as <- <-. split; [apply Hk|]. intros b E. discriminate. }
    destruct (C63_linear fi fo l x bs Hw Hx) as (y & E & Hy & _). eauto.
  Qed.
  Theorem C64_conv_usable fi fo ks st pad idil kdil g ub ki bi ss c ss' :
    conv_init blake cur ctx fi fo (Some ks) st pad idil kdil g ub None ki bi ss = (Ok c, ss') -> shaped ki -> shaped bi ->
    let rank := List.length ks in
    forall sts ds, per_axis rank st sts -> per_axis rank kdil ds -> per_axis rank idil (repeat 1 rank) ->
    List.length sts = rank -> List.length ds = rank ->
    Forall (fun n => 0 < n) ks -> Forall (fun n => 0 < n) sts -> Forall (fun n => 0 < n) ds ->
    0 < g -> fi mod g = 0 -> fo mod g = 0 ->
    conv_shape c ks sts ds fi fo.
  Proof.
    intros H Hk Hb rank sts ds A1 A2 A3 L1 L2 P1 P2 P3 G1 G2 G3. unfold conv_init, draw_opt, draw_param in H.
    destruct (make_rng _ _ _ _ ss) as [[k|] ss1]; [|discriminate]. destruct ub.
    - destruct (make_rng _ _ _ _ ss1) as [[k'|] ss2]; [|discriminate]. injection H as <- <-.
      constructor; auto; [apply Hk|]. intros t E. injection E as <-. apply Hb.
    - injection H as <- <-. constructor; auto; [apply Hk|]. intros t E. discriminate.
  Qed.
  Theorem C64_batchnorm_usable n ura axis mom eps ub us bi si ss b ss' :
    bn_init blake cur ctx n ura axis mom eps ub us bi si ss = (Ok b, ss') -> shaped bi -> shaped si -> bn_wf n b.
  Proof.
    intros H Hb Hs. unfold bn_init, draw_opt, draw_param in H. destruct us.
    - destruct (make_rng _ _ _ _ ss) as [[k|] ss1]; [|discriminate]. destruct ub.
      + destruct (make_rng _ _ _ _ ss1) as [[k'|] ss2]; [|discriminate]. injection H as <- <-.
        repeat split; intros t E; injection E as <-; apply Hb || apply Hs.
      + injection H as <- <-. repeat split; intros t E; try discriminate; injection E as <-; apply Hs.
    - destruct ub.
      + destruct (make_rng _ _ _ _ ss) as [[k'|] ss2]; [|discriminate]. injection H as <- <-.
        repeat split; intros t E; try discriminate; injection E as <-; apply Hb.
      + injection H as <- <-. repeat split; intros t E; discriminate.
  Qed.
End C64.

Definition ex_i : initializer := fun k s => mkT s (fun _ => 0%Qc).
Example C64_example :
  let ctx := mkCtx [("dropout", 0); ("params", 1)] [] (0, 0) in
  let ss := [mkStream (KSeed 0) 4 []; mkStream (KSeed 1) 7 [2]] in
  dget "params" (x_rngs ctx) = Some 1 /\ trace_ok (0, 0) (x_trace ctx) = true /\ shaped ex_i /\
  nth_error (snd (build_all (fun _ => 0) (0, 0) ctx [BLinear 2 3 true ex_i ex_i; BEmbed 5 4 ex_i; BBatchNorm 3 true false ex_i ex_i] ss)) 1 =
    Some (mkStream (KSeed 1) 11 [2]).
Proof. split; [reflexivity|]. split; [reflexivity|]. split; [intros k s; reflexivity|]. reflexivity. Qed.

Print Assumptions C64_program.
Print Assumptions C64_conv_usable.
