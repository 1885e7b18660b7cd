(** Spec_Net: vocabulary for the statements about whole networks. *)
From Coq Require Import ZArith QArith Qcanon.
From Verif Require Import PyBase ModuleM ContextM TensorM NnM LinearM NetM Spec_Nn Spec_Linear.
Local Open Scope string_scope.
Local Open Scope nat_scope.
Local Open Scope list_scope.

(** the layers, in the order they are called *)
Fixpoint layers (n : net) : list nlayer :=
  match n with
  | NId => []
  | NLayer l => [l]
  | NThen a b | NSum a b => layers a ++ layers b
  end.

(** the elements of a Sequence as one network *)
Fixpoint in_sequence (fs : list net) : net :=
  match fs with
  | [] => NId
  | [f] => f
  | f :: t => NThen f (in_sequence t)
  end.

(** Every Dropout finds the flag deterministic=True and every BatchNorm
    use_running_average=True: its own flag if it has one, else the context's. *)
Definition eval_mode (ctx : option context) (bns : list batchnorm) (n : net) : Prop :=
  (forall d, In (LDropout d) (layers n) -> flag_of None (d_det d) ctx "deterministic" = Some true) /\
  (forall i b, In (LBatchNorm i) (layers n) -> nth_error bns i = Some b ->
     flag_of None (bn_ura b) ctx "use_running_average" = Some true).

(** [layer_ok bns l s s']: the layer takes examples of shape [s] to examples of shape
    [s'], and the axes it works along are axes of the example, not the batch axis 0. *)
Inductive layer_ok (bns : list batchnorm) : nlayer -> list nat -> list nat -> Prop :=
| ok_linear l i o bs : linear_wf i o l -> layer_ok bns (LLinear l) (bs ++ [i]) (bs ++ [o])
| ok_conv c s s' :
    List.length s = S (List.length (cv_ks c)) -> Forall (fun k => 0 < k) (cv_ks c) ->
    (forall x, t_shape x = s -> exists y, conv_call c x = Ok y /\ t_shape y = s') ->
    layer_ok bns (LConv c) s s'
| ok_dropout d s : layer_ok bns (LDropout d) s s
| ok_batchnorm i b n s :
    nth_error bns i = Some b -> bn_wf n b -> Forall (fun m => 0 < m) s ->
    valid_axis (S (List.length s)) (bn_axis b) -> axis_of (S (List.length s)) (bn_axis b) <> 0 ->
    nth (axis_of (S (List.length s)) (bn_axis b) - 1) s 0 = n ->
    layer_ok bns (LBatchNorm i) s s
| ok_layernorm l d n s :
    axes_ok (S (List.length s)) (ln_red l) -> (forall a, In a (ln_red l) -> axis_of (S (List.length s)) a <> 0) ->
    ln_feat l = [d] -> valid_axis (S (List.length s)) d -> axis_of (S (List.length s)) d <> 0 ->
    nth (axis_of (S (List.length s)) d - 1) s 0 = n ->
    (forall t, ln_scale l = Some t -> is_vec n t) -> (forall t, ln_bias l = Some t -> is_vec n t) ->
    layer_ok bns (LLayerNorm l) s s
| ok_fun g s : layer_ok bns (LFun g) s s.

(** the same for a network *)
Inductive net_ok (bns : list batchnorm) : net -> list nat -> list nat -> Prop :=
| nok_id s : net_ok bns NId s s
| nok_layer l s s' : layer_ok bns l s s' -> net_ok bns (NLayer l) s s'
| nok_then a b s t u : net_ok bns a s t -> net_ok bns b t u -> net_ok bns (NThen a b) s u
| nok_sum a b s t : net_ok bns a s t -> net_ok bns b s t -> net_ok bns (NSum a b) s t.

(** [x] is a batch of [n] examples of shape [s] *)
Definition batch_of (n : nat) (s : list nat) (x : tensor) : Prop := t_shape x = n :: s.
(** example [i] of [x] is example [j] of [x'] *)
Definition same_example (s : list nat) (x : tensor) (i : nat) (x' : tensor) (j : nat) : Prop :=
  forall idx, in_range s idx -> t_at x (i :: idx) = t_at x' (j :: idx).

(** the Dropouts that sample: the flag is False and the rate is neither 0 nor 1 *)
Definition samples (ctx : option context) (d : dropout) : bool :=
  match flag_of None (d_det d) ctx "deterministic" with
  | Some false => negb (Qc_eq_bool (d_rate d) 0) && negb (Qc_eq_bool (d_rate d) 1)
  | _ => false
  end.
(** how many of the layers sample with stream [i] of the context *)
Definition draws (c : context) (n : net) (i : nat) : nat :=
  List.length (filter (fun l => match l with
                                | LDropout d => samples (Some c) d && match dget (d_coll d) (x_rngs c) with
                                                                     | Some j => Nat.eqb i j
                                                                     | None => false
                                                                     end
                                | _ => false
                                end) (layers n)).
(** the same BatchNorm up to its running statistics *)
Definition same_params (b b' : batchnorm) : Prop :=
  bn_scale b' = bn_scale b /\ bn_bias b' = bn_bias b /\ bn_ura b' = bn_ura b /\ bn_axis b' = bn_axis b /\
  bn_momentum b' = bn_momentum b /\ bn_epsilon b' = bn_epsilon b.
