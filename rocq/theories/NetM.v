(** NetM: models networks put together from the layers of nnx/nn with
    [nnx.Sequence] (nnx/helpers.py:49-90) and with the sums of residual blocks:
    one [ctx] for the whole call.  Numbers are exact (see TensorM). *)
From Coq Require Import ZArith QArith Qcanon.
From Verif Require Import PyBase ModuleM ContextM TensorM NnM LinearM HelpersM.
Local Open Scope string_scope.
Local Open Scope nat_scope.
Local Open Scope list_scope.

(** The layers: linear.py:56-131 [Linear], linear.py:134-330 [Conv], stochastic.py:11-72
    [Dropout], normalization.py:151-276 [BatchNorm] (a reference: one BatchNorm can
    be used in many places), normalization.py:279-377 [LayerNorm], and a function of
    jax that works entry by entry, like [jax.nn.relu] (not part of nnx). *)
Inductive nlayer : Type :=
| LLinear (l : linear)
| LConv (c : conv)
| LDropout (d : dropout)
| LBatchNorm (i : nat)
| LLayerNorm (l : layernorm)
| LFun (g : Qc -> Qc).

(** A Sequence of two parts (longer ones are nested; helpers.py:69-90), and
    [a(x) + b(x)] as in the residual blocks of examples/07_transformer.py:277-294. *)
Inductive net : Type :=
| NId
| NLayer (l : nlayer)
| NThen (a b : net)
| NSum (a b : net).

(** [a + b] of two arrays of the same shape; broadcasting is not modelled. (examples/07_transformer.py:277-294) *)
Definition add_same (a b : tensor) : result tensor :=
  if list_eq_dec Nat.eq_dec (t_shape a) (t_shape b) then Ok (mkT (t_shape a) (fun idx => (t_at a idx + t_at b idx)%Qc))
  else Err OutOfModel.

Section NET.
  Context (blake : string -> nat) (bernoulli : key -> Qc -> list nat -> list nat -> bool) (cur : trace_state) (rsqrt : Qc -> Qc).

  (** helpers.py:85-88: [f(output, ctx=ctx)] for the layers that take a context
      (Dropout, stochastic.py:29-35; BatchNorm, normalization.py:226-232), [f(output)]
      for the others.  Result: the BatchNorms and the streams after the call, and the
      output.  Without a context the default [None] is used. *)
  Definition layer_call (ctx : option context) (l : nlayer) (x : tensor) (bns : list batchnorm) (ss : list stream)
    : list batchnorm * list stream * result tensor :=
    match l with
    | LLinear l => (bns, ss, linear_call l x)
    | LConv c => (bns, ss, conv_call c x)
    | LDropout d => let '(r, ss') := dropout_call blake bernoulli cur d x None ctx ss in (bns, ss', r)
    | LBatchNorm i =>
        match nth_error bns i with
        | None => (bns, ss, Err OutOfModel)
        | Some b => let '(b', r) := bn_call rsqrt b x None ctx in (list_set i b' bns, ss, r)
        end
    | LLayerNorm l => (bns, ss, ln_call rsqrt l x)
    | LFun g => (bns, ss, Ok (mkT (t_shape x) (fun idx => g (t_at x idx))))
    end.

  (** helpers.py:69-90 [Sequence.__call__] and the sum of examples/07_transformer.py:277-294:
      the left operand is called first. *)
  Fixpoint net_call (ctx : option context) (n : net) (x : tensor) (bns : list batchnorm) (ss : list stream)
    : list batchnorm * list stream * result tensor :=
    match n with
    | NId => (bns, ss, Ok x)
    | NLayer l => layer_call ctx l x bns ss
    | NThen a b =>
        match net_call ctx a x bns ss with
        | (bns1, ss1, Ok y) => net_call ctx b y bns1 ss1
        | (bns1, ss1, Err e) => (bns1, ss1, Err e)
        end
    | NSum a b =>
        match net_call ctx a x bns ss with
        | (bns1, ss1, Ok y) =>
            match net_call ctx b x bns1 ss1 with
            | (bns2, ss2, Ok z) => (bns2, ss2, add_same y z)
            | (bns2, ss2, Err e) => (bns2, ss2, Err e)
            end
        | (bns1, ss1, Err e) => (bns1, ss1, Err e)
        end
    end.

  (** What can be passed to a layer: an array, or the context. (helpers.py:69-90) *)
  Inductive nval : Type := VArr (x : tensor) | VCtx (c : context).
  (** helpers.py:146-152 of the layers: Dropout (stochastic.py:29-35), BatchNorm
      (normalization.py:226-232), Sequence (helpers.py:69) and the residual block have a
      parameter [ctx]; Linear (linear.py:110), Conv (linear.py:233), LayerNorm
      (normalization.py:354) and functions of arrays have none. *)
  Definition takes_ctx (n : net) : bool :=
    match n with
    | NLayer (LDropout _) | NLayer (LBatchNorm _) | NThen _ _ | NSum _ _ => true
    | _ => false
    end.
  (** [f( *args, **kwargs )] of helpers.py:88 for an element of a Sequence; other
      arguments are a TypeError of Python. *)
  Definition el_run (n : net) (s : list batchnorm * list stream) (args : list nval) (kwargs : dict nval)
    : (list batchnorm * list stream) * result (output nval) :=
    match args, kwargs with
    | [VArr x], [] => let '(s', r) := net_call None n x (fst s) (snd s) in (s', rmap (fun y => OOther (VArr y)) r)
    | [VArr x], [(k, VCtx c)] =>
        if (String.eqb k "ctx" && takes_ctx n)%bool
        then let '(s', r) := net_call (Some c) n x (fst s) (snd s) in (s', rmap (fun y => OOther (VArr y)) r)
        else (s, Err TypeError)
    | _, _ => (s, Err TypeError)
    end.
End NET.
