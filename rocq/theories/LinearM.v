(** LinearM: models nnx/nn/linear.py (canonicalize_padding, Linear, Conv, Embed)
    and the constructors of its layers.  Numbers are exact (see TensorM); dtypes,
    precision and user supplied [dot_general]/[conv_general_dilated] are not
    modelled. *)
From Coq Require Import ZArith QArith Qcanon.
From Verif Require Import PyBase ModuleM ContextM TensorM NnM.
Local Open Scope string_scope.
Local Open Scope nat_scope.
Local Open Scope list_scope.

(** ** canonicalize_padding *)

(** the python values that can be passed as padding; a bool is an int, any other
    sequence is a [PList], anything else is [POther]. (the argument of linear.py:29-50) *)
Inductive pad_val := PStr (s : string) | PInt (z : Z) | PTuple (l : list pad_val) | PList (l : list pad_val) | POther.
(** linear.py:22, 29-50 *)
Inductive lax_pad := LStr (s : string) | LPairs (l : list (pad_val * pad_val)).

(** linear.py:37-43: the loop with its [break] *)
Fixpoint pad_loop (ps : list pad_val) : list (pad_val * pad_val) :=
  match ps with
  | PInt p :: t => (PInt p, PInt p) :: pad_loop t
  | PTuple [a; b] :: t => (a, b) :: pad_loop t
  | _ => []
  end.
(** linear.py:37-43 *)
Definition pad_seq (l : list pad_val) (rank : nat) : result lax_pad :=
  if Nat.eqb (List.length l) rank then
    let new_pad := pad_loop l in
    if Nat.eqb (List.length new_pad) rank then Ok (LPairs new_pad) else Err ValueError
  else Err ValueError.
(** linear.py:29-50 [canonicalize_padding] *)
Definition canonicalize_padding (padding : pad_val) (rank : nat) : result lax_pad :=
  match padding with
  | PStr s => Ok (LStr s)
  | PInt p => Ok (LPairs (repeat (PInt p, PInt p) rank))
  | PTuple l | PList l => pad_seq l rank
  | POther => Err ValueError
  end.

(** ** Convolution *)

(** Contract of [lax.conv_general_dilated] with the dimension numbers of
    linear.py:53-59: [lhs] is (batch, spatial..., channels), [rhs] is
    (spatial..., channels / groups, features).  Sizes, strides and dilations are
    natural numbers. *)
Definition dilated (n d : nat) : nat := match n with 0 => 0 | S m => m * d + 1 end.
(** strides and padding to output size; pads may be negative. ([jax.lax.conv_general_dilated] as called at linear.py:311-321) *)
Definition out_size (n lhs_d k rhs_d stride : nat) (pad : Z * Z) : nat :=
  let total := (Z.of_nat (dilated n lhs_d) + fst pad + snd pad)%Z in
  let kd := Z.of_nat (dilated k rhs_d) in
  if (kd <=? total)%Z then Z.to_nat ((total - kd) / Z.of_nat stride + 1) else 0.
(** where output [o] and kernel position [k] read the input, if inside and not a
    dilation gap. ([jax.lax.conv_general_dilated] as called at linear.py:311-321) *)
Definition read_pos (n lhs_d rhs_d stride : nat) (pad : Z * Z) (o k : nat) : option nat :=
  let p := (Z.of_nat o * Z.of_nat stride + Z.of_nat k * Z.of_nat rhs_d - fst pad)%Z in
  if ((0 <=? p) && (p <? Z.of_nat (dilated n lhs_d)) && (p mod Z.of_nat lhs_d =? 0))%Z
  then Some (Z.to_nat (p / Z.of_nat lhs_d)) else None.

(** one spatial dimension: input size, input dilation, kernel size, kernel
    dilation, stride, padding. ([jax.lax.conv_general_dilated] as called at linear.py:311-321) *)
Record dim := mkDim { dm_n : nat; dm_ld : nat; dm_k : nat; dm_rd : nat; dm_s : nat; dm_pad : Z * Z }.
(** [jax.lax.conv_general_dilated] as called at linear.py:311-321 *)
Fixpoint mk_dims (ns lds ks rds ss : list nat) (pads : list (Z * Z)) : result (list dim) :=
  match ns, lds, ks, rds, ss, pads with
  | [], [], [], [], [], [] => Ok []
  | n :: ns, ld :: lds, k :: ks, rd :: rds, s :: ss, p :: pads =>
      if Nat.eqb ld 0 || Nat.eqb rd 0 || Nat.eqb s 0 || Nat.eqb k 0 then Err TypeError
      else do l <- mk_dims ns lds ks rds ss pads; Ok (mkDim n ld k rd s p :: l)
  | _, _, _, _, _, _ => Err TypeError
  end.
(** [jax.lax.conv_general_dilated] as called at linear.py:311-321 *)
Fixpoint read_all (dims : list dim) (o k : list nat) : option (list nat) :=
  match dims, o, k with
  | d :: ds, oi :: os, ki :: ks =>
      match read_pos (dm_n d) (dm_ld d) (dm_rd d) (dm_s d) (dm_pad d) oi ki, read_all ds os ks with
      | Some p, Some t => Some (p :: t)
      | _, _ => None
      end
  | _, _, _ => Some []
  end.
(** [jax.lax.conv_general_dilated] as called at linear.py:311-321 *)
Definition dim_out (d : dim) : nat := out_size (dm_n d) (dm_ld d) (dm_k d) (dm_rd d) (dm_s d) (dm_pad d).

(** [jax.lax.conv_general_dilated] as called at linear.py:311-321 *)
Fixpoint int_pads (l : list (pad_val * pad_val)) : result (list (Z * Z)) :=
  match l with
  | [] => Ok []
  | (PInt a, PInt b) :: t => do r <- int_pads t; Ok ((a, b) :: r)
  | _ => Err TypeError
  end.
(** [lax.padtype_to_pads]: "SAME" splits the missing size, the larger half at the
    end. ([jax.lax.padtype_to_pads] as used by the call at linear.py:311-321) *)
Definition same_pad (n k rhs_d stride : nat) : Z * Z :=
  let out := Z.of_nat (Nat.div (n + stride - 1) stride) in
  let total := Z.max 0 ((out - 1) * Z.of_nat stride + Z.of_nat (dilated k rhs_d) - Z.of_nat n) in
  (total / 2, total - total / 2)%Z.
(** [jax.lax.padtype_to_pads] as used by the call at linear.py:311-321 *)
Fixpoint map4 {B} (f : nat -> nat -> nat -> nat -> B) (a b c d : list nat) : list B :=
  match a, b, c, d with
  | x :: a, y :: b, z :: c, w :: d => f x y z w :: map4 f a b c d
  | _, _, _, _ => []
  end.
(** [jax.lax.conv_general_dilated] as called at linear.py:311-321 *)
Definition lax_pads (pad : lax_pad) (ns lds ks rds ss : list nat) : result (list (Z * Z)) :=
  match pad with
  | LPairs l => int_pads l
  | LStr s =>
      if negb (forallb (Nat.eqb 1) lds) then Err ValueError
      else if String.eqb s "VALID" then Ok (map (fun _ => (0%Z, 0%Z)) ns)
      else if String.eqb s "SAME" then Ok (map4 same_pad ns ks rds ss)
      else Err OutOfModel
  end.

(** [jax.lax.conv_general_dilated] as called at linear.py:311-321 *)
Definition conv_entry (x k : tensor) (dims : list dim) (groups : nat) (b : nat) (o : list nat) (f : nat) : Qc :=
  let ksp := map dm_k dims in
  let cg := nth (List.length dims) (t_shape k) 0 in
  let nf := nth (S (List.length dims)) (t_shape k) 0 in
  let g := f / (nf / groups) in
  qsum (map (fun kk =>
          match read_all dims o kk with
          | None => 0%Qc
          | Some p => qsum (map (fun c => (t_at x (b :: p ++ [(g * cg + c)%nat]) * t_at k (kk ++ [c; f]))%Qc) (seq 0 cg))
          end) (all_idx ksp)).

(** [jax.lax.conv_general_dilated] as called at linear.py:311-321 *)
Definition conv_general_dilated (x k : tensor) (strides : list nat) (pad : lax_pad) (lhs_d rhs_d : list nat) (groups : nat)
  : result tensor :=
  let n := List.length (t_shape x) - 2 in
  let ns := firstn n (tl (t_shape x)) in
  let ks := firstn n (t_shape k) in
  let chan := nth (S n) (t_shape x) 0 in
  let cg := nth n (t_shape k) 0 in
  let nf := nth (S n) (t_shape k) 0 in
  if negb (Nat.eqb (List.length (t_shape x)) (List.length (t_shape k))) || Nat.ltb (List.length (t_shape x)) 2 then Err TypeError
  else if Nat.eqb groups 0 || negb (Nat.eqb chan (groups * cg)) || negb (Nat.eqb (nf mod groups) 0) then Err TypeError
  else
    do pads <- lax_pads pad ns lhs_d ks rhs_d strides;
    do dims <- mk_dims ns lhs_d ks rhs_d strides pads;
    Ok (mkT (nth 0 (t_shape x) 0 :: map dim_out dims ++ [nf])
            (fun idx => match idx with
                        | [] => 0%Qc
                        | b :: t => conv_entry x k dims groups b (removelast t) (last t 0)
                        end)).

(** [jnp.pad] with mode "wrap" and with zeros, over the spatial dimensions. ([jnp.pad(.., mode="wrap")] as called at linear.py:281-288) *)
Fixpoint pad_shape (ns : list nat) (pads : list (nat * nat)) : list nat :=
  match ns, pads with
  | n :: ns, (lo, hi) :: pads => lo + n + hi :: pad_shape ns pads
  | _, _ => ns
  end.
(** [jnp.pad(.., mode="wrap")] as called at linear.py:281-288 *)
Fixpoint wrap_idx (ns : list nat) (pads : list (nat * nat)) (idx : list nat) : list nat :=
  match ns, pads, idx with
  | n :: ns, (lo, hi) :: pads, i :: t => Z.to_nat ((Z.of_nat i - Z.of_nat lo) mod Z.of_nat n) :: wrap_idx ns pads t
  | _, _, _ => idx
  end.
(** [jnp.pad(.., mode="wrap")] as called at linear.py:281-288 *)
Fixpoint wrap_ok (ns : list nat) (pads : list (nat * nat)) : bool :=
  match ns, pads with
  | n :: ns, (lo, hi) :: pads => (negb (Nat.eqb n 0) || Nat.eqb (lo + hi) 0) && wrap_ok ns pads
  | [], [] => true
  | _, _ => false
  end.
(** [jnp.pad(.., mode="wrap")] as called at linear.py:281-288 *)
Definition pad_wrap (x : tensor) (pads : list (nat * nat)) : result tensor :=
  if wrap_ok (t_shape x) pads
  then Ok (mkT (pad_shape (t_shape x) pads) (fun idx => t_at x (wrap_idx (t_shape x) pads idx)))
  else Err ValueError.
(** [jnp.pad] as called at linear.py:289-295 *)
Fixpoint zero_idx (ns : list nat) (pads : list (nat * nat)) (idx : list nat) : option (list nat) :=
  match ns, pads, idx with
  | n :: ns, (lo, hi) :: pads, i :: t =>
      if Nat.leb lo i && Nat.ltb i (lo + n)
      then match zero_idx ns pads t with Some r => Some (i - lo :: r) | None => None end
      else None
  | _, _, _ => Some idx
  end.
(** [jnp.pad] as called at linear.py:289-295 *)
Definition pad_zero (x : tensor) (pads : list (nat * nat)) : result tensor :=
  if Nat.eqb (List.length (t_shape x)) (List.length pads)
  then Ok (mkT (pad_shape (t_shape x) pads)
               (fun idx => match zero_idx (t_shape x) pads idx with Some i => t_at x i | None => 0%Qc end))
  else Err ValueError.

(** linear.py:172-231 [Conv]: the attributes that [__call__] uses.  strides and
    dilations: None, an int or a sequence *)
Inductive per_dim := DNone | DInt (n : nat) | DSeq (l : list nat).
(** linear.py:172-231 *)
Record conv := mkConv { cv_kernel : tensor; cv_bias : option tensor; cv_in : nat; cv_ks : list nat;
                        cv_strides : per_dim; cv_padding : pad_val; cv_idil : per_dim; cv_kdil : per_dim;
                        cv_groups : nat; cv_mask : option (tensor -> tensor) }.

(** linear.py:256-265 [maybe_broadcast] *)
Definition maybe_broadcast (rank : nat) (x : per_dim) : list nat :=
  match x with
  | DNone => repeat 1 rank
  | DInt n => repeat n rank
  | DSeq l => l
  end.
(** linear.py:282-286: the wrap padding of a dilated kernel size *)
Definition circular_pad (k d : nat) : nat * nat :=
  let kd := (k - 1) * d + 1 in ((kd - 1) / 2, kd / 2).
(** the list comprehensions of linear.py:282-286 *)
Fixpoint zip_with {A B C} (f : A -> B -> C) (a : list A) (b : list B) : list C :=
  match a, b with
  | x :: a, y :: b => f x y :: zip_with f a b
  | _, _ => []
  end.

(** linear.py:323-325: add the bias over the last axis; it is reshaped to the rank of the
    output first, so that it is [lax.add] that refuses incompatible shapes (TypeError).  A bias that would be
    broadcast (size 1 against another size) is not modelled. *)
Definition add_bias (y : tensor) (bias : option tensor) : result tensor :=
  match bias with
  | None => Ok y
  | Some b =>
      match t_shape b with
      | [n] => if Nat.eqb n (last (t_shape y) 0)
               then Ok (mkT (t_shape y) (fun idx => (t_at y idx + t_at b [last idx 0%nat])%Qc))
               else if Nat.eqb n 1 || Nat.eqb (last (t_shape y) 0) 1 then Err OutOfModel else Err TypeError
      | _ => Err OutOfModel
      end
  end.

(** linear.py:280-295: the padded input and the padding left to lax *)
Definition conv_pad (c : conv) (x : tensor) : result (tensor * lax_pad) :=
  let rank := List.length (cv_ks c) in
  let kdil := maybe_broadcast rank (cv_kdil c) in
  do p <- canonicalize_padding (cv_padding c) rank;
  match p with
  | LStr s =>
      if String.eqb s "CIRCULAR" then
        do x' <- pad_wrap x ((0, 0) :: zip_with circular_pad (cv_ks c) kdil ++ [(0, 0)]);
        Ok (x', LStr "VALID")
      else if String.eqb s "CAUSAL" then
        if negb (Nat.eqb rank 1) then Err ValueError
        else match kdil with
             | [] => Err IndexError
             | d :: _ =>
                 do x' <- pad_zero x [(0, 0); (d * (nth 0 (cv_ks c) 0 - 1), 0); (0, 0)];
                 Ok (x', LStr "VALID")
             end
      else Ok (x, p)
  | LPairs _ => Ok (x, p)
  end.

(** linear.py:233-330 [Conv.__call__].  A kernel size of 0 and an input with fewer
    axes than the kernel are not modelled (lax rejects them). *)
Definition conv_call (c : conv) (x : tensor) : result tensor :=
  let rank := List.length (cv_ks c) in
  if Nat.ltb (List.length (t_shape x)) (rank + 1) || existsb (Nat.eqb 0) (cv_ks c) then Err OutOfModel
  else
    let num_batch := List.length (t_shape x) - (rank + 1) in
    let batch_shape := firstn num_batch (t_shape x) in
    do x1 <- (if Nat.eqb num_batch 1 then Ok x
              else reshape x (prod batch_shape :: skipn num_batch (t_shape x)));
    do xp <- conv_pad c x1;
    if Nat.eqb (cv_groups c) 0 || negb (Nat.eqb (cv_in c mod cv_groups c) 0) then Err AssertionError
    else
      let kernel := match cv_mask c with None => cv_kernel c | Some f => f (cv_kernel c) end in
      do y <- conv_general_dilated (fst xp) kernel (maybe_broadcast rank (cv_strides c)) (snd xp)
                (maybe_broadcast rank (cv_idil c)) (maybe_broadcast rank (cv_kdil c)) (cv_groups c);
      do y <- add_bias y (cv_bias c);
      if Nat.eqb num_batch 1 then Ok y else reshape y (batch_shape ++ tl (t_shape y)).

(** ** Linear and Embed *)

(** linear.py:76-108 *)
Record linear := mkLinear { l_kernel : tensor; l_bias : option tensor }.
(** linear.py:110-131 [Linear.__call__]; the kernel has two axes *)
Definition linear_call (l : linear) (x : tensor) : result tensor :=
  match t_shape x, t_shape (l_kernel l) with
  | [], _ => Err TypeError
  | s, [i; o] =>
      if Nat.eqb (last s 0) i
      then add_bias (mkT (removelast s ++ [o])
                         (fun idx => qsum (map (fun j => (t_at x (removelast idx ++ [j]) * t_at (l_kernel l) [j; last idx 0%nat])%Qc)
                                               (seq 0 i)))) (l_bias l)
      else Err TypeError
  | _, _ => Err OutOfModel
  end.

(** linear.py:349-399 [Embed].  [jnp.take] counts negative indices from the end;
    an index out of range gives NaN, here 0. *)
Definition take_row (n : nat) (i : Z) : option nat :=
  match py_index n i with Ok j => Some j | Err _ => None end.
(** linear.py:369-384 *)
Definition embed_call (emb : tensor) (is_int : bool) (shape : list nat) (at_ : list nat -> Z) : result tensor :=
  if negb is_int then Err ValueError
  else match t_shape emb with
       | [n; f] => Ok (mkT (shape ++ [f])
                          (fun idx => match take_row n (at_ (removelast idx)) with
                                      | Some r => t_at emb [r; last idx 0]
                                      | None => 0%Qc
                                      end))
       | _ => Err OutOfModel
       end.
(** linear.py:386-399 [Embed.attend] *)
Definition attend (emb q : tensor) : result tensor :=
  match t_shape q, t_shape emb with
  | [], _ => Err OutOfModel
  | s, [n; f] =>
      if Nat.eqb (last s 0) f
      then Ok (mkT (removelast s ++ [n])
                   (fun idx => qsum (map (fun j => (t_at q (removelast idx ++ [j]) * t_at emb [last idx 0%nat; j])%Qc) (seq 0 f))))
      else Err TypeError
  | _, _ => Err OutOfModel
  end.

(** ** Constructors: the parameters and the streams after *)
Section init.
  Context (blake : string -> nat) (cur : trace_state) (ctx : context).

  (** [Param(init(ctx.make_rng("params"), shape, dtype))] *)
  Definition draw_param (init : key -> list nat -> tensor) (shape : list nat) (ss : list stream) : result tensor * list stream :=
    match make_rng blake cur ctx "params" ss with
    | (Err e, ss') => (Err e, ss')
    | (Ok k, ss') => (Ok (init k shape), ss')
    end.
  (** [if use: ... else: Param(None)] *)
  Definition draw_opt (use : bool) (init : key -> list nat -> tensor) (shape : list nat) (ss : list stream)
    : result (option tensor) * list stream :=
    if use then match draw_param init shape ss with
                | (Ok t, ss') => (Ok (Some t), ss')
                | (Err e, ss') => (Err e, ss')
                end
    else (Ok None, ss).

  (** linear.py:76-108 [Linear.__init__] *)
  Definition linear_init (i o : nat) (use_bias : bool) (kernel_init bias_init : key -> list nat -> tensor) (ss : list stream)
    : result linear * list stream :=
    match draw_param kernel_init [i; o] ss with
    | (Err e, ss) => (Err e, ss)
    | (Ok k, ss) =>
        match draw_opt use_bias bias_init [o] ss with
        | (Err e, ss) => (Err e, ss)
        | (Ok b, ss) => (Ok (mkLinear k b), ss)
        end
    end.

  (** linear.py:172-231 [Conv.__init__]; [kernel_size] is an int ([None] here) or a
      sequence.  [feature_group_count] is at least 1. *)
  Definition conv_init (i o : nat) (kernel_size : option (list nat)) (strides : per_dim) (padding : pad_val)
      (idil kdil : per_dim) (groups : nat) (use_bias : bool) (mask : option (tensor -> tensor))
      (kernel_init bias_init : key -> list nat -> tensor) (ss : list stream) : result conv * list stream :=
    match kernel_size with
    | None => (Err TypeError, ss)
    | Some ks =>
        match draw_param kernel_init (ks ++ [i / groups; o]) ss with
        | (Err e, ss) => (Err e, ss)
        | (Ok k, ss) =>
            match draw_opt use_bias bias_init [o] ss with
            | (Err e, ss) => (Err e, ss)
            | (Ok b, ss) => (Ok (mkConv k b i ks strides padding idil kdil groups mask), ss)
            end
        end
    end.

  (** normalization.py:178-224 [BatchNorm.__init__] *)
  Definition bn_init (n : nat) (ura : option bool) (axis : Z) (momentum epsilon : Qc) (use_bias use_scale : bool)
      (bias_init scale_init : key -> list nat -> tensor) (ss : list stream) : result batchnorm * list stream :=
    match draw_opt use_scale scale_init [n] ss with
    | (Err e, ss) => (Err e, ss)
    | (Ok s, ss) =>
        match draw_opt use_bias bias_init [n] ss with
        | (Err e, ss) => (Err e, ss)
        | (Ok b, ss) => (Ok (mkBN (mkT [n] (fun _ => 0%Qc)) (mkT [n] (fun _ => 1%Qc)) s b ura axis momentum epsilon), ss)
        end
    end.

  (** normalization.py:310-352 [LayerNorm.__init__] *)
  Definition ln_init (n : nat) (epsilon : Qc) (use_bias use_scale : bool) (bias_init scale_init : key -> list nat -> tensor)
      (red feat : list Z) (ss : list stream) : result layernorm * list stream :=
    match draw_opt use_scale scale_init [n] ss with
    | (Err e, ss) => (Err e, ss)
    | (Ok s, ss) =>
        match draw_opt use_bias bias_init [n] ss with
        | (Err e, ss) => (Err e, ss)
        | (Ok b, ss) => (Ok (mkLN s b red feat epsilon), ss)
        end
    end.

  (** linear.py:349-367 [Embed.__init__] *)
  Definition embed_init (n f : nat) (init : key -> list nat -> tensor) (ss : list stream) : result tensor * list stream :=
    draw_param init [n; f] ss.
End init.
