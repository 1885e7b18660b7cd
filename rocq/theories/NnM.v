(** NnM: models nnx/nn/stochastic.py (Dropout), nnx/nn/normalization.py and
    first_from of nnx/module.py.  Numbers are exact (see TensorM); dtypes are not
    modelled. *)
From Coq Require Import ZArith QArith Qcanon.
From Verif Require Import PyBase ModuleM ContextM TensorM.
Local Open Scope string_scope.
Local Open Scope nat_scope.
Local Open Scope list_scope.

(** module.py:943-948 [first_from] *)
Fixpoint first_from {A} (args : list (option A)) : result A :=
  match args with
  | [] => Err ValueError
  | Some a :: _ => Ok a
  | None :: t => first_from t
  end.

(** [ctx and ctx.get_flag(name)]: None without a context (a Context is always true). (stochastic.py:29-72, normalization.py:226-276) *)
Definition ctx_flag (ctx : option context) (name : string) : option bool :=
  match ctx with None => None | Some x => get_flag x name end.

(** ** Dropout *)

(** stochastic.py:11-27 *)
Record dropout := mkDropout { d_rate : Qc; d_broadcast : list Z; d_det : option bool; d_coll : string }.

(** stochastic.py:68-69: [for dim in broadcast_dims: broadcast_shape[dim] = 1] *)
Fixpoint broadcast_shape (shape : list nat) (dims : list Z) : result (list nat) :=
  match dims with
  | [] => Ok shape
  | d :: t => do i <- py_index (List.length shape) d; broadcast_shape (list_set i 1 shape) t
  end.
(** [jnp.broadcast_to(mask, shape)[idx]] is [mask] at this index. (stochastic.py:68-70) *)
Fixpoint broadcast_idx (mshape idx : list nat) : list nat :=
  match mshape, idx with
  | n :: s, i :: t => (if Nat.eqb n 1 then 0 else i) :: broadcast_idx s t
  | _, _ => []
  end.

(** stochastic.py:29-72 [Dropout.__call__].  [bernoulli key p shape] is
    [jax.random.bernoulli]: an arbitrary function of its arguments.  Result: the
    output and the streams after the call. *)
Definition dropout_call (blake : string -> nat) (bernoulli : key -> Qc -> list nat -> list nat -> bool) (cur : trace_state)
    (d : dropout) (x : tensor) (deterministic : option bool) (ctx : option context) (ss : list stream)
  : result tensor * list stream :=
  match first_from [deterministic; d_det d; ctx_flag ctx "deterministic"] with
  | Err e => (Err e, ss)
  | Ok det =>
      if Qc_eq_bool (d_rate d) 0 || det then (Ok x, ss)
      else if Qc_eq_bool (d_rate d) 1 then (Ok (mkT (t_shape x) (fun _ => 0%Qc)), ss)
      else
        match ctx with
        | None => (Err ValueError, ss)
        | Some c =>
            let keep := (1 - d_rate d)%Qc in
            match make_rng blake cur c (d_coll d) ss with
            | (Err e, ss') => (Err e, ss')
            | (Ok rng, ss') =>
                match broadcast_shape (t_shape x) (d_broadcast d) with
                | Err e => (Err e, ss')
                | Ok mshape =>
                    let mask := bernoulli rng keep mshape in
                    (Ok (mkT (t_shape x) (fun idx => if mask (broadcast_idx mshape idx) then (t_at x idx / keep)%Qc else 0%Qc)), ss')
                end
            end
        end
  end.

(** ** Normalization *)

(** normalization.py:20-24 [_canonicalize_axes]: the python list [axes] (one int
    is a list of one).  The result is a set; only membership and its elements
    are used. *)
Definition canonicalize_axes (rank : nat) (axes : list Z) : list Z :=
  nodup Z.eq_dec (map (fun a => if (a <? 0)%Z then (Z.of_nat rank + a)%Z else a) axes).

(** [in], normalization.py:97-148 *)
Definition zmem (a : Z) (l : list Z) : bool := existsb (Z.eqb a) l.

(** the coordinates of an index that are not reduced, and those that are features. ([jnp.mean] as called at normalization.py:35-94) *)
Fixpoint select (f : nat -> bool) (i : nat) (idx : list nat) : list nat :=
  match idx with
  | [] => []
  | x :: t => if f i then x :: select f (S i) t else select f (S i) t
  end.
(** [jnp.mean] as called at normalization.py:35-94 *)
Definition reduced (red : list nat) (i : nat) : bool := negb (existsb (Nat.eqb i) red).
(** [jnp.mean] as called at normalization.py:35-94 *)
Definition kept (red : list nat) (idx : list nat) : list nat := select (reduced red) 0 idx.
(** [jnp.mean] as called at normalization.py:35-94 *)
Definition nlist_eqb (a b : list nat) : bool := if list_eq_dec Nat.eq_dec a b then true else false.
(** the indices that are averaged into entry [k] of [jnp.mean(x, red)]. ([jnp.mean] as called at normalization.py:35-94) *)
Definition fiber (shape : list nat) (red : list nat) (k : list nat) : list (list nat) :=
  filter (fun idx => nlist_eqb (kept red idx) k) (all_idx shape).
(** [jnp.mean] as called at normalization.py:35-94 *)
Definition mean_over (x : tensor) (red : list nat) : tensor :=
  mkT (kept red (t_shape x)) (fun k => average (map (t_at x) (fiber (t_shape x) red k))).

(** normalization.py:35-94 [_compute_stats] with [axis_name = None],
    [use_mean = True], real numbers. *)
Definition compute_stats (x : tensor) (red : list nat) : tensor * tensor :=
  let mean2 := mean_over (mkT (t_shape x) (fun i => (t_at x i * t_at x i)%Qc)) red in
  let mean := mean_over x red in
  (mean, mkT (t_shape mean) (fun k => qmax 0 (t_at mean2 k - t_at mean k * t_at mean k)%Qc)).

(** [jnp.mean]'s check of its axes: in range and different. ([jnp.mean] as called at normalization.py:35-94) *)
Fixpoint check_axes (rank : nat) (axes : list Z) (seen : list nat) : result (list nat) :=
  match axes with
  | [] => Ok []
  | a :: t =>
      do i <- (match py_index rank a with Ok i => Ok i | Err _ => Err ValueError end);
      if existsb (Nat.eqb i) seen then Err ValueError
      else do l <- check_axes rank t (i :: seen); Ok (i :: l)
  end.

(** normalization.py:97-148 [_normalize]; [rsqrt] is [lax.rsqrt].  [scale] and
    [bias] have one axis.  The axes are
    canonicalized again here (123-124). *)
Definition opt_reshape (v : option tensor) (shape : list nat) : result (option tensor) :=
  match v with None => Ok None | Some t => do r <- reshape t shape; Ok (Some r) end.
(** normalization.py:97-148 *)
Fixpoint feature_shape (rank : nat) (xs : list nat) (axes : list Z) (acc : list nat) : result (list nat) :=
  match axes with
  | [] => Ok acc
  | a :: t => do i <- py_index rank a; feature_shape rank xs t (list_set i (nth i xs 0) acc)
  end.
(** normalization.py:97-148 *)
Fixpoint stats_shape (rank : nat) (axes : list Z) (acc : list nat) : result (list nat) :=
  match axes with
  | [] => Ok acc
  | a :: t => do i <- py_index rank a; stats_shape rank t (list_set i 1 acc)
  end.
(** normalization.py:97-148 *)
Definition normalize (rsqrt : Qc -> Qc) (x mean var : tensor) (scale bias : option tensor)
    (reduction_axes feature_axes : list Z) (epsilon : Qc) : result tensor :=
  let rank := List.length (t_shape x) in
  let reduction_axes := canonicalize_axes rank reduction_axes in
  let feature_axes := canonicalize_axes rank feature_axes in
  do sshape <- stats_shape rank reduction_axes (t_shape x);
  do mean <- reshape mean sshape;
  do var <- reshape var sshape;
  do fshape <- feature_shape rank (t_shape x) feature_axes (repeat 1 rank);
  do scale <- opt_reshape scale fshape;
  do bias <- opt_reshape bias fshape;
  Ok (mkT (t_shape x) (fun idx =>
        let y := (t_at x idx - t_at mean (broadcast_idx sshape idx))%Qc in
        let mul := rsqrt (t_at var (broadcast_idx sshape idx) + epsilon)%Qc in
        let mul := match scale with None => mul | Some s => (mul * t_at s (broadcast_idx fshape idx))%Qc end in
        let y := (y * mul)%Qc in
        match bias with None => y | Some b => (y + t_at b (broadcast_idx fshape idx))%Qc end)).

(** normalization.py:178-224 [BatchNorm]: the attributes that [__call__] uses. *)
Record batchnorm := mkBN { bn_mean : tensor; bn_var : tensor; bn_scale : option tensor; bn_bias : option tensor;
                           bn_ura : option bool; bn_axis : Z; bn_momentum : Qc; bn_epsilon : Qc }.
(** [self.mean = ..], [self.var = ..], normalization.py:263-264 *)
Definition bn_set_mean (b : batchnorm) (m : tensor) : batchnorm :=
  mkBN m (bn_var b) (bn_scale b) (bn_bias b) (bn_ura b) (bn_axis b) (bn_momentum b) (bn_epsilon b).
(** [self.mean = ..], [self.var = ..], normalization.py:263-264 *)
Definition bn_set_var (b : batchnorm) (v : tensor) : batchnorm :=
  mkBN (bn_mean b) v (bn_scale b) (bn_bias b) (bn_ura b) (bn_axis b) (bn_momentum b) (bn_epsilon b).

(** addition of two arrays with at most one axis, with broadcasting.  [jnp.add] leaves
    arrays of the same rank to [lax.add], which raises TypeError. (jax arithmetic at normalization.py:263-264) *)
Definition add1 (a b : tensor) : result tensor :=
  match t_shape a, t_shape b with
  | [], [] => Ok (mkT [] (fun i => t_at a i + t_at b i)%Qc)
  | [n], [] => Ok (mkT [n] (fun i => t_at a i + t_at b [])%Qc)
  | [], [n] => Ok (mkT [n] (fun i => t_at a [] + t_at b i)%Qc)
  | [n], [m] =>
      if Nat.eqb n m then Ok (mkT [n] (fun i => t_at a i + t_at b i)%Qc)
      else if Nat.eqb m 1 then Ok (mkT [n] (fun i => t_at a i + t_at b [0%nat])%Qc)
      else if Nat.eqb n 1 then Ok (mkT [m] (fun i => t_at a [0%nat] + t_at b i)%Qc)
      else Err TypeError
  | _, _ => Err OutOfModel
  end.
(** jax arithmetic at normalization.py:263-264 *)
Definition scaled (c : Qc) (a : tensor) : tensor := mkT (t_shape a) (fun i => c * t_at a i)%Qc.

(** normalization.py:249-250: feature axes and reduction axes *)
Definition bn_axes (b : batchnorm) (x : tensor) : list Z * list nat :=
  let rank := List.length (t_shape x) in
  let feature_axes := canonicalize_axes rank [bn_axis b] in
  (feature_axes, filter (fun i => negb (zmem (Z.of_nat i) feature_axes)) (seq 0 rank)).
(** normalization.py:266-276: the call of [_normalize] *)
Definition bn_norm (rsqrt : Qc -> Qc) (b : batchnorm) (x mean var : tensor) : result tensor :=
  let '(feature_axes, red) := bn_axes b x in
  normalize rsqrt x mean var (bn_scale b) (bn_bias b) (map Z.of_nat red) feature_axes (bn_epsilon b).
(** normalization.py:263-276: the running statistics are stored one after the other,
    before [_normalize] is called *)
Definition bn_update (rsqrt : Qc -> Qc) (b : batchnorm) (x mean var : tensor) : batchnorm * result tensor :=
  match add1 (scaled (bn_momentum b) (bn_mean b)) (scaled (1 - bn_momentum b)%Qc mean) with
  | Err e => (b, Err e)
  | Ok m =>
      let b1 := bn_set_mean b m in
      match add1 (scaled (bn_momentum b1) (bn_var b1)) (scaled (1 - bn_momentum b1)%Qc var) with
      | Err e => (b1, Err e)
      | Ok v => let b2 := bn_set_var b1 v in (b2, bn_norm rsqrt b2 x mean var)
      end
  end.

(** normalization.py:226-276 [BatchNorm.__call__] with [axis_name = None].
    [self.axis] is one int. *)
Definition bn_call (rsqrt : Qc -> Qc) (b : batchnorm) (x : tensor) (use_running_average : option bool) (ctx : option context)
  : batchnorm * result tensor :=
  match first_from [use_running_average; bn_ura b; ctx_flag ctx "use_running_average"] with
  | Err e => (b, Err e)
  | Ok ura =>
      if ura then (b, bn_norm rsqrt b x (bn_mean b) (bn_var b))
      else let '(mean, var) := compute_stats x (snd (bn_axes b x)) in bn_update rsqrt b x mean var
  end.

(** normalization.py:310-377 [LayerNorm] *)
Record layernorm := mkLN { ln_scale : option tensor; ln_bias : option tensor; ln_red : list Z; ln_feat : list Z; ln_epsilon : Qc }.
(** normalization.py:354-377 *)
Definition ln_call (rsqrt : Qc -> Qc) (l : layernorm) (x : tensor) : result tensor :=
  do red <- check_axes (List.length (t_shape x)) (ln_red l) [];
  let '(mean, var) := compute_stats x red in
  normalize rsqrt x mean var (ln_scale l) (ln_bias l) (ln_red l) (ln_feat l) (ln_epsilon l).
