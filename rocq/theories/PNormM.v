(** PNormM: BatchNorm and LayerNorm with [axis_name], in a program that runs on all
    devices of that axis (nnx/nn/normalization.py).

    The devices run one program, so settings, shapes and flags are the same on all
    of them; the arrays differ.  They meet in [lax.pmean] only.  A list holds one
    entry per device, in the order of [lax.axis_index]. *)
From Coq Require Import ZArith QArith Qcanon.
From Verif Require Import PyBase ModuleM ContextM TensorM NnM.
Local Open Scope string_scope.
Local Open Scope nat_scope.
Local Open Scope list_scope.

(** [jnp.concatenate([a, b])]: along axis 0; arrays without axes are refused. (normalization.py:81-90) *)
Definition concat0 (a b : tensor) : result tensor :=
  match t_shape a, t_shape b with
  | n :: s, m :: s' =>
      if nlist_eqb s s'
      then Ok (mkT (n + m :: s) (fun idx => match idx with
                                            | [] => 0%Qc
                                            | i :: t => if i <? n then t_at a (i :: t) else t_at b (i - n :: t)
                                            end))
      else Err TypeError
  | _, _ => Err ValueError
  end.
(** [jnp.split(x, 2)]: the two halves along axis 0. (normalization.py:81-90) *)
Definition split0 (x : tensor) : result (tensor * tensor) :=
  match t_shape x with
  | [] => Err ValueError
  | n :: s =>
      if Nat.even n
      then Ok (mkT (n / 2 :: s) (t_at x),
               mkT (n / 2 :: s) (fun idx => match idx with [] => 0%Qc | i :: t => t_at x (n / 2 + i :: t) end))
      else Err ValueError
  end.

(** the entry of device [d]. ([lax.pmean] as called at normalization.py:81-90) *)
Definition on_device (vs : list tensor) (d : nat) : tensor := nth d vs (mkT [] (fun _ => 0%Qc)).
(** the devices that device [d] averages with, and the number that the sum is
    divided by, for [axis_index_groups = groups] on [n] devices: [lax.pmean] is
    [lax.psum(x, ..)] divided by [lax.psum(1, ..)], and jax takes the size of the
    first group for the latter. ([lax.pmean] as called at normalization.py:81-90) *)
Definition group_of (n : nat) (groups : option (list (list nat))) (d : nat) : list nat :=
  match groups with
  | None => seq 0 n
  | Some gs => match find (fun g => existsb (Nat.eqb d) g) gs with Some g => g | None => [] end
  end.
(** [lax.pmean] as called at normalization.py:81-90 *)
Definition group_size (n : nat) (groups : option (list (list nat))) : nat :=
  match groups with
  | None => n
  | Some gs => List.length (hd [] gs)
  end.
(** jax's check of the groups: together they are the numbers 0 .. k-1, each once. ([lax.pmean] as called at normalization.py:81-90) *)
Definition groups_check (groups : option (list (list nat))) : bool :=
  match groups with
  | None => true
  | Some gs => forallb (fun d => existsb (Nat.eqb d) (List.concat gs)) (seq 0 (List.length (List.concat gs)))
  end.
(** they are for another number of devices: not modelled. ([lax.pmean] as called at normalization.py:81-90) *)
Definition groups_fit (n : nat) (groups : option (list (list nat))) : bool :=
  match groups with
  | None => true
  | Some gs => Nat.eqb (List.length (List.concat gs)) n
  end.
(** [lax.pmean(x, axis_name=.., axis_index_groups=groups)]; [vs] are the values of
    [x] on the devices. ([lax.pmean] as called at normalization.py:81-90) *)
Definition pmean (groups : option (list (list nat))) (vs : list tensor) : result (list tensor) :=
  let n := List.length vs in
  if negb (groups_check groups) then Err ValueError
  else if negb (groups_fit n groups) then Err OutOfModel
  else Ok (map (fun d => mkT (t_shape (on_device vs d))
                             (fun idx => (qsum (map (fun e => t_at (on_device vs e) idx) (group_of n groups d))
                                          / qnat (group_size n groups))%Qc)) (seq 0 n)).

(** normalization.py:35-94 [_compute_stats] with an [axis_name], [use_mean = True],
    real numbers *)
Definition compute_stats_on (groups : option (list (list nat))) (xs : list tensor) (red : list nat) : result (list (tensor * tensor)) :=
  do cs <- rmapM (fun x => let mean2 := mean_over (mkT (t_shape x) (fun i => (t_at x i * t_at x i)%Qc)) red in
                           let mean := mean_over x red in
                           concat0 mean mean2) xs;
  do ps <- pmean groups cs;
  rmapM (fun p => do mm <- split0 p;
                  let '(mean, mean2) := mm in
                  Ok (mean, mkT (t_shape mean) (fun k => qmax 0 (t_at mean2 k - t_at mean k * t_at mean k)%Qc))) ps.

(** one program: the devices' settings and the shapes of their inputs are equal. (one program on all devices; the arguments of normalization.py:226-276) *)
Definition obool_eqb (a b : option bool) : bool :=
  match a, b with
  | None, None => true
  | Some x, Some y => Bool.eqb x y
  | _, _ => false
  end.
(** one program on all devices; the arguments of normalization.py:226-276 *)
Definition oshape_eqb (a b : option tensor) : bool :=
  match a, b with
  | None, None => true
  | Some x, Some y => nlist_eqb (t_shape x) (t_shape y)
  | _, _ => false
  end.
(** one program on all devices; the arguments of normalization.py:226-276 *)
Definition bn_same_program (b : batchnorm) (x : tensor) (d : batchnorm * tensor) : bool :=
  obool_eqb (bn_ura b) (bn_ura (fst d)) && Z.eqb (bn_axis b) (bn_axis (fst d)) &&
  Qc_eq_bool (bn_momentum b) (bn_momentum (fst d)) && Qc_eq_bool (bn_epsilon b) (bn_epsilon (fst d)) &&
  nlist_eqb (t_shape (bn_mean b)) (t_shape (bn_mean (fst d))) && nlist_eqb (t_shape (bn_var b)) (t_shape (bn_var (fst d))) &&
  oshape_eqb (bn_scale b) (bn_scale (fst d)) && oshape_eqb (bn_bias b) (bn_bias (fst d)) &&
  nlist_eqb (t_shape x) (t_shape (snd d)).

(** normalization.py:226-276 [BatchNorm.__call__] with an [axis_name], on all devices:
    the layer and the input of each.  Result: the layer and the output of each.  An
    exception is raised while the one program is traced, before any device runs. *)
Definition bn_call_on (rsqrt : Qc -> Qc) (groups : option (list (list nat))) (devs : list (batchnorm * tensor))
    (use_running_average : option bool) (ctx : option context) : result (list (batchnorm * tensor)) :=
  match devs with
  | [] => Err OutOfModel
  | (b0, x0) :: _ =>
      if negb (forallb (bn_same_program b0 x0) devs) then Err OutOfModel
      else
        do ura <- first_from [use_running_average; bn_ura b0; ctx_flag ctx "use_running_average"];
        if ura then rmapM (fun d => let '(b, x) := d in do y <- bn_norm rsqrt b x (bn_mean b) (bn_var b); Ok (b, y)) devs
        else
          do stats <- compute_stats_on groups (map snd devs) (snd (bn_axes b0 x0));
          rmapM (fun ds => let '((b, x), (mean, var)) := ds in
                           let '(b', y) := bn_update rsqrt b x mean var in do y <- y; Ok (b', y)) (combine devs stats)
  end.

(** normalization.py:354-377 [LayerNorm.__call__] with an [axis_name], on all devices *)
Definition oz_eqb (a b : list Z) : bool := if list_eq_dec Z.eq_dec a b then true else false.
(** one program on all devices; the arguments of normalization.py:354-377 *)
Definition ln_same_program (l : layernorm) (x : tensor) (d : layernorm * tensor) : bool :=
  oz_eqb (ln_red l) (ln_red (fst d)) && oz_eqb (ln_feat l) (ln_feat (fst d)) && Qc_eq_bool (ln_epsilon l) (ln_epsilon (fst d)) &&
  oshape_eqb (ln_scale l) (ln_scale (fst d)) && oshape_eqb (ln_bias l) (ln_bias (fst d)) && nlist_eqb (t_shape x) (t_shape (snd d)).
(** normalization.py:354-377 *)
Definition ln_call_on (rsqrt : Qc -> Qc) (groups : option (list (list nat))) (devs : list (layernorm * tensor)) : result (list tensor) :=
  match devs with
  | [] => Err OutOfModel
  | (l0, x0) :: _ =>
      if negb (forallb (ln_same_program l0 x0) devs) then Err OutOfModel
      else
        do red <- check_axes (List.length (t_shape x0)) (ln_red l0) [];
        do stats <- compute_stats_on groups (map snd devs) red;
        rmapM (fun ds => let '((l, x), (mean, var)) := ds in
                         normalize rsqrt x mean var (ln_scale l) (ln_bias l) (ln_red l) (ln_feat l) (ln_epsilon l)) (combine devs stats)
  end.
