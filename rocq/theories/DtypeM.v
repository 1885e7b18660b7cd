(** DtypeM: models nnx/nn/dtypes.py and the element types that the layers of
    nnx/nn/linear.py, nnx/nn/normalization.py and nnx/nn/stochastic.py compute with.
    jax's type promotion is modelled by its documented lattice; float8, int4 and
    extended (key) types are not in it. *)
From Verif Require Import PyBase.
Local Open Scope list_scope.

(** jax's types as used in dtypes.py:10-67 *)
Inductive width : Type := W8 | W16 | W32 | W64.
(** jax's types as used in dtypes.py:10-67 *)
Inductive dtype : Type :=
| TBool | TU (w : width) | TI (w : width) | TBF16 | TF16 | TF32 | TF64 | TC64 | TC128.
(** The type of an array: its dtype, and whether it is only weakly typed (made
    from a python scalar). (jax's types as used in dtypes.py:10-67) *)
Record aty := mkAty { a_dt : dtype; a_weak : bool }.

(** ** jax's promotion *)
(** Nodes of the lattice: the dtypes and python's int, float and complex. (jax's types as used in dtypes.py:10-67) *)
Inductive node : Type := NInt | NFloat | NComplex | N (d : dtype).
(** jax's type promotion as called at dtypes.py:10-39 *)
Definition dtype_eqb (a b : dtype) : bool :=
  match a, b with
  | TBool, TBool | TBF16, TBF16 | TF16, TF16 | TF32, TF32 | TF64, TF64 | TC64, TC64 | TC128, TC128 => true
  | TU v, TU w | TI v, TI w => match v, w with W8, W8 | W16, W16 | W32, W32 | W64, W64 => true | _, _ => false end
  | _, _ => false
  end.
(** jax's type promotion as called at dtypes.py:10-39 *)
Definition wmax (v w : width) : width :=
  match v, w with W64, _ | _, W64 => W64 | W32, _ | _, W32 => W32 | W16, _ | _, W16 => W16 | _, _ => W8 end.
(** jax's type promotion as called at dtypes.py:10-39 *)
Definition wtwice (v : width) : option width := match v with W8 => Some W16 | W16 => Some W32 | W32 => Some W64 | W64 => None end.
(** least upper bound of two float types, of a complex type with a float type. (jax's type promotion as called at dtypes.py:10-39) *)
Definition fjoin (a b : dtype) : dtype :=
  match a, b with
  | TF64, _ | _, TF64 => TF64
  | TBF16, TBF16 => TBF16
  | TF16, TF16 => TF16
  | _, _ => TF32
  end.
(** jax's type promotion as called at dtypes.py:10-39 *)
Inductive kind : Type := KBool | KInt | KFloat | KComplex.
(** jax's type promotion as called at dtypes.py:10-39 *)
Definition dkind (d : dtype) : kind :=
  match d with TBool => KBool | TU _ | TI _ => KInt | TBF16 | TF16 | TF32 | TF64 => KFloat | TC64 | TC128 => KComplex end.
(** jax's type promotion as called at dtypes.py:10-39 *)
Definition join (a b : node) : node :=
  match a, b with
  | N TBool, x | x, N TBool => x
  | NComplex, NComplex => NComplex
  | NComplex, (NInt | NFloat) | (NInt | NFloat), NComplex => NComplex
  | NComplex, N d | N d, NComplex =>
      match dkind d with KBool | KInt => NComplex | KFloat => N (match d with TF64 => TC128 | _ => TC64 end) | KComplex => N d end
  | NFloat, (NInt | NFloat) | NInt, NFloat => NFloat
  | NFloat, N d | N d, NFloat => match dkind d with KBool | KInt => NFloat | _ => N d end
  | NInt, NInt => NInt
  | NInt, N d | N d, NInt => N d
  | N d, N e =>
      match d, e with
      | TU v, TU w => N (TU (wmax v w))
      | TI v, TI w => N (TI (wmax v w))
      | TU v, TI w | TI w, TU v => match wtwice v with Some v' => N (TI (wmax v' w)) | None => NFloat end
      | _, _ =>
        match dkind d, dkind e with
        | KInt, _ => N e
        | _, KInt => N d
        | KFloat, KFloat => N (fjoin d e)
        | KComplex, KComplex => N (match d, e with TC64, TC64 => TC64 | _, _ => TC128 end)
        | KComplex, _ => N (match e with TF64 => TC128 | _ => d end)
        | _, KComplex => N (match d with TF64 => TC128 | _ => e end)
        | _, _ => N e
        end
      end
  end.
(** [x64]: whether 64-bit types are enabled; otherwise they become 32-bit ones. (jax's type promotion as called at dtypes.py:10-39) *)
Definition canon (x64 : bool) (d : dtype) : dtype :=
  if x64 then d else match d with TU W64 => TU W32 | TI W64 => TI W32 | TF64 => TF32 | TC128 => TC64 | _ => d end.
(** jax's type promotion as called at dtypes.py:10-39 *)
Definition default_of (x64 : bool) (k : kind) : dtype :=
  canon x64 (match k with KBool => TBool | KInt => TI W64 | KFloat => TF64 | KComplex => TC128 end).
(** jax's type promotion as called at dtypes.py:10-39 *)
Definition weak_node (d : dtype) : node :=
  match dkind d with KBool => N d | KInt => NInt | KFloat => NFloat | KComplex => NComplex end.
(** jax's type promotion as called at dtypes.py:10-39 *)
Definition node_of (a : aty) : node := if a_weak a then weak_node (a_dt a) else N (a_dt a).
(** jax's type promotion as called at dtypes.py:10-39 *)
Definition join_all (l : list node) : node := fold_left join l (N TBool).
(** the dtype of a node, and of a weak result. (jax's type promotion as called at dtypes.py:10-39) *)
Definition node_dtype (x64 : bool) (n : node) : aty :=
  match n with
  | NInt => mkAty (default_of x64 KInt) true
  | NFloat => mkAty (default_of x64 KFloat) true
  | NComplex => mkAty (default_of x64 KComplex) true
  | N d => mkAty (canon x64 d) false
  end.
(** [jax.dtypes._lattice_result_type], canonicalized: a non-empty list of types. (jax's type promotion as called at dtypes.py:10-39) *)
Definition lattice_type (x64 : bool) (l : list aty) : aty :=
  if forallb a_weak l then
    match join_all (map (fun a => N (a_dt a)) l) with
    | N d => match dkind d with KBool => mkAty TBool false | k => mkAty (default_of x64 k) true end
    | n => node_dtype x64 n
    end
  else node_dtype x64 (join_all (map node_of l)).
(** [jnp.result_type]. (jax's type promotion as called at dtypes.py:10-39) *)
Definition result_type (x64 : bool) (l : list aty) : result dtype :=
  match l with [] => Err ValueError | _ => Ok (a_dt (lattice_type x64 l)) end.
(** [jnp.promote_types] of two dtypes. (jax's type promotion as called at dtypes.py:10-39) *)
Definition promote_types (x64 : bool) (a b : dtype) : dtype := a_dt (node_dtype x64 (join (N a) (N b))).
(** [jnp.issubdtype(d, jnp.inexact)]. (used at dtypes.py:10-39) *)
Definition is_inexact (d : dtype) : bool := match dkind d with KFloat | KComplex => true | _ => false end.

(** ** nn/dtypes.py *)
(** dtypes.py:10-39 [canonicalize_dtype].  An argument is None or an array. *)
Definition somes {A} (l : list (option A)) : list A := flat_map (fun o => match o with Some a => [a] | None => [] end) l.
(** dtypes.py:10-39 *)
Definition canonicalize_dtype (x64 : bool) (args : list (option aty)) (dt : option dtype) (inexact : bool) : result dtype :=
  do d <- match dt with
          | Some d => Ok d
          | None =>
              do d <- result_type x64 (somes args);
              Ok (if inexact && negb (is_inexact d) then promote_types x64 TF32 d else d)
          end;
  if inexact && negb (is_inexact d) then Err ValueError else Ok d.
(** dtypes.py:42-67 [promote_dtype] *)
Definition promote_dtype (x64 : bool) (args : list (option aty)) (dt : option dtype) (inexact : bool) : result (list (option aty)) :=
  do d <- canonicalize_dtype x64 args dt inexact;
  Ok (map (option_map (fun _ => mkAty (canon x64 d) false)) args).

(** ** Element types of the layers *)
(** A binary operation of arrays. (jax arithmetic as used in linear.py:110-131, normalization.py:226-276) *)
Definition binop (x64 : bool) (a b : aty) : aty := lattice_type x64 [a; b].
(** a python float, e.g. [momentum]. (jax arithmetic as used in linear.py:110-131, normalization.py:226-276) *)
Definition py_float (x64 : bool) : aty := mkAty (default_of x64 KFloat) true.
(** linear.py:110-131 [Linear.__call__] and linear.py:233-331 [Conv.__call__]:
    after the promotion everything has one type; the product keeps it. *)
Definition affine_type (x64 : bool) (x kernel : aty) (bias : option aty) (dt : option dtype) : result aty :=
  do l <- promote_dtype x64 [Some x; Some kernel; bias] dt true;
  match l with
  | [Some x'; Some _; Some b'] => Ok (binop x64 x' b')
  | [Some x'; Some _; None] => Ok x'
  | _ => Err OutOfModel
  end.
(** linear.py:349-367 [Embed.__init__]: the dtype attribute *)
Definition embed_dtype (embedding : aty) (dt : option dtype) : dtype := match dt with Some d => d | None => a_dt embedding end.
(** linear.py:369-384 [Embed.__call__] *)
Definition embed_type (x64 : bool) (x embedding : aty) (dt : option dtype) : result aty :=
  match dkind (a_dt x) with
  | KInt => do l <- promote_dtype x64 [Some embedding] (Some (embed_dtype embedding dt)) false;
            match l with [Some e] => Ok e | _ => Err OutOfModel end
  | _ => Err ValueError
  end.
(** linear.py:386-399 [Embed.attend] *)
Definition attend_type (x64 : bool) (query embedding : aty) (dt : option dtype) : result aty :=
  do l <- promote_dtype x64 [Some query; Some embedding] (Some (embed_dtype embedding dt)) true;
  match l with [Some q; Some e] => Ok (binop x64 q e) | _ => Err OutOfModel end.
(** normalization.py:27-94 [_abs_sq], [_compute_stats]: the types of mean and variance *)
Definition real_of (d : dtype) : dtype := match d with TC64 => TF32 | TC128 => TF64 | _ => d end.
(** normalization.py:35-94 *)
Definition stats_type (x64 : bool) (x : aty) (dt : option dtype) : aty * aty :=
  let d := match dt with Some d => d | None => a_dt (lattice_type x64 [x]) end in
  let d := canon x64 (promote_types x64 d TF32) in
  (mkAty d false, mkAty (real_of d) false).
(** normalization.py:97-148 [_normalize]: the result is cast at the end *)
Definition norm_type (x64 : bool) (x : aty) (scale bias : option aty) (dt : option dtype) : result aty :=
  do d <- canonicalize_dtype x64 [Some x; scale; bias] dt true;
  Ok (mkAty (canon x64 d) false).
(** normalization.py:263-264: [momentum * old + (1 - momentum) * new] *)
Definition average_type (x64 : bool) (old new : aty) : aty :=
  binop x64 (binop x64 (py_float x64) old) (binop x64 (py_float x64) new).
(** the types of the running statistics and of the parameters of a BatchNorm. (normalization.py:178-224) *)
Record bn_types := mkBn { bn_mean : aty; bn_var : aty }.
(** normalization.py:197-198: both made as float32 *)
Definition bn_start : bn_types := mkBn (mkAty TF32 false) (mkAty TF32 false).
(** normalization.py:226-276 [BatchNorm.__call__]; [train] when the running
    averages are not used.  The statistics are written before the result is made. *)
Definition bn_call_type (x64 : bool) (train : bool) (s : bn_types) (x : aty) (scale bias : option aty) (dt : option dtype) : bn_types * result aty :=
  let s' := if train then
              let '(m, v) := stats_type x64 x dt in mkBn (average_type x64 (bn_mean s) m) (average_type x64 (bn_var s) v)
            else s in
  (s', norm_type x64 x scale bias dt).
(** stochastic.py:29-72 [Dropout.__call__] once the flags are resolved: [off] when
    the rate is 0 or the call is deterministic, [all] when the rate is 1.
    [lax.select] wants its two cases to have the same dtype (TypeError). *)
Definition dropout_type (x64 : bool) (off all : bool) (x : aty) : result aty :=
  if off then Ok x
  else if all then Ok x
  else let q := binop x64 x (py_float x64) in
       if dtype_eqb (a_dt q) (a_dt x) then Ok q else Err TypeError.
