(** Spec_Dtype: jax's documented type promotion lattice, and what the element types
    should be. *)
From Coq Require Import Relations.
From Verif Require Import PyBase DtypeM.
Local Open Scope list_scope.

(** The arrows of the diagram in jax's documentation. *)
Inductive arrow : node -> node -> Prop :=
| e_bool : arrow (N TBool) NInt
| e_int_u8 : arrow NInt (N (TU W8))
| e_int_i8 : arrow NInt (N (TI W8))
| e_u8_u16 : arrow (N (TU W8)) (N (TU W16))
| e_u8_i16 : arrow (N (TU W8)) (N (TI W16))
| e_u16_u32 : arrow (N (TU W16)) (N (TU W32))
| e_u16_i32 : arrow (N (TU W16)) (N (TI W32))
| e_u32_u64 : arrow (N (TU W32)) (N (TU W64))
| e_u32_i64 : arrow (N (TU W32)) (N (TI W64))
| e_i8_i16 : arrow (N (TI W8)) (N (TI W16))
| e_i16_i32 : arrow (N (TI W16)) (N (TI W32))
| e_i32_i64 : arrow (N (TI W32)) (N (TI W64))
| e_u64_float : arrow (N (TU W64)) NFloat
| e_i64_float : arrow (N (TI W64)) NFloat
| e_float_bf16 : arrow NFloat (N TBF16)
| e_float_f16 : arrow NFloat (N TF16)
| e_float_complex : arrow NFloat NComplex
| e_bf16_f32 : arrow (N TBF16) (N TF32)
| e_f16_f32 : arrow (N TF16) (N TF32)
| e_f32_f64 : arrow (N TF32) (N TF64)
| e_f32_c64 : arrow (N TF32) (N TC64)
| e_f64_c128 : arrow (N TF64) (N TC128)
| e_complex_c64 : arrow NComplex (N TC64)
| e_c64_c128 : arrow (N TC64) (N TC128).
Definition below : node -> node -> Prop := clos_refl_trans node arrow.
(** [n] is the least type above all of [l] *)
Definition least_above (l : list node) (n : node) : Prop :=
  (forall a, In a l -> below a n) /\ forall m, (forall a, In a l -> below a m) -> below n m.

(** Arrays that jax makes: 64-bit types only when enabled; only python's scalars
    are weakly typed, with the default type of their kind. *)
Definition made (x64 : bool) (a : aty) : Prop :=
  canon x64 (a_dt a) = a_dt a /\
  (a_weak a = true -> exists k, k <> KBool /\ a_dt a = default_of x64 k).
(** The dtype an array of type [n] gets: python's types stand for the default one. *)
Definition dtype_for (x64 : bool) (n : node) : dtype :=
  match n with
  | NInt => if x64 then TI W64 else TI W32
  | NFloat => if x64 then TF64 else TF32
  | NComplex => if x64 then TC128 else TC64
  | N d => canon x64 d
  end.
Definition inexact_node (n : node) : Prop := below NFloat n.
(** The dtype [canonicalize_dtype] should infer. *)
Definition inferred (x64 inexact : bool) (l : list node) (d : dtype) : Prop :=
  exists n, least_above l n /\
    ((inexact = false \/ inexact_node n) /\ d = dtype_for x64 n \/ (inexact = true /\ ~ inexact_node n) /\ d = TF32).
(** the types of the arguments that are not None *)
Definition given (args : list (option aty)) : list aty := flat_map (fun o => match o with Some a => [a] | None => [] end) args.
Definition inexact_dtype (d : dtype) : Prop := In d [TBF16; TF16; TF32; TF64; TC64; TC128].

(** ** Batch normalisation *)
(** The statistics of one batch have at least float32, and at least the input's
    type (or the layer's dtype); a variance is real. *)
Definition batch_type (x64 : bool) (dt : option dtype) (x : aty) (d : dtype) : Prop :=
  exists n, least_above [N (match dt with Some d => d | None => a_dt x end); N TF32] (N n) /\ d = canon x64 n.
Definition magnitude (d : dtype) : dtype := match d with TC64 => TF32 | TC128 => TF64 | d => d end.
(** A history of calls, in training or not; the inputs of the training calls. *)
Definition history := list (bool * aty).
Definition trained (h : history) : list aty := flat_map (fun c : bool * aty => if fst c then [snd c] else []) h.
(** The statistics' types after a history. *)
Definition after (x64 : bool) (scale bias : option aty) (dt : option dtype) (h : list (bool * aty)) : bn_types :=
  fold_left (fun (s : bn_types) (c : bool * aty) => fst (bn_call_type x64 (fst c) s (snd c) scale bias dt)) h bn_start.
