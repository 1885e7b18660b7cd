(** What may be differentiated. *)
From Verif Require Import PyBase ValuesM Spec_Eq FiltersM StateM ModuleM ContextM JitArgsM GradArgsM Spec_Module Spec_JitArgs.
Local Open Scope string_scope.
Local Open Scope list_scope.

(** the numbers: python's, or the elements of an array *)
Inductive real_leaf (ai : array_info) : pyval -> Prop :=
| rl_float c i : In "float" c -> real_leaf ai (PyObj c i)
| rl_array c i : ~ In "float" c -> ~ In "complex" c -> In "jax.Array" c \/ In "numpy.ndarray" c \/ In "numpy.generic" c ->
    ai_kind ai (PyObj c i) = KReal -> real_leaf ai (PyObj c i).
Inductive complex_leaf (ai : array_info) : pyval -> Prop :=
| cl_complex c i : ~ In "float" c -> In "complex" c -> complex_leaf ai (PyObj c i)
| cl_array c i : ~ In "float" c -> ~ In "complex" c -> In "jax.Array" c \/ In "numpy.ndarray" c \/ In "numpy.generic" c ->
    ai_kind ai (PyObj c i) = KComplex -> complex_leaf ai (PyObj c i).
Inductive int_leaf (ai : array_info) : pyval -> Prop :=
| il_bool b : int_leaf ai (PyBool b)
| il_int z : int_leaf ai (PyInt z)
| il_array c i : ~ In "float" c -> ~ In "complex" c -> In "jax.Array" c \/ In "numpy.ndarray" c \/ In "numpy.generic" c ->
    ai_kind ai (PyObj c i) = KInteger -> int_leaf ai (PyObj c i).

Definition may_differentiate (holomorphic allow_int : bool) (ai : array_info) (v : pyval) : Prop :=
  complex_leaf ai v \/ holomorphic = false /\ (real_leaf ai v \/ allow_int = true /\ int_leaf ai v).
(** the values selected by [wrt] *)
Definition wrt_ok (holomorphic allow_int : bool) (ai : array_info) (w : world) (r : nat) (wrt : filt) : Prop :=
  forall s k a v, module_filter w r wrt [] = Ok (One s) -> dget k s = Some a ->
    val_leaf (match a with ARaw v => v | ACont c => c_val c end) v -> may_differentiate holomorphic allow_int ai v.
(** the loss: one number *)
Definition a_loss (holomorphic : bool) (ai : array_info) (x : arg) : Prop :=
  exists v, x = GVal v /\ (if holomorphic then complex_leaf ai v else real_leaf ai v) /\
    (forall c i, v = PyObj c i -> In "float" c \/ In "complex" c \/ ai_scalar ai v = true).
(** a pair *)
Inductive pair_of : arg -> arg -> arg -> Prop :=
| po_tuple a b : pair_of (GTuple [a; b]) a b
| po_list a b : pair_of (GList [a; b]) a b
| po_val a b : pair_of (GVal (PyTuple [a; b])) (GVal a) (GVal b).
(** what the function returns: the loss, or the pair of the loss and anything *)
Inductive returns (has_aux holomorphic : bool) (ai : array_info) (out : arg) : option arg -> Prop :=
| ret_loss : has_aux = false -> a_loss holomorphic ai out -> returns has_aux holomorphic ai out None
| ret_pair loss aux : has_aux = true -> pair_of out loss aux -> a_loss holomorphic ai loss -> returns has_aux holomorphic ai out (Some aux).
(** an array that is not a number *)
Definition big_array (ai : array_info) (x : arg) : Prop :=
  exists c i, x = GVal (PyObj c i) /\ ai_scalar ai (PyObj c i) = false.
(** what Python can unpack, and how many items it gives *)
Inductive items : arg -> nat -> Prop :=
| it_tuple l : items (GTuple l) (List.length l)
| it_list l : items (GList l) (List.length l)
| it_val l : items (GVal (PyTuple l)) (List.length l)
| it_dict d : items (GDict d) (List.length d)
| it_str s : items (GVal (PyStr s)) (String.length s).
