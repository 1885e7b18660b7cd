(** What may cross the boundary of a jitted function. *)
From Verif Require Import PyBase ValuesM Spec_Eq FiltersM StateM ModuleM ContextM JitArgsM Spec_Module.
Local Open Scope string_scope.
Local Open Scope list_scope.

(** a leaf of a value or argument; a Module, a Context and a ContextDef are
    opaque to jax *)
Inductive val_leaf : pyval -> pyval -> Prop :=
| vl_tuple l v x : In v l -> val_leaf v x -> val_leaf (PyTuple l) x
| vl_self v : v <> PyNone -> (forall l, v <> PyTuple l) -> val_leaf v v.
Inductive arg_leaf : arg -> leaf -> Prop :=
| al_val v x : val_leaf v x -> arg_leaf (GVal v) (LVal x)
| al_key k : arg_leaf (GKey k) (LKey k)
| al_ctx x : arg_leaf (GCtx x) (LCtx x)
| al_pure_key pc n k : In (n, k) (pc_keys pc) -> arg_leaf (GPure pc) (LKey k)
| al_pure_def pc : arg_leaf (GPure pc) (LDef (pc_counts pc) (pc_flags pc))
| al_tuple l a x : In a l -> arg_leaf a x -> arg_leaf (GTuple l) x
| al_list l a x : In a l -> arg_leaf a x -> arg_leaf (GList l) x
| al_dict d n a x : In (n, a) d -> arg_leaf a x -> arg_leaf (GDict d) x.

(** arrays and numbers *)
Definition jax_leaf (l : leaf) : Prop :=
  match l with
  | LVal (PyBool _) | LVal (PyInt _) | LKey _ => True
  | LVal (PyObj c _) => In "jax.Array" c \/ In "numpy.ndarray" c \/ In "numpy.generic" c \/ In "float" c \/ In "complex" c
  | _ => False
  end.
Definition jax_arg (a : arg) : Prop := forall l, arg_leaf a l -> jax_leaf l.
(** the arrays in the Variables and attributes of the modules below [r] *)
Definition jax_module (w : world) (r : nat) : Prop :=
  forall x n a v l, reaches w r x -> node_attr w x n a -> v = match a with ARaw v => v | ACont c => c_val c end ->
    val_leaf v l -> jax_leaf (LVal l).

(** static arguments: those named in static_argnames; they need a hash *)
Inductive has_hash_val : pyval -> Prop :=
| hv_none : has_hash_val PyNone
| hv_bool b : has_hash_val (PyBool b)
| hv_int z : has_hash_val (PyInt z)
| hv_str s : has_hash_val (PyStr s)
| hv_mod r : has_hash_val (PyMod r)
| hv_obj c i : (forall n, In n ["jax.Array"; "numpy.ndarray"; "list"; "dict"; "set"] -> ~ In n c) -> has_hash_val (PyObj c i)
| hv_tuple l : Forall has_hash_val l -> has_hash_val (PyTuple l).
Inductive has_hash : arg -> Prop :=
| hh_val v : has_hash_val v -> has_hash (GVal v)
| hh_ctx x : has_hash (GCtx x)
| hh_tuple l : Forall has_hash l -> has_hash (GTuple l).

Definition hashed (static : list string) (kwargs : dict arg) : Prop := forall n a, In (n, a) kwargs -> In n static -> has_hash a.
(** all other arguments, and the module, are made of arrays *)
Definition args_ok (w : world) (r : nat) (static : list string) (args : list arg) (kwargs : dict arg) : Prop :=
  jax_module w r /\ Forall jax_arg args /\ (forall n a, In (n, a) kwargs -> ~ In n static -> jax_arg a).
(** no Context is passed as [ctx] *)
Definition no_context (kwargs : dict arg) : Prop := forall x, dget "ctx" kwargs <> Some (GCtx x).

(** forking a context: the count of each stream grows by the number of names the
    context has for it *)
Definition forked (x : context) (ss ss' : list stream) : Prop :=
  List.length ss' = List.length ss /\
  forall i s, nth_error ss i = Some s ->
    nth_error ss' i = Some (mkStream (s_key s) (s_count s + count_occ Nat.eq_dec (map snd (x_rngs x)) i) (s_path s)).
