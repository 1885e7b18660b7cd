(** ValuesM: Python values, classes and nnx containers.
    Models nnx/containers.py and nnx/nodes.py. *)
From Coq Require Import ZArith.
From Verif Require Import PyBase.
Local Open Scope string_scope.
Local Open Scope list_scope.

(** A class is its method resolution order: its own name first, then all its
    bases.  Simplification: classes are identified by name; ABC virtual
    subclassing is represented by listing the virtual base. *)
Notation cls := (list string).
(** [is] on classes, containers.py:59-62 *)
Definition cls_eqb (a b : cls) : bool :=
  if list_eq_dec string_dec a b then true else false.

(** Values.  [PyMod r] is a reference to the Module object at heap address
    [r].  [PyObj c i] is any other object of class [c] (arrays, functions,
    lists, ...), opaque, with identity/contents token [i].
    Simplifications: two objects behind [PyObj] are equal when they are the same
    (no [1 == 1.0], no broadcasting [==] on arrays), and they are immutable. (Python values as stored in containers.py:44-52, module.py:458-468) *)
Inductive pyval : Type :=
| PyNone
| PyBool (b : bool)
| PyInt (z : Z)
| PyStr (s : string)
| PyTuple (l : list pyval)
| PyMod (r : nat)
| PyObj (c : cls) (i : nat).

(** Python [==] on modelled values; [True == 1] and [False == 0]. (Python values as stored in containers.py:44-52, module.py:458-468) *)
Fixpoint pyval_eqb (a b : pyval) {struct a} : bool :=
  match a, b with
  | PyNone, PyNone => true
  | PyBool x, PyBool y => Bool.eqb x y
  | PyInt x, PyInt y => Z.eqb x y
  | PyBool x, PyInt y | PyInt y, PyBool x => Z.eqb (Z.b2z x) y
  | PyStr x, PyStr y => String.eqb x y
  | PyTuple x, PyTuple y =>
      (fix go (x y : list pyval) : bool :=
         match x, y with
         | [], [] => true
         | u :: x', v :: y' => pyval_eqb u v && go x' y'
         | _, _ => false
         end) x y
  | PyMod x, PyMod y => Nat.eqb x y
  | PyObj c x, PyObj c' y => cls_eqb c c' && Nat.eqb x y
  | _, _ => false
  end.

(** [type(v).__mro__] as names.  A Module's class lives in the heap; here only
    the common base is given (every use tests [isinstance(v, Module)] first). (Python values as stored in containers.py:44-52, module.py:458-468) *)
Definition cls_of_val (v : pyval) : cls :=
  match v with
  | PyNone => ["NoneType"; "object"]
  | PyBool _ => ["bool"; "int"; "object"]
  | PyInt _ => ["int"; "object"]
  | PyStr _ => ["str"; "object"]
  | PyTuple _ => ["tuple"; "object"]
  | PyMod _ => ["Module"; "object"]
  | PyObj c _ => c
  end.

(** nnx/containers.py:44-104.  A Container instance: its class, the entries of
    [vars(self)] other than ["value"], in order, and [self.value].  A container
    never holds a container (the metaclass unwraps it, lines 26-31). *)
Record container := mkCont { c_cls : cls; c_meta : dict pyval; c_val : pyval }.

(** What an attribute slot or a State entry can hold. (module.py:447-468, state.py:20-31) *)
Inductive attr : Type :=
| ARaw (v : pyval)
| ACont (c : container).

(** used at module.py:447-468, partitioning.py:39-43 *)
Definition cls_of_attr (a : attr) : cls :=
  match a with ARaw v => cls_of_val v | ACont c => c_cls c end.

(** [isinstance(a, T)]. (used at module.py:447-468, partitioning.py:39-43) *)
Definition isinstance (a : attr) (t : string) : bool := smem t (cls_of_attr a).

(** dict [==] (order-insensitive), for dicts of values. (used at containers.py:59-62, 92-96) *)
Definition dict_eqb (d e : dict pyval) : bool :=
  Nat.eqb (List.length d) (List.length e) &&
  forallb (fun kv => match dget (fst kv) e with
                     | Some v => pyval_eqb (snd kv) v
                     | None => false end) d.

(** containers.py:92-96 [Container.is_equivalent] *)
Definition is_equivalent (c d : container) : bool :=
  cls_eqb (c_cls c) (c_cls d) && dict_eqb (c_meta c) (c_meta d).

(** containers.py:59-62 [Container.__eq__] between containers. *)
Definition cont_eqb (c d : container) : bool :=
  cls_eqb (c_cls c) (c_cls d) && dict_eqb (c_meta d) (c_meta c) && pyval_eqb (c_val d) (c_val c).

(** What can be passed as [value] to a container constructor: a plain value, a
    container, or a ContainerMetadata (containers.py:18-21, produced by
    [with_metadata]). *)
Inductive ctor_arg : Type :=
| CVal (v : pyval)
| CCont (c : container)
| CMeta (v : pyval) (md : dict pyval).

(** [Container.__init__] (47-52), [Variable.__init__] (146-152, [sharding=None]
    default comes first in [vars]) and [Static.__init__] (173-174, takes no
    metadata).  The class decides which one runs: a class with [Variable] in its
    MRO runs Variable's, one with [Static] Static's, any other Container's.
    Subclasses that override [__init__] are not modelled.
    A metadata key called "value" is overridden by [value=value] in line 52. *)
Definition init_meta (c : cls) (md : dict pyval) : result (dict pyval) :=
  if smem "Static" c then
    match md with [] => Ok [] | _ => Err TypeError end
  else if smem "Variable" c then
    match dget "sharding" md with
    | Some s => Ok (("sharding", s) :: ddel "sharding" md)
    | None => Ok (("sharding", PyNone) :: md)
    end
  else Ok md.
(** containers.py:47-52 *)
Definition container_init (c : cls) (arg : pyval + (pyval * dict pyval)) (md : dict pyval)
  : result container :=
  do md0 <- init_meta c md;
  match arg with
  | inl v => Ok (mkCont c md0 v)
  | inr (v, extra) => Ok (mkCont c (ddel "value" (dupdate md0 extra)) v)
  end.

(** containers.py:26-41 [ContainerMetaclass.__call__]. *)
Definition container_call (c : cls) (arg : ctor_arg) (md : dict pyval) : result container :=
  match arg with
  | CVal v => container_init c (inl v) md
  | CMeta v extra => container_init c (inr (v, extra)) md
  | CCont k =>
      do obj <- container_init c (inl (c_val k)) md;
      if is_equivalent k obj then Ok obj else Err ValueError
  end.

(** containers.py:72-90 [Container.replace] (keyword arguments only).  [value] is the keyword
    ["value"] (if given), [kw] the others. *)
Definition container_replace (c : container) (value : option attr) (kw : dict pyval)
  : result container :=
  do v <- match value with
          | None => Ok (c_val c)
          | Some (ARaw v) => Ok v
          | Some (ACont d) => if is_equivalent c d then Ok (c_val d) else Err ValueError
          end;
  if forallb (fun k => dmem k (c_meta c)) (keys kw)
  then container_call (c_cls c) (CVal v) (dupdate (c_meta c) kw)
  else Err ValueError.

(** containers.py:98-99 [Container.copy]. *)
Definition container_copy (c : container) : result container :=
  container_call (c_cls c) (CVal (c_val c)) (c_meta c).

(** nodes.py:14-15 [is_node]: [isinstance(obj, node_types)]. *)
Definition is_node (node_types : list string) (a : attr) : bool :=
  existsb (isinstance a) node_types.

(** node types registered when nnx is imported: nodes.py:19-20,
    containers.py:203, state.py:195, module.py:952, pytreelib.py:264-265. *)
Definition default_node_types : list string :=
  ["jax.Array"; "numpy.ndarray"; "Node"; "State"; "Pure"; "Pytree"; "TreeNode"].

(** Classes defined in containers.py. *)
Definition Container_cls : cls := ["Container"; "object"].
(** containers.py:107-140 *)
Definition Node_cls : cls := ["Node"; "NodeBase"; "Container"; "object"].
(** containers.py:143 *)
Definition Variable_cls : cls := "Variable" :: Node_cls.
(** containers.py:155-156 *)
Definition Param_cls : cls := "Param" :: Variable_cls.
(** containers.py:159-160 *)
Definition BatchStat_cls : cls := "BatchStat" :: Variable_cls.
(** containers.py:163-164 *)
Definition Cache_cls : cls := "Cache" :: Variable_cls.
(** containers.py:167-168 *)
Definition Intermediate_cls : cls := "Intermediate" :: Variable_cls.
(** containers.py:171 *)
Definition Static_cls : cls := ["Static"; "Container"; "object"].
(** nodes.py:18-20 *)
Definition Array_cls : cls := ["ArrayImpl"; "jax.Array"; "object"].

(** Containers that a constructor call can produce: distinct metadata names,
    none called "value", ["sharding"] first for Variables, none for Static. (the containers that containers.py:26-52, 146-152, 173-174 make) *)
Definition wf_container (c : container) : Prop :=
  NoDup (keys (c_meta c)) /\ ~ In "value" (keys (c_meta c)) /\
  (In "Container" (c_cls c)) /\
  (smem "Static" (c_cls c) = true -> c_meta c = []) /\
  (smem "Static" (c_cls c) = false -> smem "Variable" (c_cls c) = true ->
     exists s t, c_meta c = ("sharding", s) :: t).
(** the containers that containers.py:26-52, 146-152, 173-174 make *)
Definition wf_attr (a : attr) : Prop :=
  match a with ARaw _ => True | ACont c => wf_container c end.
