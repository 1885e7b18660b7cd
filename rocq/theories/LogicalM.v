(** LogicalM: models [with_metadata] (nnx/containers.py:191-199),
    [with_logical_partitioning] (nnx/spmd.py:357-416) and the maps over trees of
    partition specs (spmd.py:237-256). *)
From Coq Require Import ZArith.
From Verif Require Import PyBase ValuesM StateM SpmdM.
Local Open Scope string_scope.
Local Open Scope list_scope.

(** ** Metadata as python values *)
(** A mesh is None or an object. (spmd.py:273-286, 384-395) *)
Definition mesh_given (mesh : pyval) : bool := match mesh with PyNone => false | _ => true end.
(** the [rules] metadata, spmd.py:350-354, as a value of ValuesM *)
Definition names_val (m : mesh_names) : pyval :=
  match m with MNone => PyNone | MAxis s => PyStr s | MAxes l => PyTuple (map PyStr l) end.
(** the [rules] metadata, spmd.py:350-354, as a value of ValuesM *)
Definition rules_val (r : option logical_rules) : pyval :=
  match r with
  | None => PyNone
  | Some l => PyTuple (map (fun nm => PyTuple [PyStr (fst nm); names_val (snd nm)]) l)
  end.
(** Reading them back: what [node.rules] is taken for in spmd.py:182-189.  Other
    values are out of the model. *)
Fixpoint val_strs (l : list pyval) : option (list string) :=
  match l with
  | [] => Some []
  | PyStr s :: t => option_map (cons s) (val_strs t)
  | _ => None
  end.
(** the [rules] metadata, spmd.py:350-354, as a value of ValuesM *)
Definition val_names (v : pyval) : option mesh_names :=
  match v with
  | PyNone => Some MNone
  | PyStr s => Some (MAxis s)
  | PyTuple l => option_map MAxes (val_strs l)
  | _ => None
  end.
(** the [rules] metadata, spmd.py:350-354, as a value of ValuesM *)
Fixpoint val_rule_list (l : list pyval) : option logical_rules :=
  match l with
  | [] => Some []
  | PyTuple [PyStr n; m] :: t =>
      match val_names m, val_rule_list t with Some m, Some t => Some ((n, m) :: t) | _, _ => None end
  | _ => None
  end.
(** the [rules] metadata, spmd.py:350-354, as a value of ValuesM *)
Definition val_rules (v : pyval) : option (option logical_rules) :=
  match v with
  | PyNone => Some None
  | PyTuple l => option_map Some (val_rule_list l)
  | _ => None
  end.

(** ** Initializers *)
(** A function object: two functions are equal only if they are the same object;
    [i] is its identity. ([unbox_fn], spmd.py:384-407) *)
Definition fn_val (i : nat) : pyval := PyObj ["function"; "object"] i.

(** An initializer: keyword arguments to the result of the call; positional
    arguments are fixed. (the argument of spmd.py:357-416) *)
Definition initializer : Type := dict pyval -> result pyval.

(** containers.py:191-199 [with_metadata]: the wrapper takes no keyword arguments;
    the result is a ContainerMetadata. *)
Definition with_metadata (init : initializer) (md : dict pyval) : dict pyval -> result ctor_arg :=
  fun kwargs => match kwargs with [] => do y <- init []; Ok (CMeta y md) | _ => Err TypeError end.

(** spmd.py:396-406 [wrapper]: what is asked for the new value; spmd.py:384-395
    [unbox_fn], the same for the value that is read. *)
Definition constrain_new (global_mesh : bool) (current : logical_rules) (s : option sharding) (mesh : pyval) (rules : option logical_rules)
  : result constrained :=
  if global_mesh || mesh_given mesh then with_logical_constraint true current s rules AxisIsUnsharded else Ok AsIs.

(** spmd.py:357-416 [with_logical_partitioning]; [fn] is the identity of the
    function [unbox_fn], which each call creates.  A keyword given twice is a
    TypeError.  The constraint on the new value is [constrain_new]; jax's own
    refusals of a constraint (a spec longer than the rank, ...) are not modelled. *)
Definition logical_names : list string := ["initializer"; "unbox_fn"; "sharding"; "mesh"; "rules"].
(** spmd.py:398-407 *)
Definition logical_metadata (fn : nat) (s : option sharding) (mesh : pyval) (rules : option logical_rules) (md : dict pyval) : result (dict pyval) :=
  if existsb (fun k => smem k logical_names) (keys md) then Err TypeError
  else Ok ([("unbox_fn", fn_val fn); ("sharding", match s with Some s => sharding_val s | None => PyNone end); ("mesh", mesh); ("rules", rules_val rules)] ++ md).
(** spmd.py:357-416 *)
Definition with_logical_partitioning (init : initializer) (fn : nat) (s : option sharding) (mesh : pyval) (rules : option logical_rules) (md : dict pyval)
  : result (dict pyval -> bool -> logical_rules -> result (ctor_arg * constrained)) :=
  do meta <- logical_metadata fn s mesh rules md;
  Ok (fun kwargs global_mesh current =>
        do a <- with_metadata init meta kwargs;
        do k <- constrain_new global_mesh current s mesh rules;
        Ok (a, k)).

(** spmd.py:384-395 [unbox_fn] on a node: the value, and what is asked for it.  A
    node that has lost one of its attributes is out of the model. *)
Definition unbox (has_shape : pyval -> bool) (global_mesh : bool) (current : logical_rules) (c : container) : result (pyval * constrained) :=
  match dget "mesh" (c_meta c), dget "rules" (c_meta c), dget "sharding" (c_meta c) with
  | Some mesh, Some rv, Some _ =>
      if global_mesh || mesh_given mesh then
        match val_rules rv with
        | None => Err OutOfModel
        | Some rules =>
            do s <- partition_spec1 has_shape (ACont c);
            do k <- with_logical_constraint true current s rules AxisIsUnsharded;
            Ok (c_val c, k)
        end
      else Ok (c_val c, AsIs)
  | _, _, _ => Err OutOfModel
  end.

(** ** Trees of partition specs *)
(** None has no leaves; a PartitionSpec is a leaf; a dict or list of trees. (spmd.py:237-243) *)
Inductive spec_tree (A : Type) : Type :=
| TNone
| TSpec (a : A)
| TNode (l : list (string * spec_tree A)).
Arguments TNone {A}. Arguments TSpec {A}. Arguments TNode {A}.
(** [jax.tree_map]. (spmd.py:237-243) *)
Fixpoint tree_map {A B} (f : A -> result B) (t : spec_tree A) : result (spec_tree B) :=
  match t with
  | TNone => Ok TNone
  | TSpec a => rmap TSpec (f a)
  | TNode l => rmap TNode ((fix go l := match l with
                                        | [] => Ok []
                                        | (k, u) :: l' => do v <- tree_map f u; do l2 <- go l'; Ok ((k, v) :: l2)
                                        end) l)
  end.
(** spmd.py:237-243 [logical_to_mesh] *)
Definition logical_to_mesh (current : logical_rules) (rules : option logical_rules) (t : spec_tree sharding) : result (spec_tree (list mesh_names)) :=
  tree_map (fun s => do o <- logical_to_mesh_axes current (Some s) rules;
                     match o with Some m => Ok m | None => Err OutOfModel end) t.
(** spmd.py:246-256 [logical_to_mesh_sharding]: a NamedSharding is a mesh with a spec. *)
Definition logical_to_mesh_sharding (current : logical_rules) (rules : option logical_rules) (mesh : pyval) (t : spec_tree sharding)
  : result (spec_tree (pyval * list mesh_names)) :=
  do u <- logical_to_mesh current rules t;
  tree_map (fun m => Ok (mesh, m)) u.
(** the result of [get_partition_spec] (spmd.py:85-101) on a State, as such a tree *)
Definition spec_state (l : list (string * option sharding)) : spec_tree sharding :=
  TNode (map (fun ks => (fst ks, match snd ks with Some s => TSpec s | None => TNone end)) l).
