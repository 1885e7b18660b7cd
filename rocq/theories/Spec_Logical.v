(** Spec_Logical: what logically partitioned variables should be. *)
From Verif Require Import PyBase ValuesM Spec_Eq SpmdM LogicalM Spec_Spmd.
Local Open Scope string_scope.
Local Open Scope list_scope.

(** [c] carries the options given to [with_logical_partitioning]; [fn] is the
    function that reads are passed to. *)
Definition partitioned (c : container) (fn : nat) (s : option sharding) (mesh : pyval) (rules : option logical_rules) : Prop :=
  In "Node" (c_cls c) /\
  dget "unbox_fn" (c_meta c) = Some (PyObj ["function"; "object"] fn) /\
  dget "sharding" (c_meta c) = Some (match s with Some s => PyTuple (map axis_val s) | None => PyNone end) /\
  dget "mesh" (c_meta c) = Some mesh /\
  dget "rules" (c_meta c) = Some (rules_val rules).

(** The mesh axes [out] of the dimensions [dims] under the rules (as in C43). *)
Definition laid_out (dims : sharding) (rs : logical_rules) (out : list mesh_names) : Prop :=
  exists fired, fires dims rs fired /\ List.length out = List.length dims /\
    forall i d m, nth_error dims i = Some d -> nth_error out i = Some m ->
      assigned_by rs fired d m \/ ((forall m', ~ assigned_by rs fired d m') /\ m = MNone).

(** What is asked of jax for an array with logical dimensions [spec]: nothing
    without a mesh, rules or dimensions; otherwise the layout, unless a name
    occurs twice. *)
Inductive asked (spec : option sharding) (mesh : Prop) (rs : logical_rules) : result constrained -> Prop :=
| asked_no_mesh : ~ mesh -> asked spec mesh rs (Ok AsIs)
| asked_no_rules : rs = [] \/ spec = None -> asked spec mesh rs (Ok AsIs)
| asked_layout dims out : mesh -> rs <> [] -> spec = Some dims -> distinct_names dims -> laid_out dims rs out ->
    asked spec mesh rs (Ok (Constrain (Some out)))
| asked_twice dims : mesh -> rs <> [] -> spec = Some dims -> ~ distinct_names dims ->
    asked spec mesh rs (Err ValueError).

(** [u] is [t] with each spec replaced as [R] says; keys, order and Nones stay. *)
Inductive tree_rel {A B} (R : A -> B -> Prop) : spec_tree A -> spec_tree B -> Prop :=
| tr_none : tree_rel R TNone TNone
| tr_spec a b : R a b -> tree_rel R (TSpec a) (TSpec b)
| tr_node l m : trees_rel R l m -> tree_rel R (TNode l) (TNode m)
with trees_rel {A B} (R : A -> B -> Prop) : list (string * spec_tree A) -> list (string * spec_tree B) -> Prop :=
| trs_nil : trees_rel R [] []
| trs_cons k t u l m : tree_rel R t u -> trees_rel R l m -> trees_rel R ((k, t) :: l) ((k, u) :: m).
(** [a] is one of the specs of the tree *)
Inductive spec_in {A} (a : A) : spec_tree A -> Prop :=
| si_leaf : spec_in a (TSpec a)
| si_node k t l : In (k, t) l -> spec_in a t -> spec_in a (TNode l).
