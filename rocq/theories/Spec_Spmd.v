(** Spec_Spmd: what the sharding functions should compute. *)
From Verif Require Import PyBase ValuesM Spec_Eq SpmdM.
Local Open Scope string_scope.
Local Open Scope list_scope.

(** Mesh axis [x] occurs in the mesh names of a rule. *)
Definition uses (m : mesh_names) (x : string) : Prop :=
  m = MAxis x \/ exists l, m = MAxes l /\ In x l.
Definition disjoint (a b : mesh_names) : Prop := forall x, uses a x -> uses b x -> False.

(** [fired k]: rule number [k] is applied.  It is exactly when it names one of the
    dimensions, no earlier applied rule named that dimension, and no earlier
    applied rule used one of its mesh axes. *)
Definition fires (dims : list (option string)) (rules : logical_rules) (fired : nat -> bool) : Prop :=
  forall k name m, nth_error rules k = Some (name, m) ->
    (fired k = true <->
     In (Some name) dims /\
     forall j name' m', j < k -> nth_error rules j = Some (name', m') -> fired j = true ->
       name' <> name /\ disjoint m' m).

(** [d] is named by the applied rule [k] with mesh axes [m]. *)
Definition assigned_by (rules : logical_rules) (fired : nat -> bool) (d : option string) (m : mesh_names) : Prop :=
  exists k name, d = Some name /\ nth_error rules k = Some (name, m) /\ fired k = true.

Definition distinct_names (dims : list (option string)) : Prop :=
  forall i j s, nth_error dims i = Some (Some s) -> nth_error dims j = Some (Some s) -> i = j.

(** The entry of a Node with a sharding, and the same with another sharding. *)
Definition has_sharding (a : attr) (s : sharding) : Prop :=
  exists c, a = ACont c /\ In "Node" (c_cls c) /\ dget "sharding" (c_meta c) = Some (sharding_val s).
Definition no_sharding (a : attr) : Prop :=
  match a with
  | ARaw _ => True
  | ACont c => ~ In "Node" (c_cls c) \/ dget "sharding" (c_meta c) = None \/ dget "sharding" (c_meta c) = Some PyNone
  end.

(** Entries the model covers: no sharding, or one that is a tuple of names; the
    containers of a State are Nodes. *)
Definition state_value (a : attr) (v : pyval) : Prop :=
  a = ARaw v \/ exists c, a = ACont c /\ In "Node" (c_cls c) /\ c_val c = v.
(** The partition spec of an entry: a variable with a non-empty sharding gets that
    sharding; any other array is replicated (the empty spec); anything else gets
    None. *)
Inductive spec_of (has_shape : pyval -> bool) (a : attr) : option sharding -> Prop :=
  | spec_sharded s : has_sharding a s -> s <> [] -> spec_of has_shape a (Some s)
  | spec_array v : no_sharding a \/ has_sharding a [] -> state_value a v -> has_shape v = true -> spec_of has_shape a (Some [])
  | spec_none v : no_sharding a \/ has_sharding a [] -> state_value a v -> has_shape v = false -> spec_of has_shape a None.
