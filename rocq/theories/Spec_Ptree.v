(** Spec_Ptree: what flattening and serialization of Pytrees should do. *)
From Verif Require Import PyBase ValuesM Spec_Eq PytreeM PtreeM.
Local Open Scope string_scope.
Local Open Scope list_scope.

Definition is_box (t : ptree) : bool := match t with TBox _ _ _ => true | _ => false end.

(** Values as the constructors leave them: dictionaries have distinct keys, a Pytree
    records the sorted list of its field names, and a container holds no container. *)
Inductive wf_tree : ptree -> Prop :=
| wft_val v : wf_tree (TVal v)
| wft_box c m x : wf_container (mkCont c m PyNone) -> is_box x = false -> wf_tree x -> wf_tree (TBox c m x)
| wft_static x : is_box x = false -> wf_tree (TBox Static_cls [] x)
| wft_leafbox c m x : registered c = false -> c <> Static_cls -> wf_tree (TBox c m x)
| wft_dict d : NoDup (keys d) -> (forall n x, dget n d = Some x -> wf_tree x) -> wf_tree (TDict d)
| wft_obj k d : NoDup (keys d) -> dget F_SORTED d = Some (TNames (keys (sort_by_key d))) ->
    (forall n x, dget n d = Some x -> n <> F_SORTED -> wf_tree x) -> wf_tree (TObj k d).

(** Equal up to the order in which dictionaries list their entries.  Static fields
    are equal outright. *)
Inductive same_tree : ptree -> ptree -> Prop :=
| same_refl t : same_tree t t
| same_box c m x y : registered c = true -> same_tree x y -> same_tree (TBox c m x) (TBox c m y)
| same_dict d e : (forall n, dget n d = None <-> dget n e = None) ->
    (forall n x y, dget n d = Some x -> dget n e = Some y -> same_tree x y) -> same_tree (TDict d) (TDict e)
| same_obj k d e : (forall n, dget n d = None <-> dget n e = None) ->
    (forall n x y, dget n d = Some x -> dget n e = Some y -> is_node_t x = false -> x = y) ->
    (forall n x y, dget n d = Some x -> dget n e = Some y -> is_node_t x = true -> same_tree x y) ->
    same_tree (TObj k d) (TObj k e).

(** Leaves: values jax does not look into; among the containers those of a class that
    is neither a proper subclass of NodeBase nor Static itself. *)
Inductive leaf : ptree -> Prop :=
| leaf_val v : v <> PyNone -> leaf (TVal v)
| leaf_box c m x : registered c = false -> c <> Static_cls -> leaf (TBox c m x).
(** A leaf of the same kind: an array for an array, a non-array for a non-array. *)
Definition same_kind (x y : ptree) : Prop :=
  leaf y /\ is_node_t y = is_node_t x /\ is_box y = is_box x.

(** No Pytree inside. *)
Inductive no_pytree : ptree -> Prop :=
| np_val v : no_pytree (TVal v)
| np_dict d : (forall n x, In (n, x) d -> no_pytree x) -> no_pytree (TDict d).

(** Pytrees that serialization can restore: no container holds a Pytree, and objects
    of a dataclass are as their declaration makes them. *)
Definition made (f : option cfn) (x : ptree) : Prop :=
  match f with
  | None => is_box x = false
  | Some g => exists m y, x = TBox (f_cls g) m y /\ is_box y = false /\ init_meta (f_cls g) (f_md g) = Ok m
  end.
Inductive restorable : ptree -> Prop :=
| rs_val v : restorable (TVal v)
| rs_dict d : NoDup (keys d) -> (forall n x, dget n d = Some x -> restorable x) -> restorable (TDict d)
| rs_obj k d : NoDup (keys d) -> dget F_SORTED d = Some (TNames (keys (sort_by_key d))) ->
    (forall n c m x, dget n d = Some (TBox c m x) -> is_node_t (TBox c m x) = true ->
       wf_container (mkCont c m PyNone) /\ no_pytree x) ->
    (forall n x, dget n d = Some x -> is_node_t x = true -> is_box x = false -> restorable x) ->
    (forall fs, k_fields k = Some fs -> NoDup (keys fs) /\ ~ In F_SORTED (keys fs) /\
       (forall n, In n (keys d) <-> n = F_SORTED \/ In n (keys fs)) /\
       (forall n f, In (n, f) fs -> exists x, dget n d = Some x /\ made f x)) ->
    restorable (TObj k d).
