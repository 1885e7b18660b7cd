(** Spec_TsSave: what comes back when a Pytree object is saved and restored with flax. *)
From Verif Require Import PyBase ValuesM PytreeM TrainM Spec_Train TsSaveM.
Local Open Scope string_scope.
Local Open Scope list_scope.

(** The value of a field, as [getattr] gives it. *)
Definition field_value (f : pfield) : option pyval :=
  match f with FAttr (ARaw v) => Some v | FAttr (ACont c) => Some (c_val c) | FNames _ => None end.
(** The field [n] holds a node (what jax looks into). *)
Definition node_at (o : pobj) (n : string) (f : pfield) : Prop := dget n (p_vars o) = Some f /\ node_field f = true.
(** The nodes have the same names. *)
Definition same_nodes (o1 o2 : pobj) : Prop := forall n, (exists f, node_at o1 n f) <-> (exists f, node_at o2 n f).

Section Save.
Variable to_dict : pyval -> result pyval.
Variable from_dict : pyval -> pyval -> result pyval.
(** [old] is the field that was saved, [target] that of the object it is restored into,
    [new] that of the result.  A container keeps its class and metadata and holds what
    flax made of the value when it was saved; a value outside a container is restored
    by flax. *)
Definition comes_back (old target new : pfield) : Prop :=
  exists v s, field_value old = Some v /\ to_dict v = Ok s /\
    match target with
    | FAttr (ACont c) => new = FAttr (ACont (mkCont (c_cls c) (c_meta c) s))
    | FAttr (ARaw v0) => exists x, from_dict v0 s = Ok x /\ new = FAttr (ARaw x)
    | FNames _ => False
    end.
(** The same, with every value restored by flax. *)
Definition reloaded (old target new : pfield) : Prop :=
  exists v s v0 x, field_value old = Some v /\ to_dict v = Ok s /\ field_value target = Some v0 /\ from_dict v0 s = Ok x /\
    match target with
    | FAttr (ACont c) => new = FAttr (ACont (mkCont (c_cls c) (c_meta c) x))
    | _ => new = FAttr (ARaw x)
    end.
End Save.

(** Its fields. *)
Definition ts_keys : list string := [F_SORTED; "moduledef"; "params"; "tx"; "opt_state"; "step"; "buffers"].
(** A TrainState with the field [buffers], as in examples/03_train_state.py:42-49. *)
Definition ts_obj (o : pobj) (mdef params tx opt step buffers : pyval) : Prop :=
  train_obj o mdef params tx opt step /\ dget "buffers" (p_vars o) = Some (FAttr (ARaw buffers)) /\ keys (p_vars o) = ts_keys.
(** No node: part of the structure, not saved. *)
Definition plain (v : pyval) : Prop := is_node default_node_types (ARaw v) = false.
