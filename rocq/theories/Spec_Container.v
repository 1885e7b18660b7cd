(** Spec_Container: what the container operations should do. *)
From Verif Require Import PyBase ValuesM Spec_Eq.
Local Open Scope string_scope.
Local Open Scope list_scope.

(** A legal replace: only metadata names the container has, and a container given as
    the value has the same class and equal metadata. *)
Definition replace_ok (c : container) (value : option attr) (kw : dict pyval) : Prop :=
  (forall k, In k (keys kw) -> In k (keys (c_meta c))) /\
  (forall d, value = Some (ACont d) -> c_cls c = c_cls d /\ same_meta (c_meta c) (c_meta d)).

(** Equal containers: same class, equal values, and equal metadata as a mapping. *)
Definition same_container (c d : container) : Prop :=
  c_cls c = c_cls d /\ py_eq (c_val c) (c_val d) /\ same_meta (c_meta c) (c_meta d).

(** The metadata a constructor call is meant to give: Variables always have
    [sharding], None by default. *)
Definition full_meta (c : cls) (md : dict pyval) (k : string) : option pyval :=
  if smem "Variable" c && String.eqb k "sharding"
  then match dget k md with Some s => Some s | None => Some PyNone end
  else dget k md.
