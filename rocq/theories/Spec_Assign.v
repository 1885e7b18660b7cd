(** What C92 is about: changing the attributes of one Module. *)
From Verif Require Import PyBase ValuesM StateM ModuleM Spec_Module.
Local Open Scope string_scope.
Local Open Scope list_scope.

(** [w'] is [w] except for attributes of the Module [x], which has kept its
    submodules.  Attributes may have been added, removed and changed. *)
Definition edited (w w' : world) (x : nat) : Prop :=
  w_nodes w' = w_nodes w /\ List.length (w_heap w') = List.length (w_heap w) /\
  (forall y, y <> x -> get_obj w' y = get_obj w y) /\
  exists o o', get_obj w x = Some o /\ get_obj w' x = Some o' /\
    m_cls o' = m_cls o /\ m_id o' = m_id o /\ m_init o' = m_init o /\
    forall n c, dget n (m_vars o') = Some (ARaw (PyMod c)) <-> dget n (m_vars o) = Some (ARaw (PyMod c)).

(** an attribute in [vars(x)] *)
Definition has_attr (w : world) (x : nat) (n : string) (a : attr) : Prop :=
  exists o, get_obj w x = Some o /\ dget n (m_vars o) = Some a.

(** [b] is what assigning [a] to the name [n] of [x] has to store: [a] itself if the
    name was free, and the effect of writing over what was there otherwise (a
    container keeps its class and metadata and takes the value). *)
Definition stored_for (w : world) (x : nat) (n : string) (a b : attr) : Prop :=
  (forall old, has_attr w x n old -> overwrites old a b) /\ ((forall old, ~ has_attr w x n old) -> b = a).
