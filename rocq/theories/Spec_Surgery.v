(** What C106 is about: submodules assigned, replaced and deleted. *)
From Verif Require Import PyBase ValuesM StateM ModuleM Spec_Module Spec_Assign.
Local Open Scope string_scope.
Local Open Scope list_scope.

(** [w'] is [w] except for the attribute [n] of the Module [x]: assigned, replaced
    or deleted, whatever it held and holds. *)
Definition changed_at (w w' : world) (x : nat) (n : string) : Prop :=
  w_nodes w' = w_nodes w /\ List.length (w_heap w') = List.length (w_heap w) /\
  (forall y, y <> x -> get_obj w' y = get_obj w y) /\
  exists o o', get_obj w x = Some o /\ get_obj w' x = Some o' /\
    forall m, m <> n -> dget m (m_vars o') = dget m (m_vars o).

(** Every Module that can be reached from [r] through the attribute [n] of [x] can be
    reached only so.  (Nothing is asked if the attribute holds no Module.) *)
Definition only_through (w : world) (r x : nat) (n : string) : Prop :=
  forall p1 p2 y, follow w r p1 = Some x -> follow w r (p1 ++ n :: p2) = Some y ->
  forall p, follow w r p = Some y -> exists q1 q2, p = q1 ++ n :: q2 /\ follow w r q1 = Some x.

(** [r] and [c] reach no Module in common. *)
Definition apart (w : world) (r c : nat) : Prop := forall y, reaches w r y -> ~ reaches w c y.
