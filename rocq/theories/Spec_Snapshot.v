(** Vocabulary for snapshots of Modules that are taken while other threads run. *)
From Verif Require Import PyBase ValuesM ModuleM SnapshotM.
Local Open Scope list_scope.

(** The memory at the beginning, after the first action of the others, after the second ... *)
Definition moment (w : world) (acts : list (list (world -> world))) (n : nat) : world :=
  fold_left (fun w act => act w) (firstn n (List.concat acts)) w.

(** Two memories with the same modules, which differ at most in the values of node
    attributes. *)
Definition leaf (nt : list string) (a : attr) : Prop := is_node nt a = true /\ forall r, a <> ARaw (PyMod r).
Definition same_field (nt : list string) (p q : string * attr) : Prop :=
  fst p = fst q /\ (snd p = snd q \/ (leaf nt (snd p) /\ leaf nt (snd q))).
Definition same_object (nt : list string) (o o' : mobj) : Prop :=
  m_cls o = m_cls o' /\ m_id o = m_id o' /\ m_init o = m_init o' /\ Forall2 (same_field nt) (m_vars o) (m_vars o').
Definition same_skeleton (w w' : world) : Prop :=
  w_nodes w = w_nodes w' /\ Forall2 (same_object (w_nodes w)) (w_heap w) (w_heap w').
(** The others only assign new nodes to attributes that hold nodes. *)
Definition only_values (w : world) (acts : list (list (world -> world))) : Prop :=
  forall act, In act (List.concat acts) -> forall w', same_skeleton w w' -> same_skeleton w (act w').
(** The first [k] of the actions have happened, the others are still to come. *)
Definition at_moment (w : world) (acts : list (list (world -> world))) (s : running) (k : nat) : Prop :=
  ru_world s = moment w acts k /\ List.concat (ru_acts s) = skipn k (List.concat acts).
