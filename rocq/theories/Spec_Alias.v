(** Spec_Alias: the words used in the claims about containers as objects (C89). *)
From Verif Require Import PyBase ValuesM FiltersM StateM ModuleM AliasM.
Local Open Scope string_scope.
Local Open Scope list_scope.

(** The interpreter right after [import nnx], with node types [nt] registered. *)
Definition world0 (nt : list string) : world := mkWorld [] 0 (0, 0) nt.
Definition rworld0 (nt : list string) : rworld := mkRworld [] [] 0 (0, 0) nt.

(** A program that assigns to no field of a container object. *)
Definition is_write (k : cmd) : bool := match k with KWrite _ _ _ => true | _ => false end.
Definition no_writes (p : list cmd) : Prop := forall k, In k p -> is_write k = false.

(** The situations programs can reach. *)
Definition reachable (nt : list string) (f : conf rworld rattr rdef) : Prop :=
  exists p, f = fst (run objects (start (rworld0 nt)) p).

(** The attribute [n] of the Module at [r] is the container object [k]. *)
Definition holds (w : rworld) (r : nat) (n : string) (k : nat) : Prop :=
  exists o, rget_obj w r = Some o /\ In (n, RCell k) (ro_vars o).

(** The object [k] is a node: an instance of a registered node type. *)
Definition node_cell (w : rworld) (k : nat) : Prop := is_node (rw_nodes w) (look (rw_cells w) (RCell k)) = true.

(** The contents of container [k]. *)
Definition contents (w : rworld) (k : nat) : option container := nth_error (rw_cells w) k.

(** What printing a State shows. *)
Definition shown (f : conf rworld rattr rdef) (s : dict rattr) : state :=
  show_state objects (f_world f) s.
