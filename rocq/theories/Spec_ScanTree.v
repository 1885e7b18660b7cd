(** in_axes and out_axes of scan, in terms of the leaves of trees and the paths to
    them. *)
From Coq Require Import ZArith.
From Verif Require Import PyBase ValuesM Spec_Eq StateM ScanM ScanTreeM Spec_Scan.
Local Open Scope list_scope.

(** the subtree of [t] at [p]: a path is a list of child numbers *)
Fixpoint at_path {A} (t : tree A) (p : list nat) : option (tree A) :=
  match p with
  | [] => Some t
  | i :: p' => match t with TNode _ l => match nth_error l i with Some x => at_path x p' | None => None end | _ => None end
  end.
(** two trees of the same structure *)
Inductive same_shape {A B} : tree A -> tree B -> Prop :=
| ss_leaf a b : same_shape (TLeaf a) (TLeaf b)
| ss_none : same_shape TNone TNone
| ss_node k l l' : Forall2 same_shape l l' -> same_shape (TNode k l) (TNode k l').

(** [axes] is a prefix of [t]: [t] has the nodes of [axes], and any trees at the
    leaves of [axes].  Where [axes] has None, [t] has None too, or, where None is a
    prefix of every tree ([np]), anything.  [t'] is [t] with None at these places. *)
Inductive fits {A B} (np : bool) : tree A -> tree B -> tree B -> Prop :=
| fits_leaf ax t : fits np (TLeaf ax) t t
| fits_none t : np = true \/ t = TNone -> fits np TNone t TNone
| fits_node k axs l l' : fits_all np axs l l' -> fits np (TNode k axs) (TNode k l) (TNode k l')
with fits_all {A B} (np : bool) : list (tree A) -> list (tree B) -> list (tree B) -> Prop :=
| fits_nil : fits_all np [] [] []
| fits_cons ax axs t l t' l' : fits np ax t t' -> fits_all np axs l l' -> fits_all np (ax :: axs) (t :: l) (t' :: l').

(** the axis given for what is at [p]: the leaf of [axes] met on the way *)
Definition axis_for (axes : tree Z) (p : list nat) (ax : Z) : Prop :=
  exists q p', p = q ++ p' /\ at_path axes q = Some (TLeaf ax).

(** [small] is [big] with slice number [i] of each array, along its own axis; all
    arrays have [n] slices *)
Definition tree_slice (J : arrays) (axes : tree Z) (n i : nat) (big small : tree pyval) : Prop :=
  same_shape big small /\
  forall p v, at_path big p = Some (TLeaf v) ->
  exists ax l x, axis_for axes p ax /\ a_slices J ax v = Ok l /\ List.length l = n /\ nth_error l i = Some x /\ at_path small p = Some (TLeaf x).
(** [big] is [l], with the arrays stacked along their own axes *)
Definition tree_stack (J : arrays) (axes : tree Z) (l : list (tree pyval)) (big : tree pyval) : Prop :=
  (forall y, In y l -> same_shape y big) /\
  forall p v, at_path big p = Some (TLeaf v) ->
  exists ax vs, axis_for axes p ax /\ Forall2 (fun y x => at_path y p = Some (TLeaf x)) l vs /\ v = a_stack J ax vs.

(** the arrays scanned over, with the axis *)
Inductive tree_over (o : scan_opts) (axs : list state) (axes : tree Z) (arg : tree pyval) : Z -> pyval -> Prop :=
| tover_state st g ax k v : In (st, (g, ax)) (combine axs (o_axes o)) -> array_at k st v -> tree_over o axs axes arg ax v
| tover_arg p ax v : at_path arg p = Some (TLeaf v) -> axis_for axes p ax -> tree_over o axs axes arg ax v.
Definition tree_count (J : arrays) (o : scan_opts) (axs : list state) (axes : tree Z) (arg : tree pyval) (n : nat) : Prop :=
  (forall ax v, tree_over o axs axes arg ax v -> exists l, a_slices J ax v = Ok l /\ List.length l = n) /\
  match o_length o with Some m => m = n | None => exists ax v, tree_over o axs axes arg ax v end.
