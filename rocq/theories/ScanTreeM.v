(** ScanTreeM: models nnx/transforms.py, [tree_map_upto_left] (926-935) and its two
    uses in [scan_apply] (519-523 and 681-686): [in_axes] and [out_axes] are trees of
    ints, prefixes of the axes argument and of the outputs. *)
From Coq Require Import ZArith.
From Verif Require Import PyBase ValuesM FiltersM StateM ModuleM ContextM ScanM.
Local Open Scope string_scope.
Local Open Scope list_scope.

(** Pytrees of tuples, lists and dicts ([jax.tree_util]).  A dict is given by its
    keys, sorted as jax flattens them, and the values in that order.
    Simplification: no namedtuples and no registered classes. ([jax.tree_util] as used at transforms.py:519-690, 926-935) *)
Inductive tkind : Type := KTuple | KList | KDict (ks : list string).
(** [jax.tree_util] as used at transforms.py:519-690, 926-935 *)
Inductive tree (A : Type) : Type :=
| TLeaf (a : A)
| TNone
| TNode (k : tkind) (l : list (tree A)).
Arguments TLeaf {A} a. Arguments TNone {A}. Arguments TNode {A} k l.

(** [jax.tree_util] as used at transforms.py:519-690, 926-935 *)
Definition kind_eqb (a b : tkind) : bool :=
  match a, b with
  | KTuple, KTuple | KList, KList => true
  | KDict x, KDict y => if list_eq_dec string_dec x y then true else false
  | _, _ => false
  end.

(** [jax.tree_map(f, t)]. ([jax.tree_util] as used at transforms.py:519-690, 926-935) *)
Fixpoint tmap {A B} (f : A -> B) (t : tree A) : tree B :=
  match t with
  | TLeaf a => TLeaf (f a)
  | TNone => TNone
  | TNode k l => TNode k (map (tmap f) l)
  end.
(** the same for a function that may raise. ([jax.tree_util] as used at transforms.py:519-690, 926-935) *)
Fixpoint tmapM {A B} (f : A -> result B) (t : tree A) : result (tree B) :=
  match t with
  | TLeaf a => do b <- f a; Ok (TLeaf b)
  | TNone => Ok TNone
  | TNode k l =>
      do l' <- (fix go l := match l with
                            | [] => Ok []
                            | x :: r => do y <- tmapM f x; do ys <- go r; Ok (y :: ys)
                            end) l;
      Ok (TNode k l')
  end.
(** [jax.tree_util.tree_leaves(t)]. ([jax.tree_util] as used at transforms.py:519-690, 926-935) *)
Fixpoint tleaves {A} (t : tree A) : list A :=
  match t with
  | TLeaf a => [a]
  | TNone => []
  | TNode _ l => flat_map tleaves l
  end.

(** [treedef.flatten_up_to(right)], the subtrees of [right] being kept at their
    places in [left], beside the leaves of [left] (930 and 933-934).
    [np]: is None a prefix of every tree?  It is in jax 0.4.13, which poetry.lock pins
    (there is no leaf at it, so what [right] has there is dropped); since jax 0.4.34
    it is a prefix of None only. *)
Fixpoint flatten_up_to {A B} (np : bool) (left : tree A) (right : tree B) : result (tree (A * tree B)) :=
  match left with
  | TLeaf a => Ok (TLeaf (a, right))
  | TNone => if np then Ok TNone else match right with TNone => Ok TNone | _ => Err ValueError end
  | TNode k ls =>
      match right with
      | TNode k' rs =>
          if kind_eqb k k' then
            do l' <- (fix go ls rs := match ls, rs with
                                      | [], [] => Ok []
                                      | x :: ls', y :: rs' => do t <- flatten_up_to np x y; do ts <- go ls' rs'; Ok (t :: ts)
                                      | _, _ => Err ValueError
                                      end) ls rs;
            Ok (TNode k l')
          else Err ValueError
      | _ => Err ValueError
      end
  end.
(** [treedef.unflatten]: every leaf is replaced by a tree. (transforms.py:926-935) *)
Fixpoint tjoin {A} (t : tree (tree A)) : tree A :=
  match t with
  | TLeaf a => a
  | TNone => TNone
  | TNode k l => TNode k (map tjoin l)
  end.
(** transforms.py:926-935 *)
Definition tree_map_upto_left {A B C} (np : bool) (f : A -> tree B -> result (tree C)) (left : tree A) (right : tree B) : result (tree C) :=
  do t <- flatten_up_to np left right;
  do t' <- tmapM (fun ab => f (fst ab) (snd ab)) t;
  Ok (tjoin t').

(** transforms.py:519-523; an array with its axis moved to the front is the list of
    its slices *)
Definition cut_tree (J : arrays) (np : bool) (in_axes : tree Z) (arg : tree pyval) : result (list nat * (nat -> tree pyval)) :=
  do sl <- tree_map_upto_left np (fun ax node => tmapM (a_slices J ax) node) in_axes arg;
  Ok (map (@List.length pyval) (tleaves sl), fun i => tmap (fun l => nth i l PyNone) sl).

(** the outputs of [jax.lax.scan]: the trees of the steps have one structure, and
    every leaf is the list of the leaves of the steps. ([jax.lax.scan] as called at transforms.py:626-633) *)
Fixpoint tzip {A B} (f : A -> B -> A) (s : tree A) (t : tree B) : result (tree A) :=
  match s, t with
  | TLeaf a, TLeaf b => Ok (TLeaf (f a b))
  | TNone, TNone => Ok TNone
  | TNode k ls, TNode k' rs =>
      if kind_eqb k k' then
        do l' <- (fix go ls rs := match ls, rs with
                                  | [], [] => Ok []
                                  | x :: ls', y :: rs' => do t <- tzip f x y; do ts <- go ls' rs'; Ok (t :: ts)
                                  | _, _ => Err TypeError
                                  end) ls rs;
        Ok (TNode k l')
      else Err TypeError
  | _, _ => Err TypeError
  end.
(** [jax.lax.scan] as called at transforms.py:626-633 *)
Fixpoint gather (acc : tree (list pyval)) (l : list (tree pyval)) : result (tree (list pyval)) :=
  match l with
  | [] => Ok acc
  | y :: rest => do acc' <- tzip (fun a b => a ++ [b]) acc y; gather acc' rest
  end.
(** [jax.lax.scan] as called at transforms.py:626-633 *)
Definition scan_outputs (l : list (tree pyval)) : result (tree (list pyval)) :=
  match l with
  | [] => Err OutOfModel
  | y :: rest => gather (tmap (fun v => [v]) y) rest
  end.
(** transforms.py:681-686 *)
Definition join_tree (J : arrays) (np : bool) (out_axes : tree Z) (l : list (tree pyval)) : result (tree pyval) :=
  do out <- scan_outputs l;
  tree_map_upto_left np (fun ax node => Ok (tmap (a_stack J ax) node)) out_axes out.

(** transforms.py:492-690 [scan_apply], with [in_axes] and [out_axes] as trees;
    [o_in] and [o_out] of the options are not used *)
Definition scan_tree (J : arrays) (np : bool) (o : scan_opts) (in_axes out_axes : tree Z) (t : trace_state)
    (f : scanned_of (tree pyval) (tree pyval)) (w : world) (r : nat) (c : pyval) (arg : tree pyval) (ctx : option context) (ss : list stream)
  : world * list stream * result (pyval * tree pyval) :=
  scan_core J o t f w r c (cut_tree J np in_axes arg) (join_tree J np out_axes) ctx ss.
