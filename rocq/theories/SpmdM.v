(** SpmdM: models nnx/spmd.py (sharding metadata and logical axis rules). *)
From Coq Require Import ZArith.
From Verif Require Import PyBase ValuesM StateM.
Local Open Scope string_scope.
Local Open Scope list_scope.

(** ** Python list operations with (possibly negative) int positions *)

(** [l.insert(i, x)]: never raises; positions outside are clamped. (used at spmd.py:36-54) *)
Definition insert_pos (len : nat) (i : Z) : nat :=
  if Z.ltb i 0 then Z.to_nat (Z.of_nat len + i) else Nat.min (Z.to_nat i) len.
(** used at spmd.py:36-54 *)
Definition py_insert {A} (l : list A) (i : Z) (x : A) : list A :=
  let p := insert_pos (List.length l) i in firstn p l ++ x :: skipn p l.
(** the position [l[i]] / [l.pop(i)] refer to, or None for IndexError. (used at spmd.py:57-73) *)
Definition index_pos (len : nat) (i : Z) : option nat :=
  let p := if Z.ltb i 0 then (Z.of_nat len + i)%Z else i in
  if Z.ltb p 0 then None else if Z.leb (Z.of_nat len) p then None else Some (Z.to_nat p).
(** [l.pop(i)]: the element and the rest. (used at spmd.py:57-73) *)
Definition py_pop {A} (l : list A) (i : Z) : result (A * list A) :=
  match index_pos (List.length l) i with
  | None => Err IndexError
  | Some p => match nth_error l p with
              | None => Err IndexError
              | Some x => Ok (x, firstn p l ++ skipn (S p) l)
              end
  end.

(** ** Sharding metadata of containers *)

(** spmd.py:28 [Sharding]: a tuple of names or None. *)
Notation sharding := (list (option string)).
(** the [sharding] metadata, spmd.py:27-33, as a value of ValuesM *)
Definition axis_val (a : option string) : pyval := match a with None => PyNone | Some s => PyStr s end.
(** the [sharding] metadata, spmd.py:27-33, as a value of ValuesM *)
Definition sharding_val (s : sharding) : pyval := PyTuple (map axis_val s).
(** the [sharding] metadata, spmd.py:27-33, as a value of ValuesM *)
Definition val_axis (v : pyval) : option (option string) :=
  match v with PyNone => Some None | PyStr s => Some (Some s) | _ => None end.
(** the [sharding] metadata, spmd.py:27-33, as a value of ValuesM *)
Fixpoint val_sharding (l : list pyval) : option sharding :=
  match l with
  | [] => Some []
  | v :: t => match val_axis v, val_sharding t with
              | Some a, Some s => Some (a :: s)
              | _, _ => None
              end
  end.

(** The test of lines 40-44 / 61-65: a Node with a [sharding] attribute that is
    not None.  [Ok None]: the test fails and the value is returned unchanged.
    Simplification: a [sharding] that is neither None nor a tuple of names and
    Nones is out of the model. *)
Definition sharding_of (a : attr) : result (option (container * sharding)) :=
  match a with
  | ACont c =>
      if smem "Node" (c_cls c) then
        match dget "sharding" (c_meta c) with
        | None | Some PyNone => Ok None
        | Some (PyTuple l) => match val_sharding l with Some s => Ok (Some (c, s)) | None => Err OutOfModel end
        | Some _ => Err OutOfModel
        end
      else Ok None
  | ARaw _ => Ok None
  end.

(** spmd.py:46-47: pad with None up to [index]. *)
Definition pad_to (n : nat) (s : sharding) : sharding := s ++ repeat None (n - List.length s).

(** spmd.py:45-49. *)
Definition add_axis_entry (index : Z) (axis_name : string) (s : sharding) : sharding :=
  py_insert (pad_to (Z.to_nat index) s) index (Some axis_name).
(** spmd.py:39-50 [_add_axis]. *)
Definition add_axis1 (index : Z) (axis_name : string) (a : attr) : result attr :=
  do r <- sharding_of a;
  match r with
  | None => Ok a
  | Some (c, s) =>
      rmap ACont (container_replace c None [("sharding", sharding_val (add_axis_entry index axis_name s))])
  end.
(** spmd.py:66-67. *)
Definition remove_axis_entry (index : Z) (axis_name : string) (s : sharding) : result sharding :=
  do (x, rest) <- py_pop s index;
  match x with
  | Some n => if String.eqb n axis_name then Ok rest else Err AssertionError
  | None => Err AssertionError
  end.
(** spmd.py:60-69 [_remove_axis]. *)
Definition remove_axis1 (index : Z) (axis_name : string) (a : attr) : result attr :=
  do r <- sharding_of a;
  match r with
  | None => Ok a
  | Some (c, s) =>
      do s' <- remove_axis_entry index axis_name s;
      rmap ACont (container_replace c None [("sharding", sharding_val s')])
  end.
(** [jax.tree_map(f, state, is_leaf=...)] on a State: every entry in turn; keys
    stay.  Simplification: an entry that is not a Node is one leaf, on which both
    functions are the identity. (used at spmd.py:36-73, 85-101) *)
Fixpoint state_map (f : attr -> result attr) (s : state) : result state :=
  match s with
  | [] => Ok []
  | (k, a) :: t => do b <- f a; do t' <- state_map f t; Ok ((k, b) :: t')
  end.
(** spmd.py:36-54, 57-73, 76-82.  [name] is [params.get("partition_name")], None
    when the key is missing. *)
Definition add_axis (s : state) (index : Z) (name : option string) : result state :=
  match name with None => Err ValueError | Some n => state_map (add_axis1 index n) s end.
(** spmd.py:57-73 *)
Definition remove_axis (s : state) (index : Z) (name : option string) : result state :=
  match name with None => Err ValueError | Some n => state_map (remove_axis1 index n) s end.

(** spmd.py:85-101 [get_partition_spec] on one leaf: a PartitionSpec or None.
    [has_shape] says whether a value has a [shape] attribute. *)
Definition partition_spec1 (has_shape : pyval -> bool) (a : attr) : result (option sharding) :=
  match a with
  | ACont c =>
      if smem "Node" (c_cls c) then
        do r <- sharding_of a;
        match r with
        | Some (_, s) => match s with
                         | [] => Ok (if has_shape (c_val c) then Some [] else None)
                         | _ => Ok (Some s)
                         end
        | None => Ok (if has_shape (c_val c) then Some [] else None)
        end
      else Err OutOfModel  (* states hold no other containers *)
  | ARaw v => Ok (if has_shape v then Some [] else None)
  end.

(** spmd.py:85-101 [get_partition_spec] of a State: every entry in turn, under its
    key.  Simplification: an entry that is not a Node is one leaf. *)
Definition get_partition_spec (has_shape : pyval -> bool) (s : state) : result (list (string * option sharding)) :=
  rmapM (fun kv => do p <- partition_spec1 has_shape (snd kv); Ok (fst kv, p)) s.

(** ** Logical axis rules *)

(** The mesh side of a rule: None, one mesh axis, or a tuple of them. (spmd.py:18) *)
Inductive mesh_names : Type := MNone | MAxis (s : string) | MAxes (l : list string).
(** spmd.py:18 [LogicalRules]. *)
Notation logical_rules := (list (string * mesh_names)).
(** An entry of the result list: [_unassigned_axis] or a rule's mesh names. (spmd.py:140-150) *)
Inductive mesh_entry : Type := Unassigned | Assigned (m : mesh_names).

(** [jax.tree_util.tree_leaves] of mesh names: None has no leaves. (used at spmd.py:153-159) *)
Definition mesh_leaves (m : mesh_names) : list string :=
  match m with MNone => [] | MAxis s => [s] | MAxes l => l end.
(** leaves of the result list other than the sentinel (which is not a str). (used at spmd.py:153-159) *)
Definition entry_leaves (e : mesh_entry) : list string :=
  match e with Unassigned => [] | Assigned m => mesh_leaves m end.

(** spmd.py:153-159 [_mesh_assignment_free]. *)
Definition mesh_assignment_free (new : mesh_names) (existing : list mesh_entry) : bool :=
  negb (existsb (fun x => smem x (mesh_leaves new)) (flat_map entry_leaves existing)).

(** [array_dim_names.index(name)], None when absent. (used at spmd.py:162-190) *)
Fixpoint dim_index (name : string) (dims : list (option string)) : option nat :=
  match dims with
  | [] => None
  | d :: t => if match d with Some s => String.eqb name s | None => false end then Some 0
              else option_map S (dim_index name t)
  end.
(** spmd.py:171-172: does a name occur more than once? *)
Fixpoint has_dups (dims : list (option string)) : bool :=
  match dims with
  | [] => false
  | None :: t => has_dups t
  | Some s :: t => match dim_index s t with Some _ => true | None => has_dups t end
  end.
(** one turn of the loop, spmd.py:182-189. *)
Definition apply_rule (dims : list (option string)) (result : list mesh_entry) (rule : string * mesh_names)
  : list mesh_entry :=
  match dim_index (fst rule) dims with
  | None => result
  | Some pos =>
      match nth_error result pos with
      | Some Unassigned => if mesh_assignment_free (snd rule) result
                           then list_set pos (Assigned (snd rule)) result else result
      | _ => result
      end
  end.
(** spmd.py:162-190 [_logical_to_mesh_axes]; [current] are the rules of the
    dynamic context.  [Ok None]: the array dimension names were None. *)
Definition logical_to_mesh_entries (current : logical_rules) (dims : option (list (option string)))
    (rules : option logical_rules) : result (option (list mesh_entry)) :=
  match dims with
  | None => Ok None
  | Some ds =>
      let rs := match rules with None => current | Some r => r end in
      if has_dups ds then Err ValueError
      else Ok (Some (fold_left (apply_rule ds) rs (repeat Unassigned (List.length ds))))
  end.
(** spmd.py:233. *)
Definition fill_none (e : mesh_entry) : mesh_names := match e with Unassigned => MNone | Assigned m => m end.
(** spmd.py:193-234 [logical_to_mesh_axes]: the arguments of PartitionSpec. *)
Definition logical_to_mesh_axes (current : logical_rules) (dims : option (list (option string)))
    (rules : option logical_rules) : result (option (list mesh_names)) :=
  do r <- logical_to_mesh_entries current dims rules;
  Ok (option_map (map fill_none) r).

(** spmd.py:265-270. *)
Inductive fallback : Type := AxisIsUnsharded | RaiseError | NoConstraint.
(** What [_with_sharding_constraint] (273-286) does to an array: nothing, or
    constrain it with a PartitionSpec (None when no spec was given). *)
Inductive constrained : Type := AsIs | Constrain (spec : option (list mesh_names)).
(** spmd.py:273-286 *)
Definition sharding_constraint (mesh_available : bool) (spec : option (list mesh_names)) : constrained :=
  if mesh_available then Constrain spec else AsIs.
(** spmd.py:289-309 *)
Definition is_unassigned (e : mesh_entry) : bool := match e with Unassigned => true | _ => false end.
(** spmd.py:289-309. [mesh_available]: a global mesh is defined or one is passed. *)
Definition constraint_one_fallback (mesh_available : bool) (current : logical_rules)
    (dims : option (list (option string))) (fb : fallback) (rules : option logical_rules)
  : result constrained :=
  do r <- logical_to_mesh_entries current dims rules;
  match r with
  | None => Ok (sharding_constraint mesh_available None)
  | Some es =>
      match fb with
      | AxisIsUnsharded => Ok (sharding_constraint mesh_available (Some (map fill_none es)))
      | RaiseError => if existsb is_unassigned es then Err ValueError
                      else Ok (sharding_constraint mesh_available (Some (map fill_none es)))
      | NoConstraint => if existsb is_unassigned es then Ok AsIs
                        else Ok (sharding_constraint mesh_available (Some (map fill_none es)))
      end
  end.
(** spmd.py:318-342 [with_logical_constraint] for one array and one spec. *)
Definition with_logical_constraint (mesh_available : bool) (current : logical_rules)
    (dims : option (list (option string))) (rules : option logical_rules) (fb : fallback)
  : result constrained :=
  let rs := match rules with None => current | Some r => r end in
  match rs, dims with
  | [], _ | _, None => Ok AsIs
  | _, Some _ => constraint_one_fallback mesh_available current dims fb (Some rs)
  end.
