(** TsSaveM: models flax serialization of Pytree objects on the heap of PytreeM
    (nnx/pytreelib.py:191-231), as used to keep a TrainState (helpers.py:98-143) in a file.
    [flax.serialization] itself is not in the repository: what it makes of the values of
    the fields is a parameter.  It converts dicts, lists, tuples, namedtuples and the
    classes registered with it, and returns anything else (arrays, States, containers)
    as it is; PtreeM has nested Pytrees in full. *)
From Verif Require Import PyBase ValuesM PytreeM.
Local Open Scope string_scope.
Local Open Scope list_scope.

Section Save.
(** [flax.serialization.to_state_dict(value)] and
    [flax.serialization.from_state_dict(target, state)]; both may raise. *)
Variable to_dict : pyval -> result pyval.
Variable from_dict : pyval -> pyval -> result pyval.

(** nodes.py:14-15 [is_node] of what a field holds (a list of names is a list). *)
Definition node_field (f : pfield) : bool := match f with FAttr a => is_node default_node_types a | FNames _ => false end.

(** pytreelib.py:195-199: [getattr] unwraps a container (77-84). *)
Fixpoint save_fields (vars : list (string * pfield)) : result (dict pyval) :=
  match vars with
  | [] => Ok []
  | (n, f) :: rest =>
      if node_field f then
        do v <- match f with FAttr (ARaw v) => Ok v | FAttr (ACont c) => Ok (c_val c) | FNames _ => Err OutOfModel end;
        do s <- to_dict v;
        do l <- save_fields rest; Ok ((n, s) :: l)
      else save_fields rest
  end.
(** pytreelib.py:191-200 [_to_flax_state_dict]. *)
Definition save (h : pheap) (r : nat) : result (dict pyval) :=
  match nth_error h r with None => Err OutOfModel | Some o => save_fields (p_vars o) end.

(** pytreelib.py:211-223: the updates, and what is left of the state.  The target is the
    entry of [vars], so for a field with a container it is the container, which flax does
    not know: the state is returned as it is. *)
Fixpoint restore_fields (vars : list (string * pfield)) (st : dict pyval) : result (list (string * attr) * dict pyval) :=
  match vars with
  | [] => Ok ([], st)
  | (n, f) :: rest =>
      if node_field f then
        match dget n st with
        | None => Err ValueError
        | Some s =>
            do v <- match f with FAttr (ARaw v0) => from_dict v0 s | _ => Ok s end;
            do l <- restore_fields rest (ddel n st); Ok ((n, ARaw v) :: fst l, snd l)
        end
      else restore_fields rest st
  end.
(** pytreelib.py:202-231 [_from_flax_state_dict]; the new object is at index [length h]. *)
Definition restore (h : pheap) (r : nat) (st : dict pyval) : pheap * result unit :=
  match nth_error h r with
  | None => (h, Err OutOfModel)
  | Some o =>
      match restore_fields (p_vars o) st with
      | Err e => (h, Err e)
      | Ok (updates, []) => preplace h r updates
      | Ok (_, _ :: _) => (h, Err ValueError)
      end
  end.

(** The same by hand, as user code: each value is restored from the value of the field
    ([from_state_dict(getattr(ts, name), state[name])]), and put in with
    [ts.replace] (pytreelib.py:233-255). *)
Fixpoint reload_values (h : pheap) (r : nat) (st : list (string * pyval)) : result (list (string * attr)) :=
  match st with
  | [] => Ok []
  | (n, s) :: rest =>
      do f <- pgetattr h r n;
      match f with
      | FAttr (ARaw v0) => do v <- from_dict v0 s; do l <- reload_values h r rest; Ok ((n, ARaw v) :: l)
      | _ => Err OutOfModel
      end
  end.
(** pytreelib.py:233-255, called with the values of [reload_values]. *)
Definition reload (h : pheap) (r : nat) (st : dict pyval) : pheap * result unit :=
  match reload_values h r st with Err e => (h, Err e) | Ok updates => preplace h r updates end.
End Save.
