(** StateM: models nnx/state.py. *)
From Verif Require Import PyBase ValuesM FiltersM.
Local Open Scope string_scope.
Local Open Scope list_scope.

(** state.py:17-31.  A State is its [_mapping]: an insertion-ordered dict. *)
Notation state := (dict attr).

(** state.py:20-31 [State.__init__]: [dict(sorted(items, key=...))]. *)
Definition mk_state (items : list (string * attr)) : state := dict_of (sort_by_key items).

(** One State or a tuple of States (result of partition/filter). (state.py:62-78, 98-113) *)
Inductive sts : Type := One (s : state) | Many (l : list state).
(** state.py:62-78, 98-113 *)
Definition sts_list (x : sts) : list state := match x with One s => [s] | Many l => l end.

(** state.py:170-175: [...] anywhere but last. *)
Fixpoint ellipsis_misplaced (fs : list filt) : bool :=
  match fs with
  | [] => false
  | [f] => false
  | f :: t => is_ellipsis f || ellipsis_misplaced t
  end.

(** state.py:183-189: index of the first predicate that matches, or [n]. *)
Fixpoint route (ps : list predicate) (path : string) (v : attr) : nat :=
  match ps with
  | [] => 0
  | p :: t => if p path v then 0 else S (route t path v)
  end.

(** [states[i][path] = value]. (state.py:183-189) *)
Fixpoint put_at (i : nat) (path : string) (v : attr) (l : list (dict attr)) : list (dict attr) :=
  match l, i with
  | [], _ => []
  | d :: t, 0 => dset path v d :: t
  | d :: t, S i' => d :: put_at i' path v t
  end.

(** state.py:182-189: the loop over the items. *)
Definition split_loop (ps : list predicate) (items : list (string * attr)) : list (dict attr) :=
  fold_left (fun acc kv => put_at (route ps (fst kv) (snd kv)) (fst kv) (snd kv) acc)
            items (repeat [] (S (List.length ps))).

(** state.py:166-191 [_split_state]: [n] dicts and the remainder last. *)
Definition split_state (s : state) (fs : list filt) : result (list (dict attr)) :=
  if ellipsis_misplaced fs then Err ValueError
  else do ps <- rmapM to_predicate fs; Ok (split_loop ps s).

(** [if len(states) == 1: State(states[0]) else tuple(State(s) for s in states)]. (state.py:62-78, 98-113) *)
Definition pack (l : list (dict attr)) : sts :=
  match l with [d] => One (mk_state d) | _ => Many (map mk_state l) end.

(** state.py:62-78 [State.partition] (at least one filter by its signature). *)
Definition state_partition (s : state) (first : filt) (rest : list filt) : result sts :=
  do l <- split_state s (first :: rest);
  match last l [] with
  | [] => Ok (pack (removelast l))
  | _ => Err ValueError
  end.

(** state.py:98-113 [State.filter]; the assertion on line 106 holds by construction. *)
Definition state_filter (s : state) (first : filt) (rest : list filt) : result sts :=
  do l <- split_state s (first :: rest);
  Ok (pack (removelast l)).

(** state.py:115-127 [State.merge]. *)
Definition state_merge (first : state) (rest : list state) : state :=
  match rest with
  | [] => first
  | _ => mk_state (fold_left (fun acc s => dupdate acc s) (first :: rest) [])
  end.

(** state.py:129-132 [State.__or__] *)
Definition state_or (a b : state) : state :=
  match b with [] => a | _ => state_merge a [b] end.

(** state.py:134-142 [State.__sub__]: no re-sorting. *)
Definition state_sub (a b : state) : state :=
  match b with
  | [] => a
  | _ => filter (fun kv => negb (dmem (fst kv) b)) a
  end.

(** state.py:145-149 [_state_flatten_with_keys]: children and aux data. *)
Definition state_flatten (s : state) : list attr * list string := (values s, keys s).

(** state.py:152-158 [_state_unflatten]: [dict(zip(keys, leaves))]. *)
Definition state_unflatten (ks : list string) (leaves : list attr) : state :=
  dict_of (combine ks leaves).

(** [jax.tree_map(f, s)] for a State whose values are leaves: flatten, map,
    unflatten. (state.py:145-163) *)
Definition state_tree_map (f : attr -> attr) (s : state) : state :=
  let '(leaves, ks) := state_flatten s in state_unflatten ks (map f leaves).
