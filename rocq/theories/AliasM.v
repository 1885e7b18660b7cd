(** AliasM: containers as objects with identity.  ModuleM keeps containers by value; in
    Python a container (containers.py:44-104) is an object that a Module's [vars], a State
    and a variable of the program can refer to at the same time, and its fields can be
    assigned to.  Here every container is a cell with an address, and the functions of
    module.py and state.py are written again, line by line, on references to cells.
    Programs (the end of this file) run on either representation.

    Simplifications: those of ModuleM; mutable objects other than Modules, States and
    containers (numpy arrays, lists) stay opaque values. *)
From Verif Require Import PyBase ValuesM FiltersM StateM ModuleM.
Local Open Scope string_scope.
Local Open Scope list_scope.

(** What an attribute slot or a State entry refers to: a plain value or the container
    at address [k]. (the value of an entry of [vars(module)] or of a State, module.py:447-468, state.py:20-31) *)
Inductive rattr : Type :=
| RRaw (v : pyval)
| RCell (k : nat).

(** A Module object (as [mobj]) whose [vars] hold references. (module.py:383-433) *)
Record robj := mkRobj {
  ro_cls : cls;
  ro_id : nat;
  ro_init : bool;
  ro_trace : trace_state;
  ro_vars : dict rattr
}.

(** The interpreter state (as [world]) with the containers ever made. (module.py:417-433, ids.py:20-39, nodes.py:6-15) *)
Record rworld := mkRworld {
  rw_heap : list robj;
  rw_cells : list container;
  rw_uuid : nat;
  rw_trace : trace_state;
  rw_nodes : list string
}.

(** record update of the model; memory of the objects that module.py:447-468 reads and writes *)
Definition rset_heap (w : rworld) (h : list robj) : rworld :=
  mkRworld h (rw_cells w) (rw_uuid w) (rw_trace w) (rw_nodes w).
(** record update of the model; memory of the objects that module.py:447-468 reads and writes *)
Definition rset_cells (w : rworld) (cs : list container) : rworld :=
  mkRworld (rw_heap w) cs (rw_uuid w) (rw_trace w) (rw_nodes w).
(** record update of the model; memory of the objects that module.py:447-468 reads and writes *)
Definition rset_vars (o : robj) (d : dict rattr) : robj :=
  mkRobj (ro_cls o) (ro_id o) (ro_init o) (ro_trace o) d.
(** record update of the model; memory of the objects that module.py:447-468 reads and writes *)
Definition rput_obj (w : rworld) (r : nat) (o : robj) : rworld :=
  rset_heap w (list_set r o (rw_heap w)).
(** record update of the model; memory of the objects that module.py:447-468 reads and writes *)
Definition rget_obj (w : rworld) (r : nat) : option robj := nth_error (rw_heap w) r.

(** The object behind a reference.  Addresses are only made by [ralloc]; a dangling one
    reads as None and does not occur. (following a Python reference; used for the reads in module.py:447-453 and state.py:33-34) *)
Definition look (cs : list container) (a : rattr) : attr :=
  match a with
  | RRaw v => ARaw v
  | RCell k => match nth_error cs k with Some c => ACont c | None => ARaw PyNone end
  end.
(** following a Python reference; used for the reads in module.py:447-453 and state.py:33-34 *)
Definition lookd {A} (cs : list container) (d : list (A * rattr)) : list (A * attr) :=
  map (fun kv => (fst kv, look cs (snd kv))) d.

(** A constructor call returns a new object. (containers.py:47-52) *)
Definition ralloc (w : rworld) (c : container) : rattr * rworld :=
  (RCell (List.length (rw_cells w)), rset_cells w (rw_cells w ++ [c])).

(** module.py:417-420 [ModuleMeta._meta_call]; see [new_module]. *)
Definition rnew_module (w : rworld) (c : cls) : nat * rworld :=
  (List.length (rw_heap w),
   mkRworld (rw_heap w ++ [mkRobj c (S (rw_uuid w)) false (rw_trace w) []])
            (rw_cells w) (S (rw_uuid w)) (rw_trace w) (rw_nodes w)).

(** tracers.py:90-94 [TraceState.is_valid]. *)
Definition rtrace_valid (w : rworld) (t : trace_state) : bool :=
  Nat.eqb (fst t) (fst (rw_trace w)) && Nat.eqb (snd t) (snd (rw_trace w)).

(** module.py:447-453 [__getattribute__]; see [getattr]. *)
Definition rgetattr (w : rworld) (r : nat) (name : string) : result read_result :=
  match rget_obj w r with
  | None => Err OutOfModel
  | Some o => match dget name (ro_vars o) with
              | Some a => Ok (read_attr (look (rw_cells w) a))
              | None => Err AttributeError
              end
  end.

(** [vars(module)[name]]: the object itself.  The entry ["_module__state"] is kept apart
    (see [mobj]). (module.py:455-468) *)
Definition rvars (w : rworld) (r : nat) (name : string) : result rattr :=
  match rget_obj w r with
  | None => Err OutOfModel
  | Some o => match dget name (ro_vars o) with Some a => Ok a | None => Err KeyError end
  end.

(** module.py:462-468: [Container.replace] (containers.py:72-90) and [Container.copy]
    (98-99) call the constructor: what is stored is a new object, never the container
    that was assigned. *)
Definition rassign (w : rworld) (old : option rattr) (value : rattr) : result (rattr * rworld) :=
  match old with
  | Some (RCell k) =>
      match nth_error (rw_cells w) k with
      | None => Err OutOfModel
      | Some c => do c' <- container_replace c (Some (look (rw_cells w) value)) []; Ok (ralloc w c')
      end
  | _ => match value with
         | RCell k =>
             match nth_error (rw_cells w) k with
             | None => Err OutOfModel
             | Some c => do c' <- container_copy c; Ok (ralloc w c')
             end
         | RRaw v => Ok (RRaw v, w)
         end
  end.

(** module.py:458-468 [Module._setattr]; see [setattr]. *)
Definition rsetattr (w : rworld) (r : nat) (name : string) (value : rattr) : result rworld :=
  match rget_obj w r with
  | None => Err OutOfModel
  | Some o =>
      if negb (rtrace_valid w (ro_trace o)) then Err TraceContextError
      else if String.eqb name "_module__state" then Err OutOfModel
      else do (a, w1) <- rassign w (dget name (ro_vars o)) value;
           Ok (rput_obj w1 r (rset_vars o (dset name a (ro_vars o))))
  end.

(** [delattr(module, name)]; see [delattr]. (not overridden by Module, module.py:441-468) *)
Definition rdelattr (w : rworld) (r : nat) (name : string) : result rworld :=
  match rget_obj w r with
  | None => Err OutOfModel
  | Some o =>
      if dmem name (ro_vars o)
      then Ok (rput_obj w r (rset_vars o (ddel name (ro_vars o))))
      else Err AttributeError
  end.

(** Assignment to a field of a container object: [Container] does not define
    [__setattr__], so [c.value = v] or [c.sharding = v] stores into [vars(c)], whatever
    the current trace.  Storing a container as [value] is not modelled. (Container has no [__setattr__], containers.py:44-104) *)
Definition cont_write (c : container) (field : string) (v : pyval) : container :=
  if String.eqb field "value" then mkCont (c_cls c) (c_meta c) v
  else mkCont (c_cls c) (dset field v (c_meta c)) (c_val c).
(** Container has no [__setattr__], containers.py:44-104 *)
Definition rwrite (w : rworld) (a : rattr) (field : string) (v : pyval) : result rworld :=
  match a with
  | RRaw _ => Err OutOfModel
  | RCell k => match nth_error (rw_cells w) k with
               | None => Err OutOfModel
               | Some c => Ok (rset_cells w (list_set k (cont_write c field v) (rw_cells w)))
               end
  end.

(** module.py:86-101 [ModuleDef]: its static fields are the objects themselves. *)
Inductive rdef : Type :=
| DRef (i : nat)
| DDef (c : cls) (index : nat) (subs : list (string * rdef))
       (statics : list (string * rattr)) (init : bool).

(** module.py:795-801; see [make_fields]. *)
Fixpoint rmake_fields (rec : nat -> list nat -> result (rdef * list nat)) (nt : list string)
    (cs : list container) (l : list (string * rattr)) (mi : list nat)
  : result (list (string * rdef) * list (string * rattr) * list nat) :=
  match l with
  | [] => Ok ([], [], mi)
  | (name, a) :: t =>
      match a with
      | RRaw (PyMod r) =>
          do (d, mi1) <- rec r mi;
          do (subs, st, mi2) <- rmake_fields rec nt cs t mi1;
          Ok ((name, d) :: subs, st, mi2)
      | _ =>
          do (subs, st, mi2) <- rmake_fields rec nt cs t mi;
          if negb (is_node nt (look cs a)) && negb (starts_with "_module__" name)
          then Ok (subs, (name, a) :: st, mi2)
          else Ok (subs, st, mi2)
      end
  end.

(** module.py:781-810 [_make_module_def_recursive]; see [make_def]. *)
Fixpoint rmake_def (fuel : nat) (w : rworld) (r : nat) (mi : list nat) {struct fuel}
  : result (rdef * list nat) :=
  match fuel with
  | 0 => Err RecursionError
  | S n =>
      match rget_obj w r with
      | None => Err OutOfModel
      | Some o =>
          match index_of (ro_id o) mi with
          | Some i => Ok (DRef i, mi)
          | None =>
              do (subs, st, mi') <- rmake_fields (rmake_def n w) (rw_nodes w) (rw_cells w)
                                                 (sort_by_key (ro_vars o)) (mi ++ [ro_id o]);
              Ok (DDef (ro_cls o) (List.length mi) subs st (ro_init o), mi')
          end
      end
  end.

(** module.py:771-778 [_get_module_def]. *)
Definition rget_module_def (w : rworld) (r : nat) : result rdef :=
  do (d, _) <- rmake_def (S (List.length (rw_heap w))) w r [];
  match d with DDef _ _ _ _ _ => Ok d | DRef _ => Err AssertionError end.

(** module.py:828-834; see [iter_fields].  Line 834 yields the object [value] itself. *)
Fixpoint riter_fields (rec : nat -> list nat -> list string -> result (list (string * rattr) * list nat))
    (nt : list string) (cs : list container) (l : list (string * rattr)) (seen : list nat)
    (parts : list string) : result (list (string * rattr) * list nat) :=
  match l with
  | [] => Ok ([], seen)
  | (name, a) :: t =>
      match a with
      | RRaw (PyMod r) =>
          do (xs, seen1) <- rec r seen (parts ++ [name]);
          do (ys, seen2) <- riter_fields rec nt cs t seen1 parts;
          Ok (xs ++ ys, seen2)
      | _ =>
          do (ys, seen2) <- riter_fields rec nt cs t seen parts;
          if is_node nt (look cs a) then Ok ((join_path (parts ++ [name]), a) :: ys, seen2)
          else Ok (ys, seen2)
      end
  end.

(** module.py:820-834 [_iter_state_recursive]; see [iter_state_rec]. *)
Fixpoint riter_state_rec (fuel : nat) (w : rworld) (r : nat) (seen : list nat) (parts : list string)
  {struct fuel} : result (list (string * rattr) * list nat) :=
  match fuel with
  | 0 => Err RecursionError
  | S n =>
      match rget_obj w r with
      | None => Err OutOfModel
      | Some o =>
          if nmem (ro_id o) seen then Ok ([], seen)
          else riter_fields (riter_state_rec n w) (rw_nodes w) (rw_cells w) (sort_by_key (ro_vars o))
                            (seen ++ [ro_id o]) parts
      end
  end.

(** state.py:20-31 [State.__init__], for any kind of entries. *)
Definition gmk_state {A} (items : list (string * A)) : dict A := dict_of (sort_by_key items).

(** module.py:767-768 [_get_module_state] / 813-817 [_iter_state]. *)
Definition rget_state (w : rworld) (r : nat) : result (dict rattr) :=
  do (xs, _) <- riter_state_rec (S (List.length (rw_heap w))) w r [] [];
  Ok (gmk_state xs).

(** state.py:166-191 [_split_state]; see [split_state].  The filters look at the
    container, the States hold the reference. *)
Fixpoint gput_at {A} (i : nat) (path : string) (v : A) (l : list (dict A)) : list (dict A) :=
  match l, i with
  | [], _ => []
  | d :: t, 0 => dset path v d :: t
  | d :: t, S i' => d :: gput_at i' path v t
  end.
(** state.py:166-191 *)
Definition rsplit_loop (cs : list container) (ps : list predicate) (items : list (string * rattr))
  : list (dict rattr) :=
  fold_left (fun acc kv => gput_at (route ps (fst kv) (look cs (snd kv))) (fst kv) (snd kv) acc)
            items (repeat [] (S (List.length ps))).
(** state.py:166-191 *)
Definition rsplit_state (w : rworld) (s : dict rattr) (fs : list filt) : result (list (dict rattr)) :=
  if ellipsis_misplaced fs then Err ValueError
  else do ps <- rmapM to_predicate fs; Ok (rsplit_loop (rw_cells w) ps s).

(** state.py:62-78 [State.partition], as the list of States it returns. *)
Definition rpartition (w : rworld) (s : dict rattr) (fs : list filt) : result (list (dict rattr)) :=
  match fs with
  | [] => Ok [s]
  | _ => do l <- rsplit_state w s fs;
         match last l [] with
         | [] => Ok (map gmk_state (removelast l))
         | _ => Err ValueError
         end
  end.
(** state.py:98-113 [State.filter]. *)
Definition rfilter (w : rworld) (s : dict rattr) (fs : list filt) : result (list (dict rattr)) :=
  do l <- rsplit_state w s fs; Ok (map gmk_state (removelast l)).

(** module.py:859-881 [_build_module_recursive]; see [build].  Line 877 stores the
    objects of [static_fields] themselves. *)
Fixpoint rbuild (d : rdef) (im : list (nat * nat)) (w : rworld) {struct d}
  : result (nat * list (nat * nat) * rworld) :=
  match d with
  | DRef i => match im_get i im with
              | Some r => Ok (r, im, w)
              | None => Err KeyError
              end
  | DDef c idx subs st ini =>
      match im_get idx im with
      | Some _ => Err AssertionError
      | None =>
          let r := List.length (rw_heap w) in
          let w1 := rset_heap w (rw_heap w ++ [mkRobj c 0 false (0, 0) []]) in
          do (ds, im2, w2) <-
            (fix go (l : list (string * rdef)) (im : list (nat * nat)) (w : rworld)
               : result (list (string * rattr) * list (nat * nat) * rworld) :=
               match l with
               | [] => Ok ([], im, w)
               | (name, sub) :: t =>
                   do (r', im', w') <- rbuild sub im w;
                   do (ds, im'', w'') <- go t im' w';
                   Ok ((name, RRaw (PyMod r')) :: ds, im'', w'')
               end) subs ((idx, r) :: im) w1;
          let vars := dupdate (dupdate [] st) (dict_of ds) in
          let o := mkRobj c (S (rw_uuid w2)) ini (rw_trace w2) vars in
          Ok (r, im2, mkRworld (list_set r o (rw_heap w2)) (rw_cells w2) (S (rw_uuid w2))
                               (rw_trace w2) (rw_nodes w2))
      end
  end.

(** module.py:837-843 [_set_value_at_path]; see [set_path]. *)
Fixpoint rset_path (w : rworld) (r : nat) (parts : list string) (a : rattr) : result rworld :=
  match parts with
  | [] => Err IndexError
  | [name] => rsetattr w r name a
  | name :: rest =>
      match rget_obj w r with
      | None => Err OutOfModel
      | Some o =>
          match dget name (ro_vars o) with
          | Some (RRaw (PyMod r')) => rset_path w r' rest a
          | Some _ => Err OutOfModel
          | None => if String.eqb name "_module__state" then Err OutOfModel else Err KeyError
          end
      end
  end.

(** module.py:938-940; see [update_loop]. *)
Fixpoint rupdate_loop (w : rworld) (r : nat) (items : list (string * rattr)) : rworld * result unit :=
  match items with
  | [] => (w, Ok tt)
  | (path, a) :: t =>
      match rset_path w r (split_slash path) a with
      | Ok w' => rupdate_loop w' r t
      | Err e => (w, Err e)
      end
  end.

(** module.py:924-940 [_update_module]. *)
Definition rupdate_module (w : rworld) (r : nat) (current : dict rattr) (updates : list (dict rattr))
  : rworld * result unit :=
  rupdate_loop w r (fold_left (fun acc s => dupdate acc s) (current :: updates) []).

(** module.py:145-152 [ModuleDef.merge]; see [merge]. *)
Definition rmerge (w : rworld) (d : rdef) (states : list (dict rattr)) : result (nat * rworld) :=
  do (r, _, w1) <- rbuild d [] w;
  match rupdate_module w1 r [] states with
  | (w2, Ok _) => Ok (r, w2)
  | (_, Err e) => Err e
  end.

(** module.py:637-649 [Module.update_state] with States. *)
Definition rupdate_state (w : rworld) (r : nat) (us : list (dict rattr)) : rworld * result unit :=
  match rget_state w r with
  | Err e => (w, Err e)
  | Ok current => rupdate_module w r current us
  end.

(** module.py:914-919; see [pop_match]. *)
Fixpoint rpop_match (cs : list container) (ps : list predicate) (states : list (dict rattr))
    (path : string) (a : rattr) : option (list (dict rattr)) :=
  match ps, states with
  | p :: ps', s :: states' =>
      if p path (look cs a) then Some (dset path a s :: states')
      else match rpop_match cs ps' states' path a with
           | Some l => Some (s :: l)
           | None => None
           end
  | _, _ => None
  end.
Notation rpop_result := (rworld * result (list nat * list (dict rattr)))%type.

(** module.py:907-919; see [pop_fields]. *)
Fixpoint rpop_fields (rec : rworld -> nat -> list nat -> list string -> list (dict rattr) -> rpop_result)
    (nt : list string) (ps : list predicate) (self : nat)
    (l : list (string * rattr)) (w : rworld) (mi : list nat) (parts : list string)
    (states : list (dict rattr)) : rpop_result :=
  match l with
  | [] => (w, Ok (mi, states))
  | (name, a) :: t =>
      match a with
      | RRaw (PyMod r) =>
          match rec w r mi (parts ++ [name]) states with
          | (w1, Ok (mi1, states1)) => rpop_fields rec nt ps self t w1 mi1 parts states1
          | (w1, Err e) => (w1, Err e)
          end
      | _ =>
          if is_node nt (look (rw_cells w) a) then
            match rpop_match (rw_cells w) ps states (join_path (parts ++ [name])) a with
            | Some states1 =>
                match rdelattr w self name with
                | Ok w1 => rpop_fields rec nt ps self t w1 mi parts states1
                | Err e => (w, Err e)
                end
            | None => rpop_fields rec nt ps self t w mi parts states
            end
          else rpop_fields rec nt ps self t w mi parts states
      end
  end.

(** module.py:897-921 [_pop_recursive]; see [pop_rec]. *)
Fixpoint rpop_rec (fuel : nat) (ps : list predicate) (w : rworld) (r : nat) (mi : list nat)
    (parts : list string) (states : list (dict rattr)) {struct fuel} : rpop_result :=
  match fuel with
  | 0 => (w, Err RecursionError)
  | S n =>
      match rget_obj w r with
      | None => (w, Err OutOfModel)
      | Some o =>
          if nmem (ro_id o) mi then (w, Ok (mi, states))
          else
            match rpop_fields (fun w r mi parts st => rpop_rec n ps w r mi parts st)
                              (rw_nodes w) ps r (ro_vars o) w mi parts states with
            | (w1, Ok (mi1, states1)) => (w1, Ok (mi1 ++ [ro_id o], states1))
            | (w1, Err e) => (w1, Err e)
            end
      end
  end.

(** module.py:612-623 [Module.pop_state] and 884-894 [_pop], as the list of States. *)
Definition rpop_state (fuel : nat) (w : rworld) (r : nat) (fs : list filt)
  : rworld * result (list (dict rattr)) :=
  match fs with
  | [] => (w, Err ValueError)
  | _ =>
      match rmapM to_predicate fs with
      | Err e => (w, Err e)
      | Ok ps =>
          match rpop_rec fuel ps w r [] [] (repeat [] (List.length ps)) with
          | (w1, Ok (_, states)) => (w1, Ok (map gmk_state states))
          | (w1, Err e) => (w1, Err e)
          end
      end
  end.

(** state.py:115-142 [merge], [__or__], [__sub__], for any kind of entries. *)
Definition gstate_merge {A} (first : dict A) (rest : list (dict A)) : dict A :=
  match rest with
  | [] => first
  | _ => gmk_state (fold_left (fun acc s => dupdate acc s) (first :: rest) [])
  end.
(** state.py:129-132 *)
Definition gstate_or {A} (a b : dict A) : dict A :=
  match b with [] => a | _ => gstate_merge a [b] end.
(** state.py:134-142 *)
Definition gstate_sub {A} (a b : dict A) : dict A :=
  match b with
  | [] => a
  | _ => filter (fun kv => negb (dmem (fst kv) b)) a
  end.

(** ** Programs *)

(** What a program needs from the library: [W] the interpreter state, [A] what a State
    entry is, [D] definitions. (the API of module.py:441-701 and state.py:17-142) *)
Record ops (W A D : Type) := mkOps {
  o_new : W -> cls -> nat * W;
  o_cont : W -> container -> A * W;
  o_raw : pyval -> A;
  o_show : W -> A -> attr;
  o_get : W -> nat -> string -> result read_result;
  o_attr : W -> nat -> string -> result A;
  o_set : W -> nat -> string -> A -> result W;
  o_del : W -> nat -> string -> result W;
  o_state : W -> nat -> result (dict A);
  o_def : W -> nat -> result D;
  o_part : W -> dict A -> list filt -> result (list (dict A));
  o_filter : W -> dict A -> list filt -> result (list (dict A));
  o_merge : W -> D -> list (dict A) -> result (nat * W);
  o_update : W -> nat -> list (dict A) -> W * result unit;
  o_pop : nat -> W -> nat -> list filt -> W * result (list (dict A));
  o_write : W -> A -> string -> pyval -> result W;
  o_trace : W -> trace_state -> W
}.
Arguments o_new {W A D}. Arguments o_cont {W A D}. Arguments o_raw {W A D}.
Arguments o_show {W A D}. Arguments o_get {W A D}. Arguments o_set {W A D}. Arguments o_attr {W A D}.
Arguments o_del {W A D}. Arguments o_state {W A D}. Arguments o_def {W A D}.
Arguments o_part {W A D}. Arguments o_filter {W A D}. Arguments o_merge {W A D}.
Arguments o_update {W A D}. Arguments o_pop {W A D}. Arguments o_write {W A D}.
Arguments o_trace {W A D}.

(** The library with containers as objects. (the instance of [ops] for module.py:441-701 with references) *)
Definition objects : ops rworld rattr rdef :=
  mkOps _ _ _ rnew_module ralloc RRaw (fun w a => look (rw_cells w) a)
    rgetattr rvars rsetattr rdelattr rget_state rget_module_def rpartition rfilter rmerge rupdate_state
    rpop_state rwrite
    (fun w t => mkRworld (rw_heap w) (rw_cells w) (rw_uuid w) t (rw_nodes w)).

(** ModuleM and StateM: containers by value.  There a write to a container has nothing to
    write to. (the instance of [ops] for module.py:441-701 in ModuleM and StateM) *)
Definition by_value : ops world attr mdef :=
  mkOps _ _ _ new_module (fun w c => (ACont c, w)) ARaw (fun _ a => a)
    getattr
    (fun w r name => match get_obj w r with
                     | None => Err OutOfModel
                     | Some o => match dget name (m_vars o) with Some a => Ok a | None => Err KeyError end
                     end)
    setattr delattr get_state get_module_def
    (fun _ s fs => rmap sts_list (partition_state s fs))
    (fun _ s fs => match fs with [] => Ok [] | f :: t => rmap sts_list (state_filter s f t) end)
    merge (fun w r us => update_state w r (UStates (Many us)))
    (fun fuel w r fs => let '(w1, x) := pop_state fuel w r fs in (w1, rmap sts_list x))
    (fun w _ _ _ => Err OutOfModel)
    (fun w t => mkWorld (w_heap w) (w_uuid w) t (w_nodes w)).

(** The statements of a program.  Its variables are kept in four growing lists (Modules,
    definitions, States, values); a statement that makes something appends it, and a
    statement refers to a variable by its position. (user programs over the API of module.py:441-701, state.py:17-142) *)
Inductive arg : Type :=
| GVal (v : pyval)       (** a plain value *)
| GVar (x : nat)         (** a value variable, e.g. a container *)
| GMod (m : nat).        (** a Module variable *)
(** user programs over the API of module.py:441-701, state.py:17-142 *)
Inductive cmd : Type :=
| KNew (c : cls)                                   (** [m = C()] *)
| KCont (c : cls) (v : pyval) (md : dict pyval)    (** [x = Param(v, k=...)] *)
| KSet (m : nat) (name : string) (a : arg)         (** [m.name = a] *)
| KDel (m : nat) (name : string)                   (** [del m.name] *)
| KGet (m : nat) (name : string)                   (** [print(m.name)] *)
| KState (m : nat)                                 (** [s = m.get_state()] *)
| KPart (m : nat) (fs : list filt)                 (** [( *ss, ), d = m.partition( *fs )] *)
| KFilter (s : nat) (fs : list filt)               (** [ss = s.filter( *fs )] *)
| KOr (s t : nat)                                  (** [u = s | t] *)
| KSub (s t : nat)                                 (** [u = s - t] *)
| KMerge (d : nat) (ss : list nat)                 (** [m = d.merge( *ss )] *)
| KUpdate (m : nat) (ss : list nat)                (** [m.update_state(ss)] *)
| KPop (fuel : nat) (m : nat) (fs : list filt)     (** [ss = m.pop_state( *fs )] *)
| KItem (s : nat) (path : string)                  (** [x = s[path]] *)
| KAttr (m : nat) (name : string)                  (** [x = vars(m)[name]] *)
| KShow (x : nat)                                  (** [print(x)] *)
| KPrint (s : nat)                                 (** [print(s)] *)
| KWrite (x : nat) (field : string) (v : pyval)    (** [x.field = v] *)
| KTrace (t : trace_state).                        (** enter or leave a jax / nnx trace *)

(** What a statement prints; a statement that raises prints the error and the program
    goes on (as in a [try]). (user programs over the API of module.py:441-701, state.py:17-142) *)
Inductive out : Type :=
| ODone
| OErr (e : exn)
| ORead (x : read_result)
| OVal (a : attr)
| OState (s : state).

Section Run.
Context {W A D : Type}.
Variable O : ops W A D.

(** the variables of a user program; no code in /repo *)
Record conf := mkConf {
  f_world : W;
  f_mods : list nat;
  f_defs : list D;
  f_states : list (dict A);
  f_vals : list A
}.

(** a variable that is not there. (the variables of a user program; no code in /repo) *)
Definition undefined : conf -> conf * out := fun f => (f, OErr OutOfModel).
(** the variables of a user program; no code in /repo *)
Definition with_world (f : conf) (w : W) : conf :=
  mkConf w (f_mods f) (f_defs f) (f_states f) (f_vals f).
(** the variables of a user program; no code in /repo *)
Definition add_mod (f : conf) (w : W) (r : nat) : conf :=
  mkConf w (f_mods f ++ [r]) (f_defs f) (f_states f) (f_vals f).
(** the variables of a user program; no code in /repo *)
Definition add_def (f : conf) (d : D) : conf :=
  mkConf (f_world f) (f_mods f) (f_defs f ++ [d]) (f_states f) (f_vals f).
(** the variables of a user program; no code in /repo *)
Definition add_states (f : conf) (ss : list (dict A)) : conf :=
  mkConf (f_world f) (f_mods f) (f_defs f) (f_states f ++ ss) (f_vals f).
(** the variables of a user program; no code in /repo *)
Definition add_val (f : conf) (a : A) : conf :=
  mkConf (f_world f) (f_mods f) (f_defs f) (f_states f) (f_vals f ++ [a]).
(** reading a State, state.py:33-46 *)
Definition show_state (w : W) (s : dict A) : state :=
  map (fun kv => (fst kv, o_show O w (snd kv))) s.

(** an argument. (reading a user's variables; no code in /repo) *)
Definition arg_of (f : conf) (a : arg) : option A :=
  match a with
  | GVal v => Some (o_raw O v)
  | GVar x => nth_error (f_vals f) x
  | GMod m => match nth_error (f_mods f) m with Some r => Some (o_raw O (PyMod r)) | None => None end
  end.
(** reading a user's variables; no code in /repo *)
Fixpoint vars_of {B} (l : list B) (xs : list nat) : option (list B) :=
  match xs with
  | [] => Some []
  | x :: t => match nth_error l x, vars_of l t with
              | Some b, Some bs => Some (b :: bs)
              | _, _ => None
              end
  end.

(** running a user program that calls module.py:441-701 and state.py:17-142 *)
Definition step (f : conf) (k : cmd) : conf * out :=
  let w := f_world f in
  match k with
  | KNew c => let '(r, w1) := o_new O w c in (add_mod f w1 r, ODone)
  | KCont c v md =>
      match container_call c (CVal v) md with
      | Err e => (f, OErr e)
      | Ok x => let '(a, w1) := o_cont O w x in (add_val (with_world f w1) a, ODone)
      end
  | KSet m name a =>
      match nth_error (f_mods f) m, arg_of f a with
      | Some r, Some x => match o_set O w r name x with
                          | Ok w1 => (with_world f w1, ODone)
                          | Err e => (f, OErr e)
                          end
      | _, _ => undefined f
      end
  | KDel m name =>
      match nth_error (f_mods f) m with
      | Some r => match o_del O w r name with
                  | Ok w1 => (with_world f w1, ODone)
                  | Err e => (f, OErr e)
                  end
      | None => undefined f
      end
  | KGet m name =>
      match nth_error (f_mods f) m with
      | Some r => match o_get O w r name with
                  | Ok x => (f, ORead x)
                  | Err e => (f, OErr e)
                  end
      | None => undefined f
      end
  | KState m =>
      match nth_error (f_mods f) m with
      | Some r => match o_state O w r with
                  | Ok s => (add_states f [s], OState (show_state w s))
                  | Err e => (f, OErr e)
                  end
      | None => undefined f
      end
  | KPart m fs =>
      match nth_error (f_mods f) m with
      | Some r =>
          match o_def O w r with
          | Err e => (f, OErr e)
          | Ok d => match o_state O w r with
                    | Err e => (f, OErr e)
                    | Ok s => match o_part O w s fs with
                              | Err e => (f, OErr e)
                              | Ok ss => (add_states (add_def f d) ss, ODone)
                              end
                    end
          end
      | None => undefined f
      end
  | KFilter s fs =>
      match nth_error (f_states f) s with
      | Some x => match o_filter O w x fs with
                  | Ok ss => (add_states f ss, ODone)
                  | Err e => (f, OErr e)
                  end
      | None => undefined f
      end
  | KOr s t =>
      match nth_error (f_states f) s, nth_error (f_states f) t with
      | Some x, Some y => (add_states f [gstate_or x y], ODone)
      | _, _ => undefined f
      end
  | KSub s t =>
      match nth_error (f_states f) s, nth_error (f_states f) t with
      | Some x, Some y => (add_states f [gstate_sub x y], ODone)
      | _, _ => undefined f
      end
  | KMerge d ss =>
      match nth_error (f_defs f) d, vars_of (f_states f) ss with
      | Some x, Some l => match o_merge O w x l with
                          | Ok (r, w1) => (add_mod f w1 r, ODone)
                          | Err e => (f, OErr e)
                          end
      | _, _ => undefined f
      end
  | KUpdate m ss =>
      match nth_error (f_mods f) m, vars_of (f_states f) ss with
      | Some r, Some l => match o_update O w r l with
                          | (w1, Ok _) => (with_world f w1, ODone)
                          | (w1, Err e) => (with_world f w1, OErr e)
                          end
      | _, _ => undefined f
      end
  | KPop fuel m fs =>
      match nth_error (f_mods f) m with
      | Some r => match o_pop O fuel w r fs with
                  | (w1, Ok ss) => (add_states (with_world f w1) ss, ODone)
                  | (w1, Err e) => (with_world f w1, OErr e)
                  end
      | None => undefined f
      end
  | KItem s path =>
      match nth_error (f_states f) s with
      | Some x => match dget path x with
                  | Some a => (add_val f a, OVal (o_show O w a))
                  | None => (f, OErr KeyError)
                  end
      | None => undefined f
      end
  | KAttr m name =>
      match nth_error (f_mods f) m with
      | Some r => match o_attr O w r name with
                  | Ok a => (add_val f a, OVal (o_show O w a))
                  | Err e => (f, OErr e)
                  end
      | None => undefined f
      end
  | KShow x =>
      match nth_error (f_vals f) x with
      | Some a => (f, OVal (o_show O w a))
      | None => undefined f
      end
  | KPrint s =>
      match nth_error (f_states f) s with
      | Some x => (f, OState (show_state w x))
      | None => undefined f
      end
  | KWrite x field v =>
      match nth_error (f_vals f) x with
      | Some a => match o_write O w a field v with
                  | Ok w1 => (with_world f w1, ODone)
                  | Err e => (f, OErr e)
                  end
      | None => undefined f
      end
  | KTrace t => (with_world f (o_trace O w t), ODone)
  end.

(** running a user program that calls module.py:441-701 and state.py:17-142 *)
Fixpoint run (f : conf) (p : list cmd) : conf * list out :=
  match p with
  | [] => (f, [])
  | k :: t => let '(f1, o) := step f k in
              let '(f2, os) := run f1 t in (f2, o :: os)
  end.

(** a program starts with no variables. (running a user program that calls module.py:441-701 and state.py:17-142) *)
Definition start (w : W) : conf := mkConf w [] [] [] [].
End Run.
Arguments conf : clear implicits.
