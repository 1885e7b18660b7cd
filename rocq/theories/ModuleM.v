(** ModuleM: models nnx/module.py (Module, ModuleDef, Pure and the graph
    traversals behind them). *)
From Verif Require Import PyBase ValuesM FiltersM StateM.
Local Open Scope string_scope.
Local Open Scope list_scope.

(** ** The heap of Module objects *)

(** tracers.py:75-90 [TraceState]: the jax and nnx main traces current at
    creation, as identities. *)
Notation trace_state := (nat * nat)%type.

(** A Module object: its class, the three slots of [ModuleState]
    (module.py:383-389) and [vars(self)] without the ["_module__state"] entry
    (which is the ModuleState itself and is kept as separate fields). *)
Record mobj := mkMobj {
  m_cls : cls;
  m_id : nat;
  m_init : bool;
  m_trace : trace_state;
  m_vars : dict attr
}.

(** The interpreter state the module functions read and write: all Module
    objects ever allocated (a reference is an index), the uuid counter
    (ids.py:20-39), the current (jax, nnx) traces (tracers.py:28-72) and the
    registered node types (nodes.py:6-15). *)
Record world := mkWorld {
  w_heap : list mobj;
  w_uuid : nat;
  w_trace : trace_state;
  w_nodes : list string
}.

(** record update of the model; memory of the objects that module.py:383-468 reads and writes *)
Definition set_heap (w : world) (h : list mobj) : world :=
  mkWorld h (w_uuid w) (w_trace w) (w_nodes w).
(** record update of the model; memory of the objects that module.py:383-468 reads and writes *)
Definition set_vars (o : mobj) (d : dict attr) : mobj :=
  mkMobj (m_cls o) (m_id o) (m_init o) (m_trace o) d.
(** record update of the model; memory of the objects that module.py:383-468 reads and writes *)
Definition set_init (o : mobj) (b : bool) : mobj :=
  mkMobj (m_cls o) (m_id o) b (m_trace o) (m_vars o).
(** record update of the model; memory of the objects that module.py:383-468 reads and writes *)
Definition put_obj (w : world) (r : nat) (o : mobj) : world :=
  set_heap w (list_set r o (w_heap w)).
(** record update of the model; memory of the objects that module.py:383-468 reads and writes *)
Definition get_obj (w : world) (r : nat) : option mobj := nth_error (w_heap w) r.

(** tracers.py:90-94 [TraceState.is_valid]: identity of both traces. *)
Definition trace_valid (w : world) (t : trace_state) : bool :=
  Nat.eqb (fst t) (fst (w_trace w)) && Nat.eqb (snd t) (snd (w_trace w)).

(** module.py:417-420 [ModuleMeta._meta_call]: [__new__] and a fresh
    [ModuleState()] (386-389); running [__init__] is whatever assignments the
    caller performs next on the new reference. *)
Definition new_module (w : world) (c : cls) : nat * world :=
  (List.length (w_heap w),
   mkWorld (w_heap w ++ [mkMobj c (S (w_uuid w)) false (w_trace w) []])
           (S (w_uuid w)) (w_trace w) (w_nodes w)).

(** ** Attribute access *)

(** module.py:447-453 [__getattribute__] on an instance attribute.  A container
    that has an [unbox_fn] attribute is read as the result of calling it on the
    container, kept symbolic here. *)
Inductive read_result : Type :=
| RVal (v : pyval)
| RUnbox (fn : pyval) (c : container).
(** module.py:447-453 *)
Definition read_attr (a : attr) : read_result :=
  match a with
  | ARaw v => RVal v
  | ACont c => match dget "unbox_fn" (c_meta c) with
               | Some fn => RUnbox fn c
               | None => RVal (c_val c)
               end
  end.
(** [getattr(module, name)] for instance attributes (class attributes and
    descriptors are not modelled). (module.py:447-453) *)
Definition getattr (w : world) (r : nat) (name : string) : result read_result :=
  match get_obj w r with
  | None => Err OutOfModel
  | Some o => match dget name (m_vars o) with
              | Some a => Ok (read_attr a)
              | None => Err AttributeError
              end
  end.

(** module.py:462-468: what is stored when [value] is assigned to a slot that
    currently holds [old]. *)
Definition assign_value (old : option attr) (value : attr) : result attr :=
  match old with
  | Some (ACont c) => rmap ACont (container_replace c (Some value) [])
  | _ => match value with
         | ACont c => rmap ACont (container_copy c)
         | ARaw v => Ok (ARaw v)
         end
  end.

(** module.py:458-468 [Module._setattr].  Assigning the reserved name
    ["_module__state"] destroys the module and is not modelled. *)
Definition setattr (w : world) (r : nat) (name : string) (value : attr) : result world :=
  match get_obj w r with
  | None => Err OutOfModel
  | Some o =>
      if negb (trace_valid w (m_trace o)) then Err TraceContextError
      else if String.eqb name "_module__state" then Err OutOfModel
      else do a <- assign_value (dget name (m_vars o)) value;
           Ok (put_obj w r (set_vars o (dset name a (m_vars o))))
  end.

(** [delattr(module, name)]: Module does not override [__delattr__], so there is
    no trace check. (module.py:441-468) *)
Definition delattr (w : world) (r : nat) (name : string) : result world :=
  match get_obj w r with
  | None => Err OutOfModel
  | Some o =>
      if dmem name (m_vars o)
      then Ok (put_obj w r (set_vars o (ddel name (m_vars o))))
      else Err AttributeError
  end.

(** ** ModuleDef *)

(** module.py:86-101.  [MRef i] is the [int] that stands for an already visited
    submodule; [MDef] has type, index, submodules, static_fields and
    module_state (the one-element tuple [(is_initializing,)]). *)
Inductive mdef : Type :=
| MRef (i : nat)
| MDef (c : cls) (index : nat) (subs : list (string * mdef))
       (statics : list (string * attr)) (init : bool).

(** [==] on attribute values: containers by [Container.__eq__], others by [==]. (used at module.py:114-121) *)
Definition attr_eqb (a b : attr) : bool :=
  match a, b with
  | ARaw x, ARaw y => pyval_eqb x y
  | ACont c, ACont d => cont_eqb c d
  | _, _ => false
  end.
(** used at module.py:114-121 *)
Fixpoint statics_eqb (a b : list (string * attr)) : bool :=
  match a, b with
  | [], [] => true
  | (n, x) :: a', (m, y) :: b' => String.eqb n m && attr_eqb x y && statics_eqb a' b'
  | _, _ => false
  end.

(** module.py:114-121 [ModuleDef.__eq__] (index and module_state are ignored);
    an int equals only an equal int. *)
Fixpoint mdef_eqb (a b : mdef) {struct a} : bool :=
  match a, b with
  | MRef i, MRef j => Nat.eqb i j
  | MDef c _ subs st _, MDef c' _ subs' st' _ =>
      cls_eqb c c' &&
      ((fix go (x y : list (string * mdef)) : bool :=
         match x, y with
         | [], [] => true
         | (n, d) :: x', (m, e) :: y' => String.eqb n m && mdef_eqb d e && go x' y'
         | _, _ => false
         end) subs subs') &&
      statics_eqb st st'
  | _, _ => false
  end.

(** module.py:111-112 [ModuleDef.__hash__]: some function [h] of the tuple
    (type, submodules, static_fields), where nested definitions are hashed the
    same way.  [hc], [ha] are the hashes of classes and attribute values. *)
Section Hash.
Variables (hc : cls -> nat) (ha : attr -> nat) (hs : string -> nat) (hn : nat -> nat)
          (mix : list nat -> nat).
(** module.py:111-112 *)
Fixpoint mdef_hash (d : mdef) : nat :=
  match d with
  | MRef i => hn i
  | MDef c _ subs st _ =>
      mix [hc c;
           mix (map (fun nd => mix [hs (fst nd); mdef_hash (snd nd)]) subs);
           mix (map (fun na => mix [hs (fst na); ha (snd na)]) st)]
  end.
End Hash.

(** ** Graph traversals *)

(** module.py:795-801: the loop of [_make_module_def_recursive] over the sorted
    attributes; [rec] is the recursive call. *)
Fixpoint make_fields (rec : nat -> list nat -> result (mdef * list nat)) (nt : list string)
    (l : list (string * attr)) (mi : list nat)
  : result (list (string * mdef) * list (string * attr) * list nat) :=
  match l with
  | [] => Ok ([], [], mi)
  | (name, a) :: t =>
      match a with
      | ARaw (PyMod r) =>
          do (d, mi1) <- rec r mi;
          do (subs, st, mi2) <- make_fields rec nt t mi1;
          Ok ((name, d) :: subs, st, mi2)
      | _ =>
          do (subs, st, mi2) <- make_fields rec nt t mi;
          if negb (is_node nt a) && negb (starts_with "_module__" name)
          then Ok (subs, (name, a) :: st, mi2)
          else Ok (subs, st, mi2)
      end
  end.

(** module.py:781-810 [_make_module_def_recursive].  [mi] is [module_index]: the
    ids in insertion order, the index of an id being its position. *)
Fixpoint make_def (fuel : nat) (w : world) (r : nat) (mi : list nat) {struct fuel}
  : result (mdef * list nat) :=
  match fuel with
  | 0 => Err RecursionError
  | S n =>
      match get_obj w r with
      | None => Err OutOfModel
      | Some o =>
          match index_of (m_id o) mi with
          | Some i => Ok (MRef i, mi)
          | None =>
              do (subs, st, mi') <- make_fields (make_def n w) (w_nodes w)
                                                (sort_by_key (m_vars o)) (mi ++ [m_id o]);
              Ok (MDef (m_cls o) (List.length mi) subs st (m_init o), mi')
          end
      end
  end.

(** Enough fuel for any traversal with a visited set: each nested call visits a
    new module.  Python's own recursion limit is not modelled. (a bound for the recursion of module.py:781-834, 685-701) *)
Definition dfs_fuel (w : world) : nat := S (List.length (w_heap w)).

(** module.py:771-778 [_get_module_def] / 562 [get_module_def]. *)
Definition get_module_def (w : world) (r : nat) : result mdef :=
  do (d, _) <- make_def (dfs_fuel w) w r [];
  match d with MDef _ _ _ _ _ => Ok d | MRef _ => Err AssertionError end.

(** module.py:828-834: the loop of [_iter_state_recursive]. *)
Fixpoint iter_fields (rec : nat -> list nat -> list string -> result (list (string * attr) * list nat))
    (nt : list string) (l : list (string * attr)) (seen : list nat) (parts : list string)
  : result (list (string * attr) * list nat) :=
  match l with
  | [] => Ok ([], seen)
  | (name, a) :: t =>
      match a with
      | ARaw (PyMod r) =>
          do (xs, seen1) <- rec r seen (parts ++ [name]);
          do (ys, seen2) <- iter_fields rec nt t seen1 parts;
          Ok (xs ++ ys, seen2)
      | _ =>
          do (ys, seen2) <- iter_fields rec nt t seen parts;
          if is_node nt a then Ok ((join_path (parts ++ [name]), a) :: ys, seen2)
          else Ok (ys, seen2)
      end
  end.

(** module.py:820-834 [_iter_state_recursive]. *)
Fixpoint iter_state_rec (fuel : nat) (w : world) (r : nat) (seen : list nat) (parts : list string)
  {struct fuel} : result (list (string * attr) * list nat) :=
  match fuel with
  | 0 => Err RecursionError
  | S n =>
      match get_obj w r with
      | None => Err OutOfModel
      | Some o =>
          if nmem (m_id o) seen then Ok ([], seen)
          else iter_fields (iter_state_rec n w) (w_nodes w) (sort_by_key (m_vars o))
                           (seen ++ [m_id o]) parts
      end
  end.

(** module.py:813-817 [_iter_state]. *)
Definition iter_state (w : world) (r : nat) : result (list (string * attr)) :=
  do (xs, _) <- iter_state_rec (dfs_fuel w) w r [] [];
  Ok xs.

(** module.py:767-768 [_get_module_state] / 559 [Module.get_state]. *)
Definition get_state (w : world) (r : nat) : result state :=
  do xs <- iter_state w r; Ok (mk_state xs).

(** ** Pure and partition *)

(** module.py:192-204 [Pure]: the states (one or a tuple) and the definition. *)
Record pure := mkPure { p_states : sts; p_def : mdef }.

(** module.py:547-552 / 287-292: dispatch on the number of filters. *)
Definition partition_state (s : state) (fs : list filt) : result sts :=
  match fs with
  | [] => Ok (One s)
  | f :: rest => state_partition s f rest
  end.

(** module.py:541-557 [Module.partition]. *)
Definition module_partition (w : world) (r : nat) (fs : list filt) : result pure :=
  do d <- get_module_def w r;
  do s <- get_state w r;
  do x <- partition_state s fs;
  Ok (mkPure x d).

(** module.py:579-592 [Module.filter] (at least one filter by its signature). *)
Definition module_filter (w : world) (r : nat) (f : filt) (fs : list filt) : result sts :=
  do s <- get_state w r; state_filter s f fs.

(** ** Building a module from its definition *)

(** the dict [index_to_module] of module.py:853-881 *)
Fixpoint im_get (i : nat) (im : list (nat * nat)) : option nat :=
  match im with
  | [] => None
  | (j, r) :: t => if Nat.eqb i j then Some r else im_get i t
  end.

(** module.py:859-881 [_build_module_recursive].  [im] is [index_module].  The
    object made by [object.__new__] is a placeholder that is not read before it
    is completed at the end of the call. *)
Fixpoint build (d : mdef) (im : list (nat * nat)) (w : world) {struct d}
  : result (nat * list (nat * nat) * world) :=
  match d with
  | MRef i => match im_get i im with
              | Some r => Ok (r, im, w)
              | None => Err KeyError
              end
  | MDef c idx subs st ini =>
      match im_get idx im with
      | Some _ => Err AssertionError
      | None =>
          let r := List.length (w_heap w) in
          let w1 := set_heap w (w_heap w ++ [mkMobj c 0 false (0, 0) []]) in
          do (ds, im2, w2) <-
            (fix go (l : list (string * mdef)) (im : list (nat * nat)) (w : world)
               : result (list (string * attr) * list (nat * nat) * world) :=
               match l with
               | [] => Ok ([], im, w)
               | (name, sub) :: t =>
                   do (r', im', w') <- build sub im w;
                   do (ds, im'', w'') <- go t im' w';
                   Ok ((name, ARaw (PyMod r')) :: ds, im'', w'')
               end) subs ((idx, r) :: im) w1;
          let vars := dupdate (dupdate [] st) (dict_of ds) in
          let o := mkMobj c (S (w_uuid w2)) ini (w_trace w2) vars in
          Ok (r, im2, mkWorld (list_set r o (w_heap w2)) (S (w_uuid w2)) (w_trace w2) (w_nodes w2))
      end
  end.

(** module.py:853-856 [_build_module]. *)
Definition build_module (w : world) (d : mdef) : result (nat * world) :=
  do (r, _, w') <- build d [] w; Ok (r, w').

(** module.py:837-843 [_set_value_at_path].  Descending into an attribute that
    is not a Module is not modelled. *)
Fixpoint set_path (w : world) (r : nat) (parts : list string) (a : attr) : result world :=
  match parts with
  | [] => Err IndexError
  | [name] => setattr w r name a
  | name :: rest =>
      match get_obj w r with
      | None => Err OutOfModel
      | Some o =>
          match dget name (m_vars o) with
          | Some (ARaw (PyMod r')) => set_path w r' rest a
          | Some _ => Err OutOfModel
          | None => if String.eqb name "_module__state" then Err OutOfModel else Err KeyError
          end
      end
  end.

(** module.py:938-940: the assignments of [_update_module], one after the other;
    when one raises, the previous ones stay. *)
Fixpoint update_loop (w : world) (r : nat) (items : list (string * attr)) : world * result unit :=
  match items with
  | [] => (w, Ok tt)
  | (path, a) :: t =>
      match set_path w r (split_slash path) a with
      | Ok w' => update_loop w' r t
      | Err e => (w, Err e)
      end
  end.

(** module.py:924-940 [_update_module]. *)
Definition update_module (w : world) (r : nat) (current : state) (updates : list state)
  : world * result unit :=
  update_loop w r (fold_left (fun acc s => dupdate acc s) (current :: updates) []).

(** module.py:145-152 [ModuleDef.merge].  If it raises, the half-built module is
    unreachable; the world is left as it was. *)
Definition merge (w : world) (d : mdef) (states : list state) : result (nat * world) :=
  do (r, w1) <- build_module w d;
  match update_module w1 r [] states with
  | (w2, Ok _) => Ok (r, w2)
  | (_, Err e) => Err e
  end.

(** module.py:206-210 [Pure.merge]. *)
Definition pure_merge (w : world) (p : pure) : result (nat * world) :=
  merge w (p_def p) (sts_list (p_states p)).

(** module.py:520-521 [Module.clone]. *)
Definition clone (w : world) (r : nat) : result (nat * world) :=
  do p <- module_partition w r []; pure_merge w p.

(** What can be passed to [update_state]. (module.py:637-649) *)
Inductive updates : Type :=
| UModule (r : nat)
| UPure (p : pure)
| UStates (x : sts).

(** module.py:637-649 [Module.update_state]. *)
Definition update_state (w : world) (r : nat) (u : updates) : world * result unit :=
  match get_state w r with
  | Err e => (w, Err e)
  | Ok current =>
      match u with
      | UPure p => update_module w r current (sts_list (p_states p))
      | UStates x => update_module w r current (sts_list x)
      | UModule r' =>
          match get_obj w r, get_obj w r' with
          | Some o, Some o' =>
              if cls_eqb (m_cls o) (m_cls o') then
                match get_state w r' with
                | Ok s => update_module w r current [s]
                | Err e => (w, Err e)
                end
              else (w, Err AssertionError)
          | _, _ => (w, Err OutOfModel)
          end
      end
  end.

(** ** pop_state *)

(** module.py:914-919: try the predicates in order. *)
Fixpoint pop_match (ps : list predicate) (states : list (dict attr)) (path : string) (a : attr)
  : option (list (dict attr)) :=
  match ps, states with
  | p :: ps', s :: states' =>
      if p path a then Some (dset path a s :: states')
      else match pop_match ps' states' path a with
           | Some l => Some (s :: l)
           | None => None
           end
  | _, _ => None
  end.

(** Result of popping: the world reached (also when an exception is raised),
    [module_index] and the popped dicts. *)
Notation pop_result := (world * result (list nat * list (dict attr)))%type.

(** module.py:907-919: the loop over the (snapshot of the) attributes. *)
Fixpoint pop_fields (rec : world -> nat -> list nat -> list string -> list (dict attr) -> pop_result)
    (nt : list string) (ps : list predicate) (self : nat)
    (l : list (string * attr)) (w : world) (mi : list nat) (parts : list string)
    (states : list (dict attr)) : pop_result :=
  match l with
  | [] => (w, Ok (mi, states))
  | (name, a) :: t =>
      match a with
      | ARaw (PyMod r) =>
          match rec w r mi (parts ++ [name]) states with
          | (w1, Ok (mi1, states1)) => pop_fields rec nt ps self t w1 mi1 parts states1
          | (w1, Err e) => (w1, Err e)
          end
      | _ =>
          if is_node nt a then
            match pop_match ps states (join_path (parts ++ [name])) a with
            | Some states1 =>
                match delattr w self name with
                | Ok w1 => pop_fields rec nt ps self t w1 mi parts states1
                | Err e => (w, Err e)
                end
            | None => pop_fields rec nt ps self t w mi parts states
            end
          else pop_fields rec nt ps self t w mi parts states
      end
  end.

(** module.py:897-921 [_pop_recursive]: the module is added to [module_index]
    only after its attributes have been processed. *)
Fixpoint pop_rec (fuel : nat) (ps : list predicate) (w : world) (r : nat) (mi : list nat)
    (parts : list string) (states : list (dict attr)) {struct fuel} : pop_result :=
  match fuel with
  | 0 => (w, Err RecursionError)
  | S n =>
      match get_obj w r with
      | None => (w, Err OutOfModel)
      | Some o =>
          if nmem (m_id o) mi then (w, Ok (mi, states))
          else
            match pop_fields (fun w r mi parts st => pop_rec n ps w r mi parts st)
                             (w_nodes w) ps r (m_vars o) w mi parts states with
            | (w1, Ok (mi1, states1)) => (w1, Ok (mi1 ++ [m_id o], states1))
            | (w1, Err e) => (w1, Err e)
            end
      end
  end.

(** module.py:612-623 [Module.pop_state] and 884-894 [_pop]. *)
Definition pop_state (fuel : nat) (w : world) (r : nat) (fs : list filt) : world * result sts :=
  match fs with
  | [] => (w, Err ValueError)
  | _ =>
      match rmapM to_predicate fs with
      | Err e => (w, Err e)
      | Ok ps =>
          match pop_rec fuel ps w r [] [] (repeat [] (List.length ps)) with
          | (w1, Ok (_, states)) => (w1, Ok (pack states))
          | (w1, Err e) => (w1, Err e)
          end
      end
  end.

(** ** for_each, init, sow *)

Section ForEach.
(** The callback: [fn s r] for the module [r], where [s] is whatever state the
    callback can change, including the world ([wof s]). *)
Context {S' : Type}.
Variable wof : S' -> world.
Variable fn : S' -> nat -> result S'.
Variable ty : string.

(** module.py:699-701: the loop over [vars(self).values()].  Callbacks that
    change the attribute dict of a module that is being iterated are not
    modelled (Python raises RuntimeError when its size changes). *)
Fixpoint on_all_fields (rec : S' -> nat -> list nat -> result (S' * list nat))
    (l : list (string * attr)) (s : S') (visited : list nat) : result (S' * list nat) :=
  match l with
  | [] => Ok (s, visited)
  | (_, ARaw (PyMod r)) :: t =>
      do (s1, v1) <- rec s r visited; on_all_fields rec t s1 v1
  | _ :: t => on_all_fields rec t s visited
  end.

(** module.py:685-701 [_on_all]. *)
Fixpoint on_all (fuel : nat) (s : S') (r : nat) (visited : list nat) {struct fuel}
  : result (S' * list nat) :=
  match fuel with
  | 0 => Err RecursionError
  | S n =>
      match get_obj (wof s) r with
      | None => Err OutOfModel
      | Some o =>
          if nmem (m_id o) visited then Ok (s, visited)
          else
            do s1 <- (if smem ty (m_cls o) then fn s r else Ok s);
            match get_obj (wof s1) r with
            | None => Err OutOfModel
            | Some o1 => on_all_fields (on_all n) (m_vars o1) s1 (visited ++ [m_id o])
            end
      end
  end.

(** module.py:681-683 [for_each]. *)
Definition for_each (fuel : nat) (s : S') (r : nat) : result S' :=
  do (s1, _) <- on_all fuel s r []; Ok s1.
End ForEach.

(** module.py:504-505 [_set_is_initializing]. *)
Definition set_initializing (b : bool) (w : world) (r : nat) : result world :=
  match get_obj w r with
  | None => Err OutOfModel
  | Some o => Ok (put_obj w r (set_init o b))
  end.
(** module.py:503-512 *)
Definition set_init_all (b : bool) (w : world) (r : nat) : result world :=
  for_each (fun w => w) (set_initializing b) "Module" (dfs_fuel w) w r.

(** module.py:500-514 [Module.init]: [body] is the call [accessor(self)( *args )]. *)
Definition init_call {A} (w : world) (r : nat) (body : world -> world * result A) : world * result A :=
  match set_init_all true w r with
  | Err e => (w, Err e)
  | Ok w1 =>
      let '(w2, res) := body w1 in
      match set_init_all false w2 r with
      | Err e => (w2, Err e)
      | Ok w3 => (w3, res)
      end
  end.

(** module.py:654-679 [Module.sow].  [class_has n]: name [n] resolves on the
    class (methods, properties), which [hasattr] also sees. *)
Definition sow (class_has : string -> bool) (w : world) (r : nat) (vt : cls) (name : string) (v : pyval)
  : result world :=
  match get_obj w r with
  | None => Err OutOfModel
  | Some o =>
      if dmem name (m_vars o) || class_has name then
        match dget name (m_vars o) with
        | None => Err KeyError
        | Some a =>
            match a with
            | ACont c =>
                if negb (smem "Variable" (c_cls c)) then Err ValueError
                else if negb (cls_eqb (c_cls c) vt) then Err ValueError
                else match c_val c with
                     | PyTuple l => setattr w r name (ARaw (PyTuple (l ++ [v])))
                     | _ => Err ValueError
                     end
            | ARaw _ => Err ValueError
            end
        end
      else
        do c <- container_call vt (CVal (PyTuple [v])) [];
        setattr w r name (ACont c)
  end.

(** module.py:846-850 [_get_value_path] as used by MutableLeaf (735-748): the
    module that owns the leaf.  A path that goes on inside something that is no Module
    ([vars] of a container or a value) is not modelled. *)
Fixpoint value_path (w : world) (r : nat) (parts : list string) : result nat :=
  match parts with
  | [] => Ok r
  | name :: rest =>
      match get_obj w r with
      | None => Err OutOfModel
      | Some o => match dget name (m_vars o) with
                  | Some (ARaw (PyMod r')) => value_path w r' rest
                  | Some _ => match rest with [] => Err ValueError | _ => Err OutOfModel end
                  | None => Err KeyError
                  end
      end
  end.

(** module.py:735-756 [MutableLeaf]: owner and name; [value] getter and setter. *)
Definition mutable_leaf (w : world) (r : nat) (path : string) : result (nat * string) :=
  let parts := split_slash path in
  do owner <- value_path w r (removelast parts);
  Ok (owner, last parts "").
(** module.py:750-752 *)
Definition leaf_get (w : world) (l : nat * string) : result read_result := getattr w (fst l) (snd l).
(** module.py:754-756 *)
Definition leaf_set (w : world) (l : nat * string) (a : attr) : result world := setattr w (fst l) (snd l) a.
(** module.py:758-764 [MutableLeaf.sharding]: None unless the attribute is a Node;
    then [attr.metadata.get("sharding", None)].  Containers have no attribute
    "metadata" (containers.py:54: what they were given is stored in their own [vars]),
    unless it was given one under that name; of the values modelled ints, strings and
    tuples have no [.get]; Modules and other objects are outside. *)
Definition leaf_sharding (w : world) (l : nat * string) : result (option pyval) :=
  match get_obj w (fst l) with
  | None => Err OutOfModel
  | Some o =>
      match dget (snd l) (m_vars o) with
      | None => Err KeyError
      | Some (ARaw _) => Ok None
      | Some (ACont c) =>
          if negb (smem "Node" (c_cls c)) then Ok None
          else match dget "metadata" (c_meta c) with
               | None => Err AttributeError
               | Some (PyObj _ _) | Some (PyMod _) => Err OutOfModel
               | Some _ => Err AttributeError
               end
      end
  end.

(** module.py:651-652 [mutable_state_dict]. *)
Definition mutable_state_dict (w : world) (r : nat) : result (dict (nat * string)) :=
  do xs <- iter_state w r;
  do ls <- rmapM (fun kv => do l <- mutable_leaf w r (fst kv); Ok (fst kv, l)) xs;
  Ok (dict_of ls).

(** ** apply and call *)

(** module.py:154-163 [ModuleDef.apply] and 626-635 [Module.apply], for an
    accessor that has been resolved to a call on the merged module: [body w m]
    runs it. *)
Definition mdef_apply {A} (w : world) (d : mdef) (states : list state)
    (body : world -> nat -> world * result A) : world * result (A * pure) :=
  match merge w d states with
  | Err e => (w, Err e)
  | Ok (m, w1) =>
      match body w1 m with
      | (w2, Err e) => (w2, Err e)
      | (w2, Ok out) =>
          match module_partition w2 m [] with
          | Ok p => (w2, Ok (out, p))
          | Err e => (w2, Err e)
          end
      end
  end.
(** module.py:625-635 *)
Definition module_apply {A} (w : world) (r : nat)
    (body : world -> nat -> world * result A) : world * result (A * nat) :=
  match clone w r with
  | Err e => (w, Err e)
  | Ok (m, w1) =>
      match body w1 m with
      | (w2, Err e) => (w2, Err e)
      | (w2, Ok out) => (w2, Ok (out, m))
      end
  end.
(** module.py:219-228 [Pure.call]. *)
Definition pure_call {A} (w : world) (p : pure)
    (body : world -> nat -> world * result A) : world * result A :=
  match pure_merge w p with
  | Err e => (w, Err e)
  | Ok (m, w1) => body w1 m
  end.
