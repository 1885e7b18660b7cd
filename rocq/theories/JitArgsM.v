(** JitArgsM: models the arguments of a jitted function (nnx/transforms.py:35-75
    JitTransform with the pytree registrations of contextlib.py:61-71,
    containers.py:107-136, state.py:145-163).  [TransformM] has the part of
    JitTransform that deals with the module.

    [jax.jit] is taken by its contract: static arguments must be hashable
    (ValueError), the leaves of all other arguments must be arrays or numbers
    (TypeError), then the function runs under another trace, and the leaves of
    its result must be arrays or numbers (TypeError).  Arrays are passed as they
    are. *)
From Coq Require Import ZArith.
From Verif Require Import PyBase ValuesM FiltersM StateM ModuleM ContextM TransformM.
Local Open Scope string_scope.
Local Open Scope list_scope.

(** Arguments and results: values (also tuples of values, None and Modules), RNG
    keys, Contexts, PureContexts, and tuples, lists and dicts of these. (the arguments of transforms.py:62-74) *)
Inductive arg : Type :=
| GVal (v : pyval)
| GKey (k : key)
| GCtx (x : context)
| GPure (pc : pctx)
| GTuple (l : list arg)
| GList (l : list arg)
| GDict (d : list (string * arg)).

(** What jax sees as leaves: values, keys, and objects of classes that are not
    registered: Context, and ContextDef, which is a child of PureContext. (jax's flattening at transforms.py:44-74) *)
Inductive leaf : Type :=
| LVal (v : pyval)
| LKey (k : key)
| LCtx (x : context)
| LDef (c : list (string * counts)) (flags : dict bool).

(** [None] has no leaves, tuples are flattened. (jax's flattening at transforms.py:44-74) *)
Fixpoint val_leaves (v : pyval) : list pyval :=
  match v with
  | PyNone => []
  | PyTuple l => flat_map val_leaves l
  | _ => [v]
  end.
(** contextlib.py:61-71: the children of a PureContext are the dict of keys and
    the ContextDef.  (The order of leaves of dicts plays no role here.) *)
Fixpoint arg_leaves (a : arg) : list leaf :=
  match a with
  | GVal v => map LVal (val_leaves v)
  | GKey k => [LKey k]
  | GCtx x => [LCtx x]
  | GPure pc => map (fun nk => LKey (snd nk)) (pc_keys pc) ++ [LDef (pc_counts pc) (pc_flags pc)]
  | GTuple l | GList l => flat_map arg_leaves l
  | GDict d => flat_map (fun ka => arg_leaves (snd ka)) d
  end.
(** state.py:145-163, containers.py:107-136: the values of Variables are the leaves of
    a State. *)
Definition state_leaves (s : state) : list leaf :=
  flat_map (fun ka => map LVal (val_leaves (match snd ka with ARaw v => v | ACont c => c_val c end))) s.

(** jax: arrays and numbers.  Simplification: ints are in range, numpy arrays
    have a numeric dtype. ([jax.jit]'s check of its arguments as called at transforms.py:59-74) *)
Definition array_classes : list string := ["jax.Array"; "numpy.ndarray"; "numpy.generic"; "float"; "complex"].
(** [jax.jit]'s check of its arguments as called at transforms.py:59-74 *)
Definition leaf_ok (l : leaf) : bool :=
  match l with
  | LVal (PyBool _) | LVal (PyInt _) | LKey _ => true
  | LVal (PyObj c _) => existsb (fun n => smem n c) array_classes
  | _ => false
  end.

(** [hash(x)] of a static argument: arrays, lists and dicts have no hash, a
    PureContext is a tuple containing a dict. ([jax.jit]'s static arguments at transforms.py:59-74) *)
Definition no_hash_classes : list string := ["jax.Array"; "numpy.ndarray"; "list"; "dict"; "set"].
(** [jax.jit]'s static arguments at transforms.py:59-74 *)
Fixpoint val_hashable (v : pyval) : bool :=
  match v with
  | PyTuple l => forallb val_hashable l
  | PyObj c _ => negb (existsb (fun n => smem n c) no_hash_classes)
  | _ => true
  end.
(** [jax.jit]'s static arguments at transforms.py:59-74 *)
Fixpoint hashable (a : arg) : bool :=
  match a with
  | GVal v => val_hashable v
  | GCtx _ => true
  | GTuple l => forallb hashable l
  | GKey _ | GPure _ | GList _ | GDict _ => false
  end.

(** The user function: positional arguments, keyword arguments, world, module.
    transforms.py:42-43 replaces a PureContext under "ctx" by the Context merged
    from it; as that behaves as a function of the PureContext (C28), the function
    is given the latter. *)
Definition jitted : Type := list arg -> dict arg -> world -> nat -> world * result arg.

(** transforms.py:39-58 [jitted_fn] under [jax.jit], with the names [static]
    ([static_argnames]). *)
Definition jit_run (static : list string) (stateful : bool) (t : trace_state) (fn : jitted)
    (w : world) (p : pure) (args : list arg) (kwargs : dict arg) : world * result (option state * arg) :=
  if existsb (fun ka => smem (fst ka) static && negb (hashable (snd ka))) kwargs then (w, Err ValueError)
  else if negb (forallb leaf_ok (flat_map state_leaves (sts_list (p_states p)) ++ flat_map arg_leaves args ++
                  flat_map (fun ka => if smem (fst ka) static then [] else arg_leaves (snd ka)) kwargs)) then (w, Err TypeError)
  else match jitted_fn stateful t (fn args kwargs) w p with
       | (w1, Err e) => (w1, Err e)
       | (w1, Ok (s, out)) =>
           if forallb leaf_ok (match s with Some s => state_leaves s | None => [] end ++ arg_leaves out)
           then (w1, Ok (s, out)) else (w1, Err TypeError)
       end.

(** transforms.py:63-75 [JitTransform.__call__]; the streams of a Context given
    as [ctx] are forked before anything else happens. *)
Definition jit_call_args (static : list string) (stateful : bool) (t : trace_state) (fn : jitted)
    (w : world) (m : attr) (args : list arg) (kwargs : dict arg) (ss : list stream)
  : world * list stream * result arg :=
  match m with
  | ARaw (PyMod r) =>
      match (match dget "ctx" kwargs with
             | Some (GCtx x) => match context_partition (w_trace w) x ss with
                                | (Err e, ss') => (Err e, ss')
                                | (Ok pc, ss') => (Ok (dset "ctx" (GPure pc) kwargs), ss')
                                end
             | _ => (Ok kwargs, ss)
             end) with
      | (Err e, ss') => (w, ss', Err e)
      | (Ok kwargs, ss') =>
          match module_partition w r [] with
          | Err e => (w, ss', Err e)
          | Ok p =>
              match jit_run static stateful t fn w p args kwargs with
              | (w1, Err e) => (w1, ss', Err e)
              | (w1, Ok (None, out)) => (w1, ss', Ok out)
              | (w1, Ok (Some updates, out)) =>
                  match update_state w1 r (UStates (One updates)) with
                  | (w2, Ok _) => (w2, ss', Ok out)
                  | (w2, Err e) => (w2, ss', Err e)
                  end
              end
          end
      end
  | _ => (w, ss, Err TypeError)
  end.
