(** CopyM: models copies of Modules made by python's [copy] module.  Module defines
    neither [__copy__] nor [__deepcopy__], so the default protocol applies to
    [vars(module)], which includes the ModuleState under ["_module__state"]
    (module.py:383-409, 417-420); its parts are copied by ids.py:57-63
    ([UUID.__deepcopy__], a new id) and, for TraceState (tracers.py:75-94), by the
    default protocol again.

    Simplifications: opaque objects (arrays, functions, dtypes, ...) are equal to
    their deep copies; a user class that defines its own copying is not modelled;
    the recursion limit of python is not modelled. *)
From Verif Require Import PyBase ValuesM StateM ModuleM.
Local Open Scope string_scope.
Local Open Scope list_scope.

(** ** copy.copy *)
(** [copy.copy(module)]: [cls.__new__(cls)], then [vars(new).update(vars(module))].
    The new object has the same ModuleState object, hence the same id and trace
    state.  Simplification: a later change of [is_initializing] through one of the two
    is not seen through the other here. (not overridden by Module, module.py:441-468) *)
Definition py_copy (w : world) (r : nat) : result (nat * world) :=
  match get_obj w r with
  | None => Err OutOfModel
  | Some o => Ok (List.length (w_heap w), set_heap w (w_heap w ++ [o]))
  end.

(** ** copy.deepcopy *)
(** The memo: modules already copied, with their copies. *)
Notation memo := (list (nat * nat)).
(** [tc x]: the identity of the copy of the main trace [x].  jax's MainTrace does not
    define copying, so a deep copy is a new object; [copy.deepcopy] remembers it, so
    that one trace has one copy. (tracers.py:75-94) *)
Definition copy_trace (tc : nat -> nat) (t : trace_state) : trace_state := (tc (fst t), tc (snd t)).

Section Values.
Variable rec : nat -> memo -> world -> result (nat * memo * world).
(** values: tuples are copied element by element. (Python's [copy.deepcopy]; UUIDs are kept, ids.py:60-62) *)
Fixpoint dc_val (v : pyval) (mm : memo) (w : world) {struct v} : result (pyval * memo * world) :=
  match v with
  | PyMod r => do (r', m1, w1) <- rec r mm w; Ok (PyMod r', m1, w1)
  | PyTuple l =>
      do (l', m1, w1) <-
        (fix go (l : list pyval) (mm : memo) (w : world) : result (list pyval * memo * world) :=
           match l with
           | [] => Ok ([], mm, w)
           | x :: t => do (x', m1, w1) <- dc_val x mm w;
                       do (t', m2, w2) <- go t m1 w1;
                       Ok (x' :: t', m2, w2)
           end) l mm w;
      Ok (PyTuple l', m1, w1)
  | _ => Ok (v, mm, w)
  end.
(** the metadata of a container. (containers.py:44-57) *)
Fixpoint dc_meta (d : dict pyval) (mm : memo) (w : world) : result (dict pyval * memo * world) :=
  match d with
  | [] => Ok ([], mm, w)
  | (k, x) :: t => do (x', m1, w1) <- dc_val x mm w;
                   do (t', m2, w2) <- dc_meta t m1 w1;
                   Ok ((k, x') :: t', m2, w2)
  end.
(** a Container: [vars] is its metadata, then the value (containers.py:47-52) *)
Definition dc_attr (a : attr) (mm : memo) (w : world) : result (attr * memo * world) :=
  match a with
  | ARaw v => do (v', m1, w1) <- dc_val v mm w; Ok (ARaw v', m1, w1)
  | ACont c => do (d, m1, w1) <- dc_meta (c_meta c) mm w;
               do (v, m2, w2) <- dc_val (c_val c) m1 w1;
               Ok (ACont (mkCont (c_cls c) d v), m2, w2)
  end.
(** the attributes of a module, in order. (module.py:441-468) *)
Fixpoint dc_vars (d : dict attr) (mm : memo) (w : world) : result (dict attr * memo * world) :=
  match d with
  | [] => Ok ([], mm, w)
  | (k, x) :: t => do (x', m1, w1) <- dc_attr x mm w;
                   do (t', m2, w2) <- dc_vars t m1 w1;
                   Ok ((k, x') :: t', m2, w2)
  end.
End Values.

(** [copy.deepcopy(module, memo)]: the new object is put in the memo first, then
    [vars] is copied, ["_module__state"] (set first, module.py:419) before the
    attributes. *)
Fixpoint deepcopy_rec (tc : nat -> nat) (fuel : nat) (r : nat) (mm : memo) (w : world) {struct fuel}
  : result (nat * memo * world) :=
  match im_get r mm with
  | Some r' => Ok (r', mm, w)
  | None =>
      match fuel with
      | 0 => Err RecursionError
      | S n =>
          match get_obj w r with
          | None => Err OutOfModel
          | Some o =>
              let r' := List.length (w_heap w) in
              let o' := mkMobj (m_cls o) (S (w_uuid w)) (m_init o) (copy_trace tc (m_trace o)) [] in
              let w1 := mkWorld (w_heap w ++ [o']) (S (w_uuid w)) (w_trace w) (w_nodes w) in
              do (d, m1, w2) <- dc_vars (deepcopy_rec tc n) (m_vars o) ((r, r') :: mm) w1;
              Ok (r', m1, put_obj w2 r' (set_vars o' d))
          end
      end
  end.
(** not overridden by Module, module.py:441-468 *)
Definition deepcopy (tc : nat -> nat) (w : world) (r : nat) : result (nat * world) :=
  do (m, _, w') <- deepcopy_rec tc (dfs_fuel w) r [] w; Ok (m, w').
