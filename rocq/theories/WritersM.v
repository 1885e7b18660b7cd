(** WritersM: models the assignments, updates and deletions of module.py:458-468, 637-649,
    813-843, 924-940 made by several threads on shared Modules.

    As in ThreadsM the pair of current traces of thread [t] at its level [n] is [(t, n)]:
    jax keeps its traces for each thread and the nnx trace stack is a threading.local
    (tracers.py:28-94).  A step reads or writes the attributes of one Module. *)
From Verif Require Import PyBase ValuesM FiltersM StateM ModuleM TransformM.
Local Open Scope string_scope.
Local Open Scope list_scope.

(** What a thread does: [module.name = v], [module.update_state(states)],
    [del module.name], and entering or leaving a transform.  (module.py:458-468, 637-649) *)
Inductive wop : Type :=
| WAssign (q : nat) (name : string) (v : attr)
| WUpdate (r : nat) (us : list state)
| WDelete (q : nat) (name : string)
| WLevel (n : nat).

(** The traversal of module.py:820-834 as a stack: the modules it is in, innermost first,
    each with its path and the attributes still to come. *)
Definition frames : Type := list (list string * list (string * attr)).

(** Where a thread is inside a call.  (module.py:458-468, 813-843, 924-940) *)
Inductive wpc : Type :=
| WIdle
| WStore (q : nat) (name : string) (a : attr)               (* the new attribute is made, not stored *)
| WSnap (r : nat) (fs : frames) (seen : list nat) (acc : list (string * attr)) (us : list state)
| WEntries (r : nat) (todo : list (string * attr))
| WWalk (r cur : nat) (parts : list string) (v : attr) (todo : list (string * attr))
| WPut (r q : nat) (name : string) (a : attr) (todo : list (string * attr)).

(** A thread: level, position, the calls to come (the first is the one it is in), and the
    results of those that returned.  (threads calling module.py:441-649) *)
Record wth := mkWth { wt_level : nat; wt_pc : wpc; wt_todo : list wop; wt_outs : list (result unit) }.
(** the memory and the threads (threads calling module.py:441-649) *)
Record wsys := mkWsys { ws_world : world; ws_threads : list wth }.

(** a call returns (threads calling module.py:441-649) *)
Definition wreturn (th : wth) (out : result unit) : wth :=
  mkWth (wt_level th) WIdle (tl (wt_todo th)) (wt_outs th ++ [out]).
(** the call goes on (threads calling module.py:441-649) *)
Definition wgo (th : wth) (pc : wpc) : wth := mkWth (wt_level th) pc (wt_todo th) (wt_outs th).

(** module.py:459-467: the guard, the attribute that is there now, and the one that is to
    be stored for it.  Reading [_module__state] and [vars] is one step. *)
Definition wload (w : world) (tr : trace_state) (q : nat) (name : string) (v : attr) : result attr :=
  match get_obj w q with
  | None => Err OutOfModel
  | Some o =>
      if negb (trace_valid (set_trace w tr) (m_trace o)) then Err TraceContextError
      else if String.eqb name "_module__state" then Err OutOfModel
      else assign_value (dget name (m_vars o)) v
  end.
(** module.py:464, 468: the item is stored in the dict as it is now. *)
Definition wput (w : world) (q : nat) (name : string) (a : attr) : world :=
  match get_obj w q with
  | None => w
  | Some o => put_obj w q (set_vars o (dset name a (m_vars o)))
  end.

(** One step of a thread: the new memory and the new state of the thread. *)
Definition wstep1 (w : world) (t : nat) (th : wth) : world * wth :=
  let tr := (t, wt_level th) in
  match wt_pc th with
  | WIdle =>
      match wt_todo th with
      | [] => (w, th)
      | WAssign q name v :: _ =>                                            (* module.py:459-467 *)
          match wload w tr q name v with
          | Ok a => (w, wgo th (WStore q name a))
          | Err e => (w, wreturn th (Err e))
          end
      | WUpdate r us :: _ =>                                                (* module.py:641, 816, 823-828 *)
          match get_obj w r with
          | None => (w, wreturn th (Err OutOfModel))
          | Some o => (w, wgo th (WSnap r [([], sort_by_key (m_vars o))] [m_id o] [] us))
          end
      | WDelete q name :: _ =>                                              (* object.__delattr__: no guard *)
          match delattr w q name with
          | Ok w' => (w', wreturn th (Ok tt))
          | Err e => (w, wreturn th (Err e))
          end
      | WLevel n :: _ => (w, mkWth n WIdle (tl (wt_todo th)) (wt_outs th ++ [Ok tt]))
      end
  | WStore q name a => (wput w q name a, wreturn th (Ok tt))                (* module.py:464, 468 *)
  | WSnap r [] seen acc us =>                                               (* module.py:767-768, 927-936 *)
      (w, wgo th (WEntries r (fold_left (fun acc s => dupdate acc s) (mk_state acc :: us) [])))
  | WSnap r ((parts, []) :: fs) seen acc us => (w, wgo th (WSnap r fs seen acc us))
  | WSnap r ((parts, (name, a) :: l) :: fs) seen acc us =>                  (* module.py:828-834 *)
      match a with
      | ARaw (PyMod q) =>
          match get_obj w q with
          | None => (w, wreturn th (Err OutOfModel))
          | Some o =>
              if nmem (m_id o) seen then (w, wgo th (WSnap r ((parts, l) :: fs) seen acc us))
              else (w, wgo th (WSnap r ((parts ++ [name], sort_by_key (m_vars o)) :: (parts, l) :: fs) (seen ++ [m_id o]) acc us))
          end
      | _ =>
          (w, wgo th (WSnap r ((parts, l) :: fs) seen
                            (if is_node (w_nodes w) a then acc ++ [(join_path (parts ++ [name]), a)] else acc) us))
      end
  | WEntries r [] => (w, wreturn th (Ok tt))                                (* module.py:938-940 *)
  | WEntries r ((p, v) :: todo) => (w, wgo th (WWalk r r (split_slash p) v todo))
  | WWalk r cur [] v todo => (w, wreturn th (Err IndexError))
  | WWalk r cur [name] v todo =>                                            (* module.py:840-841 *)
      match wload w tr cur name v with
      | Ok a => (w, wgo th (WPut r cur name a todo))
      | Err e => (w, wreturn th (Err e))
      end
  | WWalk r cur (name :: rest) v todo =>                                    (* module.py:843 *)
      match get_obj w cur with
      | None => (w, wreturn th (Err OutOfModel))
      | Some o =>
          match dget name (m_vars o) with
          | Some (ARaw (PyMod r')) => (w, wgo th (WWalk r r' rest v todo))
          | Some _ => (w, wreturn th (Err OutOfModel))
          | None => (w, wreturn th (Err (if String.eqb name "_module__state" then OutOfModel else KeyError)))
          end
      end
  | WPut r q name a todo => (wput w q name a, wgo th (WEntries r todo))     (* module.py:464, 468 *)
  end.
(** the scheduler lets thread [t] make a step (threads calling module.py:441-649) *)
Definition wstep (s : wsys) (t : nat) : wsys :=
  match nth_error (ws_threads s) t with
  | None => s
  | Some th => let (w, th') := wstep1 (ws_world s) t th in mkWsys w (list_set t th' (ws_threads s))
  end.
(** a schedule (threads calling module.py:441-649) *)
Definition wruns (s : wsys) (sch : list nat) : wsys := fold_left wstep sch s.
