(** ThreadsM: models nnx/contextlib.py used by several threads.

    The main traces that tracers.py:28-94 compares by identity are kept by jax for each
    thread (jax.core.thread_local_state), the nnx trace stack is a threading.local
    (tracers.py:52-59).  So no two threads ever have a current trace in common: the pair
    of current traces of thread [t] at its level [n] is here written [(t, n)]. *)
From Verif Require Import PyBase ModuleM ContextM.
Local Open Scope string_scope.
Local Open Scope list_scope.

(** Where a thread is inside a call.  [stream.count] is loaded for the fold data, loaded
    again for [+= 1], and stored (contextlib.py:103-104, 120-123); threads can be
    switched between any two of these.  All else that a call reads never changes, and
    objects that it makes are not seen by others before it returns. *)
Inductive tpc : Type :=
| TIdle
| TDraw1 (i c1 : nat)                       (* in make_rng of stream [i]: loaded [c1] *)
| TDraw2 (i c1 v : nat)                     (* ... and [v], for the increment *)
| TForks (x : context) (done : list (string * stream)) (todo : list (string * nat))
| TFork1 (x : context) (done : list (string * stream)) (name : string) (i c1 : nat) (todo : list (string * nat))
| TFork2 (x : context) (done : list (string * stream)) (name : string) (i c1 v : nat) (todo : list (string * nat)).

(** A thread: its trace level, where it is, and the calls it has yet to make (the first
    one is the one it is in).  (threads calling contextlib.py:23-151) *)
Record tthread := mkTT { tt_level : nat; tt_pc : tpc; tt_todo : list cop }.

(** A call that has returned: thread, level, call, result. (contextlib.py:23-151) *)
Record tcall := mkCall { tc_thread : nat; tc_level : nat; tc_op : cop; tc_out : cout }.

(** All objects, which are shared, the threads, and the calls in the order in which they
    returned.  (threads calling contextlib.py:23-151) *)
Record tstate := mkTS { ts_streams : list stream; ts_ctxs : list context; ts_pures : list pctx;
                        ts_threads : list tthread; ts_ret : list tcall }.

(** record updates of the model (threads calling contextlib.py:23-151) *)
Definition set_tt (s : tstate) (t : nat) (th : tthread) : tstate :=
  mkTS (ts_streams s) (ts_ctxs s) (ts_pures s) (list_set t th (ts_threads s)) (ts_ret s).
(** record updates of the model (threads calling contextlib.py:23-151) *)
Definition set_ss (s : tstate) (ss : list stream) : tstate :=
  mkTS ss (ts_ctxs s) (ts_pures s) (ts_threads s) (ts_ret s).
(** what thread [t] sees (contextlib.py:81-91, tracers.py:90-94) *)
Definition view (s : tstate) (t : nat) (th : tthread) : cworld :=
  mkCW (ts_streams s) (ts_ctxs s) (ts_pures s) (t, tt_level th).
(** a call returns (contextlib.py:96-128) *)
Definition returns (s : tstate) (t : nat) (th : tthread) (op : cop) (out : cout) : tstate :=
  mkTS (ts_streams s) (ts_ctxs s) (ts_pures s)
       (list_set t (mkTT (match op with OTrace tr => snd tr | _ => tt_level th end) TIdle (tl (tt_todo th))) (ts_threads s))
       (ts_ret s ++ [mkCall t (tt_level th) op out]).
(** calls that only make new objects: contextlib.py:34-39, 107-108, 131-151; entering and
    leaving transforms *)
Definition at_once (blake : string -> nat) (s : tstate) (t : nat) (th : tthread) (op : cop) : tstate :=
  let (w, out) := crun1 blake (view s t th) op in
  returns (mkTS (cw_streams w) (cw_ctxs w) (cw_pures w) (ts_threads s) (ts_ret s)) t th op out.

(** One step of thread [t] in the call [op]. *)
Definition tstep_op (blake : string -> nat) (s : tstate) (t : nat) (th : tthread) (op : cop) : tstate :=
  let go pc := set_tt s t (mkTT (tt_level th) pc (tt_todo th)) in
  match tt_pc th with
  | TIdle =>
      match op with
      | ODraw c name =>
          (* contextlib.py:97-103 *)
          match nth_error (ts_ctxs s) c with
          | None => returns s t th op (OutErr OutOfModel)
          | Some x =>
              match dget name (x_rngs x) with
              | None => returns s t th op (OutErr ValueError)
              | Some i =>
                  if negb (trace_ok (t, tt_level th) (x_trace x)) then returns s t th op (OutErr TraceContextError)
                  else match nth_error (ts_streams s) i with
                       | None => returns s t th op (OutErr OutOfModel)
                       | Some st => go (TDraw1 i (s_count st))
                       end
              end
          end
      | OPart c =>
          (* contextlib.py:117-118 *)
          match nth_error (ts_ctxs s) c with
          | None => returns s t th op (OutErr OutOfModel)
          | Some x =>
              if negb (trace_ok (t, tt_level th) (x_trace x)) then returns s t th op (OutErr TraceContextError)
              else go (TForks x [] (x_rngs x))
          end
      | OTrace tr => at_once blake s t th (OTrace (t, snd tr))
      | _ => at_once blake s t th op
      end
  | TDraw1 i c1 =>
      (* contextlib.py:104, load *)
      match nth_error (ts_streams s) i with
      | None => returns s t th op (OutErr OutOfModel)
      | Some st => go (TDraw2 i c1 (s_count st))
      end
  | TDraw2 i c1 v =>
      (* contextlib.py:104, store, and 105 *)
      match nth_error (ts_streams s) i with
      | None => returns s t th op (OutErr OutOfModel)
      | Some st =>
          returns (set_ss s (list_set i (mkStream (s_key st) (S v) (s_path st)) (ts_streams s))) t th op
                  (OutKey (KFold (s_key st) (stable_hash blake (s_path st ++ [c1]))))
      end
  | TForks x done [] =>
      (* contextlib.py:126-128 *)
      returns (mkTS (ts_streams s) (ts_ctxs s)
                 (ts_pures s ++ [mkPctx (dict_of (map (fun ns => (fst ns, s_key (snd ns))) done))
                                        (map (fun ns => (fst ns, s_path (snd ns))) done) (x_flags x)])
                 (ts_threads s) (ts_ret s)) t th op OutDone
  | TForks x done ((name, i) :: todo) =>
      (* contextlib.py:121, 125 *)
      match nth_error (ts_streams s) i with
      | None => returns s t th op (OutErr OutOfModel)
      | Some st => go (TFork1 x done name i (s_count st) todo)
      end
  | TFork1 x done name i c1 todo =>
      (* contextlib.py:122, load *)
      match nth_error (ts_streams s) i with
      | None => returns s t th op (OutErr OutOfModel)
      | Some st => go (TFork2 x done name i c1 (s_count st) todo)
      end
  | TFork2 x done name i c1 v todo =>
      (* contextlib.py:122, store, and 123 *)
      match nth_error (ts_streams s) i with
      | None => returns s t th op (OutErr OutOfModel)
      | Some st =>
          set_tt (set_ss s (list_set i (mkStream (s_key st) (S v) (s_path st)) (ts_streams s))) t
                 (mkTT (tt_level th) (TForks x (done ++ [(name, mkStream (s_key st) 0 (s_path st ++ [c1]))]) todo) (tt_todo th))
      end
  end.
(** One step of thread [t]; a thread that has finished does nothing. (threads calling contextlib.py:23-151) *)
Definition tstep (blake : string -> nat) (s : tstate) (t : nat) : tstate :=
  match nth_error (ts_threads s) t with
  | None => s
  | Some th => match tt_todo th with
               | [] => s
               | op :: _ => tstep_op blake s t th op
               end
  end.
(** any schedule (threads calling contextlib.py:23-151) *)
Definition trun (blake : string -> nat) (s : tstate) (schedule : list nat) : tstate := fold_left (tstep blake) schedule s.
(** threads that have not started (threads calling contextlib.py:23-151) *)
Definition tstart (progs : list (list cop)) : tstate := mkTS [] [] [] (map (mkTT 0 TIdle) progs) [].
