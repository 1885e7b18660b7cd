(** Vocabulary for threads that use Contexts. *)
From Verif Require Import PyBase ModuleM ContextM Spec_Context ThreadsM.
Local Open Scope list_scope.

(** The same calls one after the other, in a single thread that changes to the trace of
    the caller before each call; and their results. *)
Definition one_by_one (calls : list tcall) : list cop :=
  flat_map (fun r => [OTrace (tc_thread r, tc_level r); tc_op r]) calls.
Definition results (calls : list tcall) : list cout :=
  flat_map (fun r => [OutDone; tc_out r]) calls.

(** Thread [t] is about to copy a Context that another thread has made. *)
Definition copies_foreign (s : tstate) (t : nat) : Prop :=
  exists th c rest x, nth_error (ts_threads s) t = Some th /\ tt_todo th = OCopy c :: rest /\
    nth_error (ts_ctxs s) c = Some x /\ fst (x_trace x) <> t.
Fixpoint no_foreign_copies (blake : string -> nat) (s : tstate) (schedule : list nat) : Prop :=
  match schedule with
  | [] => True
  | t :: l => ~ copies_foreign s t /\ no_foreign_copies blake (tstep blake s t) l
  end.

(** The programs hand no RngStream objects to [context]. *)
Definition no_streams (progs : list (list cop)) : Prop := forall p, In p progs -> passed_streams p = [].

(** Nobody is inside a call. *)
Definition all_idle (s : tstate) : Prop := forall th, In th (ts_threads s) -> tt_pc th = TIdle.
Definition the_calls (s : tstate) : list cop := map tc_op (ts_ret s).

(** A call as thread [t] makes it: its traces are its own. *)
Definition by_thread (t : nat) (o : cop) : cop := match o with OTrace tr => OTrace (t, snd tr) | _ => o end.
(** What thread [t] has called and got so far. *)
Definition calls_of (t : nat) (s : tstate) : list tcall := filter (fun r => Nat.eqb (tc_thread r) t) (ts_ret s).

(** The calls that made Contexts, in order: Context number [c] was made by the [c]-th. *)
Definition makes_context (r : tcall) : bool :=
  match tc_op r, tc_out r with
  | (ONew _ _ _ | OCopy _ | OMerge _), OutDone => true
  | _, _ => false
  end.
Definition made_by (s : tstate) : list nat := map tc_thread (filter makes_context (ts_ret s)).
(** The call used Context [c] with success. *)
Definition used (r : tcall) (c : nat) : Prop :=
  (exists name k, tc_op r = ODraw c name /\ tc_out r = OutKey k) \/ (tc_op r = OPart c /\ tc_out r = OutDone).
