(** Vocabulary for threads that write to Modules. *)
From Verif Require Import PyBase ValuesM StateM ModuleM Spec_Module TransformM WritersM.
Local Open Scope list_scope.

(** The calls of one thread, one after the other, by the sequential model of module.py:
    the memory and the results. *)
Fixpoint in_turn (tr : trace_state) (ops : list wop) (w : world) : world * list (result unit) :=
  match ops with
  | [] => (w, [])
  | op :: rest =>
      match op with
      | WLevel n => let (w', outs) := in_turn (fst tr, n) rest w in (w', Ok tt :: outs)
      | _ =>
          let (w1, out) := match op with
            | WAssign q name v => match setattr (set_trace w tr) q name v with Ok w' => (w', Ok tt) | Err e => (w, Err e) end
            | WUpdate r us => update_state (set_trace w tr) r (UStates (Many us))
            | WDelete q name => match delattr w q name with Ok w' => (w', Ok tt) | Err e => (w, Err e) end
            | WLevel n => (w, Ok tt)
            end in
          let (w', outs) := in_turn tr rest w1 in (w', out :: outs)
      end
  end.

(** The thread that made a Module. *)
Definition owned (w : world) (t : nat) (r : nat) : Prop := exists o, get_obj w r = Some o /\ fst (m_trace o) = t.
(** a value that is no Module of another thread *)
Definition own_value (w : world) (t : nat) (a : attr) : Prop := forall r, a = ARaw (PyMod r) -> owned w t r.
(** Modules hold only Modules of the same thread *)
Definition apart (w : world) : Prop :=
  forall r o name a, get_obj w r = Some o -> In (name, a) (m_vars o) -> own_value w (fst (m_trace o)) a.
(** A thread takes no Module of another thread into its own, updates and deletes from
    only its own; it may try to assign to any Module. *)
Definition own_op (w : world) (t : nat) (op : wop) : Prop :=
  match op with
  | WAssign q name v => own_value w t v /\ wf_attr v
  | WUpdate r us => owned w t r /\ forall u p a, In u us -> In (p, a) u -> own_value w t a /\ wf_attr a
  | WDelete q name => owned w t q
  | WLevel n => True
  end.
(** threads at the beginning *)
Definition start (level : nat) (ops : list wop) : wth := mkWth level WIdle ops [].
(** how many steps the schedule gives to thread [t] *)
Definition turns (t : nat) (sch : list nat) : nat := count_occ Nat.eq_dec sch t.
(** a call that is no deletion *)
Definition no_delete (op : wop) : Prop := match op with WDelete _ _ => False | _ => True end.
(** an assignment to a Module made by another thread, or at another level *)
Definition not_here (w : world) (t level : nat) (op : wop) : Prop :=
  exists q name v o, op = WAssign q name v /\ get_obj w q = Some o /\ m_trace o <> (t, level).
(** the system at the beginning: each thread with its level and its calls *)
Definition begin (w : world) (threads : list (nat * list wop)) : wsys := mkWsys w (map (fun x => start (fst x) (snd x)) threads).
