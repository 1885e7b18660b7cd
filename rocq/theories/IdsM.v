(** IdsM: models nnx/ids.py, the id counter shared by threads. *)
From Verif Require Import PyBase.
Local Open Scope list_scope.

(** What a thread can ask for: ids.py:36-39 [uuid()], ids.py:64-65 [copy.copy] and
    ids.py:60-62 [copy.deepcopy] of an existing UUID; the last two call [uuid()]. *)
Inductive id_call : Type := CNew | CCopy (of : nat) | CDeepcopy (of : nat).

(** Where a thread is inside [UUIDManager.__call__] (ids.py:36-39).  [self._id += 1]
    is a load and a store, [UUID(self._id)] another load; threads can be switched
    between any two of these. *)
Inductive id_pc : Type :=
| PIdle                 (* between calls *)
| PLocked               (* entered [with self._lock] *)
| PLoaded (v : nat)     (* loaded [self._id] *)
| PStored               (* stored [v + 1] *)
| PGot (v : nat).       (* loaded [self._id] for UUID(...) *)

Record id_thread := mkThread { t_pc : id_pc; t_todo : list id_call }.

(** [i_ret]: the calls that returned, in order: thread, call, raw id. (ids.py:20-39) *)
Record id_state := mkIds { i_lock : option nat; i_id : nat; i_threads : list id_thread;
                           i_ret : list (nat * id_call * nat) }.

(** ids.py:20-39 *)
Definition set_thread (s : id_state) (t : nat) (th : id_thread) : id_state :=
  mkIds (i_lock s) (i_id s) (list_set t th (i_threads s)) (i_ret s).

(** One atomic step of thread [t]; a thread that cannot move (waiting for the
    lock, or finished) does nothing. (threads calling ids.py:36-39) *)
Definition id_step (s : id_state) (t : nat) : id_state :=
  match nth_error (i_threads s) t with
  | None => s
  | Some th =>
      match t_todo th with
      | [] => s
      | call :: rest =>
          match t_pc th with
          | PIdle => match i_lock s with
                     | None => set_thread (mkIds (Some t) (i_id s) (i_threads s) (i_ret s)) t (mkThread PLocked (call :: rest))
                     | Some _ => s
                     end
          | PLocked => set_thread s t (mkThread (PLoaded (i_id s)) (call :: rest))
          | PLoaded v => set_thread (mkIds (i_lock s) (S v) (i_threads s) (i_ret s)) t (mkThread PStored (call :: rest))
          | PStored => set_thread s t (mkThread (PGot (i_id s)) (call :: rest))
          | PGot v => set_thread (mkIds None (i_id s) (i_threads s) (i_ret s ++ [(t, call, v)])) t (mkThread PIdle rest)
          end
      end
  end.
(** threads calling ids.py:36-39 *)
Definition id_run (s : id_state) (schedule : list nat) : id_state := fold_left id_step schedule s.

(** ids.py:32-34: a new manager and threads that have not started. *)
Definition id_start (progs : list (list id_call)) : id_state :=
  mkIds None 0 (map (mkThread PIdle) progs) [].

(** ids.py:51-52 [UUID.__eq__] compares raw ids. *)
Definition returned_ids (s : id_state) : list nat := map snd (i_ret s).
