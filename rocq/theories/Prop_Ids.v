(** Prop_Ids: C34, the id counter under every schedule. *)
From Verif Require Import PyBase IdsM Ids_proofs.
Local Open Scope list_scope.

(** *** C34: however many threads, whatever they call, however they are interleaved *)
Theorem C34_ids_distinct :
  forall (progs : list (list id_call)) (schedule : list nat),
  NoDup (returned_ids (id_run (id_start progs) schedule)).
Proof. intros progs schedule. rewrite ids_sequential. apply seq_NoDup. Qed.
Print Assumptions C34_ids_distinct.

(** The ids handed out so far are exactly 1, 2, ..., n in the order of return. *)
Theorem C34_ids_sequential :
  forall (progs : list (list id_call)) (schedule : list nat),
  let s := id_run (id_start progs) schedule in returned_ids s = seq 1 (List.length (i_ret s)).
Proof. exact ids_sequential. Qed.
Print Assumptions C34_ids_sequential.

(** No call is lost or made twice. *)
Theorem C34_no_call_lost :
  forall (progs : list (list id_call)) (schedule : list nat) (t : nat),
  let s := id_run (id_start progs) schedule in
  done_by t s ++ todo_of t s = match nth_error progs t with Some p => p | None => [] end.
Proof. exact ids_work. Qed.
Print Assumptions C34_no_call_lost.

(** The lock never deadlocks. *)
Theorem C34_progress :
  forall (progs : list (list id_call)) (schedule : list nat) (t : nat),
  let s := id_run (id_start progs) schedule in
  todo_of t s <> [] -> exists u, id_step s u <> s.
Proof. exact ids_progress. Qed.
Print Assumptions C34_progress.

(** Two threads, interleaved at every point; without the lock both would get 1. *)
Definition ex_progs := [[CNew; CCopy 1]; [CNew; CDeepcopy 1]].
Example C34_example :
  returned_ids (id_run (id_start ex_progs) (flat_map (fun _ => [0; 1]) (seq 0 20))) = [1; 2; 3; 4] /\
  exists u, id_step (id_run (id_start ex_progs) [0; 1; 0; 1]) u <> id_run (id_start ex_progs) [0; 1; 0; 1].
Proof. split; [vm_compute; reflexivity|]. exists 0. vm_compute. discriminate. Qed.
