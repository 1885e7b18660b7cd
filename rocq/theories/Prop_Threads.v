(** Properties of Contexts used by several threads: C99. *)
From Coq Require Import Lia ZArith.
From Verif Require Import PyBase PyBaseFacts ModuleM ContextM Spec_Context Context_proofs ThreadsM Spec_Threads Threads_proofs.
Local Open Scope string_scope.
Local Open Scope nat_scope.
Local Open Scope list_scope.

(** *** C99 *)

(** The threads run one program each, in order, whatever the schedule. *)
Theorem C99_program_order : forall blake progs schedule t p,
  nth_error progs t = Some p ->
  exists rest, map (by_thread t) p = map tc_op (calls_of t (trun blake (tstart progs) schedule)) ++ rest.
Proof.
  intros b progs sched t p Hp. pose proof (shape_run b progs sched) as H.
  assert (L : t < List.length (ts_threads (trun b (tstart progs) sched))). { rewrite (sh_len _ _ H). apply nth_error_Some. congruence. }
  destruct (nth_error (ts_threads (trun b (tstart progs) sched)) t) as [th|] eqn:T; [|apply nth_error_None in T; lia].
  exists (map (by_thread t) (tt_todo th)). symmetry. now apply (sh_order _ _ H).
Qed.

(** If no thread copies a Context of another thread, then whatever the schedule, the calls
    return what they return when made one after the other in the order in which they
    returned, and leave the same Contexts, pure contexts and (between calls) streams. *)
Theorem C99_one_by_one_partial : forall blake progs schedule,
  no_streams progs -> no_foreign_copies blake (tstart progs) schedule ->
  let s := trun blake (tstart progs) schedule in
  let alone := crun blake (cstart (0, 0)) (one_by_one (ts_ret s)) in
  snd alone = results (ts_ret s) /\ cw_ctxs (fst alone) = ts_ctxs s /\ cw_pures (fst alone) = ts_pures s /\
  (all_idle s -> cw_streams (fst alone) = ts_streams s).
Proof. exact threads_sequential. Qed.

(** So no derivation is used twice, in one thread or in two: with a hash without
    collisions, all keys are different. *)
Theorem C99_keys_partial : forall blake progs schedule,
  no_streams progs -> no_foreign_copies blake (tstart progs) schedule ->
  NoDup (root_keys (List.concat progs)) -> NoDup (merges (List.concat progs)) ->
  let keys := drawn (map tc_out (ts_ret (trun blake (tstart progs) schedule))) in
  (exists T, NoDup T /\ keys = map (fun kp => KFold (fst kp) (stable_hash blake (snd kp))) T) /\
  ((forall a b, blake a = blake b -> a = b) -> NoDup keys).
Proof.
  intros b progs sched N F R M. destruct (threads_fresh b progs sched N F R M) as [R1 M1].
  destruct (threads_sequential b progs sched N F) as [O _]. cbn zeta. rewrite <- drawn_results, <- O. split.
  - destruct (derivations_fresh (0, 0) _ R1 M1) as (T & HT & E). exists T. auto.
  - intros J. now apply keys_distinct.
Qed.

(** A Context can only be used by the thread that made it, whatever the schedule, copies
    of foreign Contexts included. *)
Theorem C99_own_thread : forall blake progs schedule r c,
  let s := trun blake (tstart progs) schedule in
  In r (ts_ret s) -> used r c -> nth_error (made_by s) c = Some (tc_thread r).
Proof. intros b progs sched r c s. apply (sh_used _ _ (shape_run b progs sched)). Qed.
(** Another thread that tries gets TraceContextError (ValueError for a missing name) at
    once, and nothing else happens. *)
Theorem C99_foreign : forall blake progs schedule t th op rest c m,
  let s := trun blake (tstart progs) schedule in
  nth_error (ts_threads s) t = Some th -> tt_pc th = TIdle -> tt_todo th = op :: rest ->
  (op = OPart c \/ exists name, op = ODraw c name) ->
  nth_error (made_by s) c = Some m -> m <> t ->
  exists e, (e = TraceContextError \/ e = ValueError /\ exists name, op = ODraw c name) /\
  let s' := tstep blake s t in
  ts_streams s' = ts_streams s /\ ts_ctxs s' = ts_ctxs s /\ ts_pures s' = ts_pures s /\
  ts_ret s' = ts_ret s ++ [mkCall t (tt_level th) op (OutErr e)].
Proof.
  intros b progs sched t th op rest c m s T P E O M N.
  pose proof (sh_made _ _ (shape_run b progs sched)) as MB. fold s in MB. rewrite <- MB in M. rewrite nth_error_map in M.
  destruct (nth_error (ts_ctxs s) c) as [x|] eqn:X1; [|discriminate]. cbn in M. injection M as M.
  assert (TO : trace_ok (t, tt_level th) (x_trace x) = false). { destruct (trace_ok _ _) eqn:TO; [|reflexivity]. apply trace_ok_iff in TO. rewrite <- TO in M. cbn in M. congruence. }
  unfold tstep. rewrite T, E. unfold tstep_op. rewrite P. destruct O as [->|[name ->]]; rewrite X1, ?TO; cbn [negb].
  - exists TraceContextError. split; [auto|]. cbn. auto.
  - destruct (dget name (x_rngs x)) as [i|]; [exists TraceContextError|exists ValueError]; (split; [eauto|cbn; auto]).
Qed.

(** Copying a Context of another thread is not refused, and the copy can be used. Then a
    store that comes late turns back the other thread's stream: for every [n] there is a
    schedule in which one thread draws the same [n] keys twice. *)
Definition late_progs (n : nat) : list (list cop) :=
  [[ONew (Some (ArgInt 0%Z)) [] []; ODraw 0 "params"]; OCopy 0 :: repeat (ODraw 1 "params") (S n) ++ repeat (ODraw 1 "params") n].
Theorem C99_late_store_refuted : forall blake n, exists schedule,
  let s := trun blake (tstart (late_progs n)) schedule in
  no_streams (late_progs n) /\ NoDup (root_keys (List.concat (late_progs n))) /\ merges (List.concat (late_progs n)) = [] /\
  exists k0 ks, List.length ks = n /\ drawn (map tc_out (calls_of 0 s)) = [k0] /\ drawn (map tc_out (calls_of 1 s)) = (k0 :: ks) ++ ks.
Proof.
  intros b n. exists ([0; 1; 0; 0] ++ repeat 1 (3 * S n) ++ [0] ++ repeat 1 (3 * n)). cbn zeta.
  assert (RP : forall m, flat_map op_roots (repeat (ODraw 1 "params") m) = []) by (induction m; cbn; auto).
  assert (MP : forall m, merges (repeat (ODraw 1 "params") m) = []) by (unfold merges; induction m; cbn; auto).
  split; [|split; [|split]].
  - intros p [<-|[<-|[]]]; [reflexivity|]. unfold passed_streams. cbn [flat_map app]. rewrite flat_map_app.
    assert (PP : forall m, passed_streams (repeat (ODraw 1 "params") m) = []) by (unfold passed_streams; induction m; cbn; auto).
    fold (passed_streams (repeat (ODraw 1 "params") (S n))). fold (passed_streams (repeat (ODraw 1 "params") n)). now rewrite !PP.
  - unfold root_keys, late_progs. cbn [List.concat app flat_map op_roots]. rewrite app_nil_r, flat_map_app, !RP. repeat constructor. intros [].
  - unfold merges, late_progs. cbn [List.concat app flat_map]. rewrite app_nil_r, flat_map_app. fold (merges (repeat (ODraw 1 "params") (S n))). fold (merges (repeat (ODraw 1 "params") n)). now rewrite !MP.
  - exists (nth_key b 0), (map (nth_key b) (seq 1 n)). split; [now rewrite map_length, seq_length|].
    set (r0 := mkCall 0 0 (ONew (Some (ArgInt 0%Z)) [] []) OutDone). set (r1 := mkCall 1 0 (OCopy 0) OutDone).
    rewrite trun_app.
    change (trun b (tstart (late_progs n)) [0; 1; 0; 0]) with
      (two 0 0 0 (mkTT 0 (TDraw2 0 0 0) [ODraw 0 "params"]) (repeat (ODraw 1 "params") (S n) ++ repeat (ODraw 1 "params") n) [r0; r1]).
    rewrite trun_app, draw_many, trun_app.
    set (l1 := [r0; r1] ++ map _ (seq 0 (S n))).
    change (trun b (two (0 + S n) 0 0 (mkTT 0 (TDraw2 0 0 0) [ODraw 0 "params"]) (repeat (ODraw 1 "params") n) l1) [0]) with
      (two 1 0 0 (mkTT 0 TIdle []) (repeat (ODraw 1 "params") n) (l1 ++ [mkCall 0 0 (ODraw 0 "params") (OutKey (nth_key b 0))])).
    rewrite <- (app_nil_r (repeat (ODraw 1 "params") n)), draw_many.
    unfold calls_of, two. cbn [ts_ret].
    assert (F1 : forall l, filter (fun r => Nat.eqb (tc_thread r) 1) (map (fun k => mkCall 1 0 (ODraw 1 "params") (OutKey (nth_key b k))) l) = map (fun k => mkCall 1 0 (ODraw 1 "params") (OutKey (nth_key b k))) l) by (induction l; cbn; congruence).
    assert (F0 : forall l, filter (fun r => Nat.eqb (tc_thread r) 0) (map (fun k => mkCall 1 0 (ODraw 1 "params") (OutKey (nth_key b k))) l) = []) by (induction l; cbn; congruence).
    assert (D : forall l, drawn (map tc_out (map (fun k => mkCall 1 0 (ODraw 1 "params") (OutKey (nth_key b k))) l)) = map (nth_key b) l) by (unfold drawn; induction l; cbn; congruence).
    split.
    + unfold l1. rewrite !filter_app, !F0. reflexivity.
    + unfold l1. rewrite !filter_app, !F1. rewrite !map_app, !drawn_app, !D. cbn. now rewrite app_nil_r.
Qed.

(** The plain form: two threads draw the same key. *)
Theorem C99_copied_refuted : forall blake, exists progs schedule,
  no_streams progs /\ NoDup (root_keys (List.concat progs)) /\ merges (List.concat progs) = [] /\
  exists k, drawn (map tc_out (calls_of 0 (trun blake (tstart progs) schedule))) = [k] /\
            drawn (map tc_out (calls_of 1 (trun blake (tstart progs) schedule))) = [k].
Proof.
  intros b. destruct (C99_late_store_refuted b 0) as (sched & N & R & M & k0 & ks & L & D0 & D1). exists (late_progs 0), sched.
  split; [exact N|]. split; [exact R|]. split; [exact M|]. exists k0. split; [exact D0|]. destruct ks; [exact D1|discriminate].
Qed.

(** ** The hypotheses are met *)

(** Three threads; the third merges pure contexts of the others, one of them while it is
    inside a trace; the second tries to use and does not copy a Context of the first. *)
Definition ex_progs : list (list cop) :=
  [ [ONew (Some (ArgInt 0%Z)) [] [("dropout", ArgInt 1%Z)]; ODraw 0 "params"; OPart 0; ODraw 0 "dropout"];
    [ONew (Some (ArgInt 2%Z)) [] []; OCopy 1; ODraw 2 "params"; ODraw 0 "params"; OPart 1; ODraw 1 "params"];
    [OMerge 0; ODraw 3 "dropout"; OTrace (2, 1); OMerge 1; ODraw 4 "params"; ODraw 3 "params"; OTrace (2, 0); ODraw 3 "params"] ].
Definition ex_sched : list nat :=
  [0; 1; 0; 1; 0; 1; 1; 0; 0; 1; 1; 0; 0; 1; 0; 1; 0; 0; 1; 0; 0; 1; 0; 2; 1; 2; 0; 2; 1; 2; 2; 0; 2; 1; 2; 1; 2; 2; 1; 2; 2; 2; 0; 2; 0; 2; 2; 2].
Example C99_ex_hyps : forall blake, no_streams ex_progs /\ no_foreign_copies blake (tstart ex_progs) ex_sched /\
  NoDup (root_keys (List.concat ex_progs)) /\ NoDup (merges (List.concat ex_progs)).
Proof.
  intros b. split; [intros p [<-|[<-|[<-|[]]]]; reflexivity|]. split; [|split; repeat constructor; cbn; intuition discriminate].
  apply no_foreign_check. vm_compute. reflexivity.
Qed.
Example C99_ex_run : let s := trun (fun _ => 0) (tstart ex_progs) ex_sched in
  map (fun th => (tt_pc th, tt_todo th)) (ts_threads s) = [(TIdle, []); (TIdle, []); (TIdle, [])] /\
  map (fun r => (tc_thread r, tc_op r, match tc_out r with OutKey (KFold k _) => OutKey k | o => o end)) (skipn 2 (ts_ret s)) =
  [ (1, OCopy 1, OutDone); (0, ODraw 0 "params", OutKey (KSeed 0)); (1, ODraw 2 "params", OutKey (KSeed 2));
    (1, ODraw 0 "params", OutErr TraceContextError); (0, OPart 0, OutDone); (2, OMerge 0, OutDone); (1, OPart 1, OutDone);
    (2, ODraw 3 "dropout", OutKey (KSeed 1)); (2, OTrace (2, 1), OutDone); (0, ODraw 0 "dropout", OutKey (KSeed 1));
    (2, OMerge 1, OutDone); (1, ODraw 1 "params", OutKey (KSeed 2)); (2, ODraw 4 "params", OutKey (KSeed 2));
    (2, ODraw 3 "params", OutErr TraceContextError); (2, OTrace (2, 0), OutDone); (2, ODraw 3 "params", OutKey (KSeed 0)) ]
  /\ made_by s = [0; 1; 1; 2; 2].
Proof. vm_compute. auto. Qed.
(** A foreign call about to be made: thread 1, [ODraw 0 "params"] (for [C99_foreign]). *)
Example C99_ex_foreign : let s := trun (fun _ => 0) (tstart ex_progs) (firstn 10 ex_sched) in
  exists th rest, nth_error (ts_threads s) 1 = Some th /\ tt_pc th = TIdle /\ tt_todo th = ODraw 0 "params" :: rest /\ nth_error (made_by s) 0 = Some 0.
Proof. eexists _, _. vm_compute. auto 10. Qed.

Print Assumptions C99_program_order.
Print Assumptions C99_one_by_one_partial.
Print Assumptions C99_keys_partial.
Print Assumptions C99_own_thread.
Print Assumptions C99_foreign.
Print Assumptions C99_late_store_refuted.
Print Assumptions C99_copied_refuted.
