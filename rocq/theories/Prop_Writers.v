(** Property C101: threads that assign to, update and delete from Modules. *)
From Coq Require Import Lia.
From Verif Require Import PyBase PyBaseFacts ValuesM FiltersM StateM ModuleM Spec_Module TransformM WritersM Spec_Writers Writers_proofs Ex_Module.
Local Open Scope string_scope.
Local Open Scope nat_scope.
Local Open Scope list_scope.

(** Every thread may do what it likes to the Modules it made itself, and may try to
    assign to those of the others.  However the steps of the threads alternate, a thread
    that gets enough of them returns from every call with the results, and leaves its
    Modules with the attributes, of a program that makes these calls alone. *)
Theorem C101_as_alone_partial :
  forall (w : world) (threads : list (nat * list wop)) (t level : nat) (ops : list wop),
  wf_world w -> apart w -> (forall t' level' ops', nth_error threads t' = Some (level', ops') -> Forall (own_op w t') ops') ->
  nth_error threads t = Some (level, ops) ->
  exists k, forall sch, k <= turns t sch ->
    let s := wruns (begin w threads) sch in
    exists th, nth_error (ws_threads s) t = Some th /\ wt_todo th = [] /\ wt_pc th = WIdle /\
      wt_outs th = snd (in_turn (t, level) ops w) /\
      forall r, owned w t r -> get_obj (ws_world s) r = get_obj (fst (in_turn (t, level) ops w)) r.
Proof. exact together. Qed.
Print Assumptions C101_as_alone_partial.

(** Whatever Modules refer to each other: as long as nobody deletes, the attributes of a
    Module change only while the thread that made it runs. *)
Theorem C101_guard_partial :
  forall (w : world) (threads : list (nat * list wop)) (sch : list nat) (r : nat) (o : mobj),
  (forall t level ops, nth_error threads t = Some (level, ops) -> Forall no_delete ops) ->
  get_obj w r = Some o -> ~ In (fst (m_trace o)) sch -> get_obj (ws_world (wruns (begin w threads) sch)) r = Some o.
Proof. intros w threads sch r o H G N. apply kept_out; auto. now apply start_guarded. Qed.
Print Assumptions C101_guard_partial.

(** Whatever the other threads do (deletions included), an assignment to a Module that
    was made by another thread or at another level raises TraceContextError. *)
Theorem C101_refused :
  forall (w : world) (threads : list (nat * list wop)) (sch : list nat) (t level : nat) (ops : list wop),
  nth_error threads t = Some (level, ops) -> Forall (not_here w t level) ops ->
  exists th, nth_error (ws_threads (wruns (begin w threads) sch)) t = Some th /\
    wt_outs th = repeat (Err TraceContextError) (Nat.min (turns t sch) (List.length ops)).
Proof.
  intros w threads sch t level ops N F. eexists. split; [apply (refused sch (begin w threads) t level ops [])|reflexivity]; [|exact F].
  cbn. rewrite nth_error_map, N. reflexivity.
Qed.
Print Assumptions C101_refused.

(** ** a case *)
Definition ex_shared : world := mkWorld
  [ mkMobj (Mod_cls "Net") 1 false (0, 0) [("w", param 10); ("inp", sub 1)];
    mkMobj (Mod_cls "Layer") 2 false (0, 0) [("w", param 11); ("up", sub 0); ("buf", arr 13)];
    mkMobj (Mod_cls "Net") 3 false (1, 0) [("w", param 12); ("norm", sub 3)];
    mkMobj (Mod_cls "Norm") 4 false (1, 0) [("mean", stat 14)];
    mkMobj (Mod_cls "Other") 5 false (0, 1) [("w", param 20)] ]
  5 (0, 0) default_node_types.
Definition ex_jobs : list (nat * list wop) :=
  [ (0, [WUpdate 0 [[("inp/w", param 50)]]; WAssign 2 "w" (param 51); WDelete 1 "buf"; WLevel 1; WAssign 4 "w" (param 52); WAssign 0 "w" (param 53)]);
    (0, [WAssign 3 "mean" (stat 60); WAssign 1 "w" (param 61); WUpdate 2 [[("w", param 62)]]; WDelete 2 "norm"]) ].
Lemma ex_shared_apart : apart ex_shared.
Proof.
  intros r o name a G I q ->. do 5 (destruct r as [|r]; [injection G as <-; cbn in I |- *; repeat (destruct I as [I|I]; [try discriminate; injection I as <- <-; eexists; split; reflexivity|]); now destruct I|]).
  destruct r; discriminate.
Qed.
Example C101_ex_hyps : wf_world ex_shared /\ apart ex_shared /\
  (forall t level ops, nth_error ex_jobs t = Some (level, ops) -> Forall (own_op ex_shared t) ops).
Proof.
  split; [apply wf_worldb_ok; vm_compute; reflexivity|]. split; [exact ex_shared_apart|].
  assert (P : forall t i, own_value ex_shared t (param i) /\ wf_attr (param i)) by (intros; split; [intros r; discriminate|apply wf_containerb_ok; reflexivity]).
  assert (B : forall t i, own_value ex_shared t (stat i) /\ wf_attr (stat i)) by (intros; split; [intros r; discriminate|apply wf_containerb_ok; reflexivity]).
  intros [|[|[|]]] level ops; cbn [ex_jobs nth_error]; intros [= <- <-]; repeat (apply Forall_cons || apply Forall_nil); cbn [own_op]; try apply P; try apply B; try exact Logic.I.
  - split; [eexists; split; reflexivity|]. intros u p a [<-|[]] [E|[]]. injection E as _ <-. apply P.
  - eexists. split; reflexivity.
  - split; [eexists; split; reflexivity|]. intros u p a [<-|[]] [E|[]]. injection E as _ <-. apply P.
  - eexists. split; reflexivity.
Qed.
Example C101_ex_run :
  map wt_outs (ws_threads (wruns (begin ex_shared ex_jobs) (List.concat (repeat [0; 1; 1; 0] 30)))) =
    [[Ok tt; Err TraceContextError; Ok tt; Ok tt; Ok tt; Err TraceContextError]; [Ok tt; Err TraceContextError; Ok tt; Ok tt]] /\
  map m_vars (w_heap (ws_world (wruns (begin ex_shared ex_jobs) (List.concat (repeat [0; 1; 1; 0] 30))))) =
    [[("w", param 10); ("inp", sub 1)]; [("w", param 50); ("up", sub 0)]; [("w", param 62)]; [("mean", stat 60)]; [("w", param 52)]].
Proof. split; vm_compute; reflexivity. Qed.

(** ** what is not so *)
(** [del module.attribute] from another thread is not refused *)
Theorem C101_delete_refuted :
  ~ (forall (w : world) (threads : list (nat * list wop)) (sch : list nat) (r : nat) (o : mobj),
       wf_world w -> get_obj w r = Some o -> ~ In (fst (m_trace o)) sch -> get_obj (ws_world (wruns (begin w threads) sch)) r = Some o).
Proof.
  intros H. specialize (H ex_shared [(0, []); (0, [WDelete 1 "buf"])] [1] 1 (mkMobj (Mod_cls "Layer") 2 false (0, 0) [("w", param 11); ("up", sub 0); ("buf", arr 13)])).
  assert (W : wf_world ex_shared) by (apply wf_worldb_ok; vm_compute; reflexivity). specialize (H W eq_refl). assert (N : ~ In 0 [1]) by (intros [D|[]]; discriminate).
  specialize (H N). vm_compute in H. discriminate.
Qed.
Print Assumptions C101_delete_refuted.

(** If a Module holds a Module of another thread, whether [update_state] returns depends
    on what the other thread did before. *)
Definition ex_mixed : world := mkWorld
  [ mkMobj (Mod_cls "Net") 1 false (0, 0) [("w", param 10); ("peer", sub 1)];
    mkMobj (Mod_cls "Peer") 2 false (1, 0) [("name", ARaw (PyStr "p"))] ]
  2 (0, 0) default_node_types.
Definition ex_mixed_jobs : list (nat * list wop) := [(0, [WUpdate 0 []]); (0, [WAssign 1 "w" (param 5)])].
Lemma ex_mixed_done k : map wt_outs (ws_threads (wruns (begin ex_mixed ex_mixed_jobs) ([1; 1] ++ repeat 0 20 ++ repeat 0 k))) = [[Err TraceContextError]; [Ok tt]].
Proof.
  unfold wruns. rewrite app_assoc, fold_left_app. set (s := fold_left wstep ([1; 1] ++ repeat 0 20) (begin ex_mixed ex_mixed_jobs)). vm_compute in s.
  assert (ST : fold_left wstep (repeat 0 k) s = s) by (induction k as [|k IH]; [reflexivity|exact IH]). rewrite ST. reflexivity.
Qed.
Theorem C101_shared_refuted :
  ~ (forall (w : world) (threads : list (nat * list wop)) (t level : nat) (ops : list wop),
       wf_world w -> (forall t' level' ops', nth_error threads t' = Some (level', ops') -> Forall (own_op w t') ops') ->
       nth_error threads t = Some (level, ops) ->
       exists k, forall sch, k <= turns t sch ->
         nth_error (map wt_outs (ws_threads (wruns (begin w threads) sch))) t = Some (snd (in_turn (t, level) ops w))).
Proof.
  intros H. destruct (H ex_mixed ex_mixed_jobs 0 0 [WUpdate 0 []]) as [k K].
  - apply wf_worldb_ok. vm_compute. reflexivity.
  - intros [|[|[|]]] level ops; cbn [ex_mixed_jobs nth_error]; intros [= <- <-]; repeat (apply Forall_cons || apply Forall_nil); cbn [own_op].
    + split; [eexists; split; reflexivity|]. intros u p a [].
    + split; [intros r; discriminate|apply wf_containerb_ok; reflexivity].
  - reflexivity.
  - assert (E := K ([1; 1] ++ repeat 0 20 ++ repeat 0 k)). assert (L : k <= turns 0 ([1; 1] ++ repeat 0 20 ++ repeat 0 k)).
    + unfold turns. rewrite !count_occ_app. assert (C : count_occ Nat.eq_dec (repeat 0 k) 0 = k) by now apply count_occ_repeat_eq. rewrite C. lia.
    + specialize (E L). rewrite ex_mixed_done in E. vm_compute in E. discriminate.
Qed.
Print Assumptions C101_shared_refuted.
