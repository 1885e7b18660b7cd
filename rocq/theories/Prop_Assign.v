(** Prop_Assign: C92, what assigning and deleting attributes does to the State and
    the definition. *)
From Coq Require Import Lia ZArith.
From Verif Require Import PyBase PyBaseFacts ValuesM Spec_Eq ValuesFacts StateM Spec_State ModuleM Spec_Module Spec_Assign
  Graph_facts Dfs_proofs Write_proofs Assign_proofs Ex_Module.
Local Open Scope string_scope.
Local Open Scope list_scope.

(** *** C92 *)
(** All nodes of a reachable Module [x] are listed under one path [p] to it.  The
    path depends on the submodules only: whatever attributes of [x] are added,
    removed and changed, afterwards get_state lists exactly the nodes of [x] under
    [p], and every other entry is as before. *)
Theorem C92_edit :
  forall (w : world) (r x : nat), wf_world w -> r < List.length (w_heap w) -> names_ok w r -> reaches w r x ->
  exists p, follow w r p = Some x /\
    forall w', edited w w' x -> wf_world w' -> names_ok w' r -> exists s s', get_state w r = Ok s /\ get_state w' r = Ok s' /\
      (forall n a, has_char "/" n = false -> (dget (join_path (p ++ [n])) s' = Some a <-> node_attr w' x n a)) /\
      (forall k, (forall n, has_char "/" n = false -> k <> join_path (p ++ [n])) -> dget k s' = dget k s).
Proof. exact edit_state. Qed.
Print Assumptions C92_edit.

Lemma edited_refl w r x : valid w r -> reaches w r x -> edited w w x.
Proof.
  intros Hr Hx. destruct (reaches_valid w r x Hx) as [o Ho]. split; [reflexivity|]. split; [reflexivity|]. split; [reflexivity|].
  exists o, o. repeat split; auto.
Qed.
Lemma key_under k p : Forall no_slash p ->
  (forall m, has_char "/" m = false -> k <> join_path (p ++ [m])) \/ exists m, has_char "/" m = false /\ k = join_path (p ++ [m]).
Proof.
  intros Sp. set (m := List.last (split_slash k) ""). destruct (list_eq_dec string_dec (split_slash k) (p ++ [m])) as [E|E].
  - destruct (has_char "/" m) eqn:C; [|right; exists m; split; [exact C|rewrite <- E; symmetry; apply join_split]].
    left. intros n Sn ->. rewrite split_join in E; [|destruct p; discriminate|apply Forall_app; split; [exact Sp|repeat constructor; exact Sn]].
    apply app_inj_tail in E as [_ <-]. congruence.
  - left. intros n Sn ->. apply E. subst m. rewrite split_join; [|destruct p; discriminate|apply Forall_app; split; [exact Sp|repeat constructor; exact Sn]].
    now rewrite last_last.
Qed.
Lemma one_name w r x p n w' : wf_world w -> valid w r -> names_ok w r -> reaches w r x -> wf_world w' ->
  edited w w' x -> has_char "/" n = false -> starts_with "_module__" n = false ->
  (forall m b, m <> n -> (has_attr w' x m b <-> has_attr w x m b)) ->
  follow w r p = Some x ->
  (forall w', edited w w' x -> wf_world w' -> names_ok w' r -> exists s s', get_state w r = Ok s /\ get_state w' r = Ok s' /\
      (forall n a, has_char "/" n = false -> (dget (join_path (p ++ [n])) s' = Some a <-> node_attr w' x n a)) /\
      (forall k, (forall n, has_char "/" n = false -> k <> join_path (p ++ [n])) -> dget k s' = dget k s)) ->
  exists s s', get_state w r = Ok s /\ get_state w' r = Ok s' /\
    (forall c, dget (join_path (p ++ [n])) s' = Some c <-> node_attr w' x n c) /\
    (forall k, k <> join_path (p ++ [n]) -> dget k s' = dget k s).
Proof.
  intros Hw Hr Hn Hx Hw' He S1 S2 Hm Hp H.
  assert (Hn' : names_ok w' r) by (eapply edited_names; eauto; intros m a Ne Hh; now apply Hm).
  destruct (H w' He Hw' Hn') as (s & s' & G & G' & A & B). destruct (H w (edited_refl w r x Hr Hx) Hw Hn) as (s0 & s1 & G0 & G1 & A0 & B0).
  assert (s0 = s) by congruence. assert (s1 = s) by congruence. subst s0 s1. exists s, s'. split; [exact G|]. split; [exact G'|]. split; [intros c; now apply A|].
  intros k Hk. pose proof (names_no_slash w r p x Hn Hp) as Sp.
  assert (D : (forall m, has_char "/" m = false -> k <> join_path (p ++ [m])) \/ exists m, has_char "/" m = false /\ k = join_path (p ++ [m])).
  { now apply key_under. }
  destruct D as [D|(m & Sm & ->)]; [now apply B|].
  assert (m <> n) by congruence. assert (Eq : forall a, dget (join_path (p ++ [m])) s' = Some a <-> dget (join_path (p ++ [m])) s = Some a).
  { intros a. rewrite A, A0 by assumption. unfold node_attr. destruct He as (En & _). rewrite En. split.
    - intros (o & Ho & Hd & R). destruct (proj1 (Hm m a H0) (ex_intro _ o (conj Ho Hd))) as (o1 & Ho1 & Hd1). exists o1. auto.
    - intros (o & Ho & Hd & R). destruct (proj2 (Hm m a H0) (ex_intro _ o (conj Ho Hd))) as (o1 & Ho1 & Hd1). exists o1. auto. }
  destruct (dget (join_path (p ++ [m])) s') as [a|]; [symmetry; now apply Eq|]. destruct (dget (join_path (p ++ [m])) s) as [a|]; [now apply Eq|reflexivity].
Qed.

Lemma setattr_stored w x n a w' : wf_world w -> attr_ok w a -> setattr w x n a = Ok w' -> exists b, has_attr w' x n b /\ stored_for w x n a b.
Proof.
  intros Hw Ha E. apply setattr_inv in E as (o & b & Ho & Ht & Hn & Has & ->). pose proof (wf_objs _ Hw _ _ Ho) as W. exists b. split.
  { eexists. split; [apply (get_put_same _ _ _ o); exact Ho|]. cbn [m_vars set_vars]. apply dget_dset_same. }
  assert (K : match dget n (m_vars o) with Some old => overwrites old a b | None => b = a end).
  { destruct (dget n (m_vars o)) as [[v|c]|] eqn:D.
    + cbn. destruct a as [u|c']; unfold assign_value in Has; [congruence|]. destruct Ha as [Ha _]. rewrite container_copy_id in Has by exact Ha. cbn in Has. congruence.
    + pose proof (wfo_attrs _ _ W _ _ D) as Wc. unfold assign_value in Has. rewrite replace_value in Has by exact Wc. cbn [overwrites]. destruct a as [u|c'].
      * cbn in Has. congruence.
      * destruct Ha as [Ha _]. destruct (is_equivalent c c') eqn:Q; [|discriminate]. apply (proj1 (is_equivalent_spec c c' Wc Ha)) in Q as [Q1 Q2].
        cbn in Has. split; [exact Q1|]. split; [exact Q2|]. congruence.
    + unfold assign_value in Has. destruct a as [u|c']; [congruence|]. destruct Ha as [Ha _]. rewrite container_copy_id in Has by exact Ha. cbn in Has. congruence. }
  split.
  - intros old (o1 & Ho1 & Hd). assert (o1 = o) by congruence. subst o1. now rewrite Hd in K.
  - intros No. destruct (dget n (m_vars o)) as [old|] eqn:D; [|exact K]. destruct (No old). exists o. auto.
Qed.
(** Assigning something that is no Module to a name that holds no submodule: the
    entry of that name is the new node, or is gone if the new value is static; no
    other entry changes. *)
Theorem C92_assign :
  forall (w : world) (r x : nat), wf_world w -> r < List.length (w_heap w) -> names_ok w r -> reaches w r x ->
  exists p, follow w r p = Some x /\
    forall n a w', has_char "/" n = false -> starts_with "_module__" n = false -> is_submodule a = false -> attr_ok w a ->
      (forall c, ~ has_attr w x n (ARaw (PyMod c))) -> setattr w x n a = Ok w' ->
      (exists b, has_attr w' x n b /\ stored_for w x n a b) /\
      exists s s', get_state w r = Ok s /\ get_state w' r = Ok s' /\
        (forall c, dget (join_path (p ++ [n])) s' = Some c <-> node_attr w' x n c) /\
        (forall k, k <> join_path (p ++ [n]) -> dget k s' = dget k s).
Proof.
  intros w r x Hw Hr Hn Hx. destruct (edit_state w r x Hw Hr Hn Hx) as (p & Hp & H). exists p. split; [exact Hp|].
  intros n a w' S1 S2 Ha Hok Hold Hset. split; [exact (setattr_stored w x n a w' Hw Hok Hset)|]. destruct (setattr_edited w x n a w' Hset Ha Hold) as (He & _ & Hm).
  apply (one_name w r x p n w'); auto. eapply setattr_wf; eauto.
Qed.
Print Assumptions C92_assign.

(** When an assignment is refused, and with what. *)
Theorem C92_assign_refused :
  forall (w : world) (x : nat) (o : mobj) (n : string) (a : attr), wf_world w -> get_obj w x = Some o -> attr_ok w a -> n <> "_module__state" ->
  (m_trace o <> w_trace w -> setattr w x n a = Err TraceContextError) /\
  (m_trace o = w_trace w -> forall c d, has_attr w x n (ACont c) -> a = ACont d -> ~ (c_cls c = c_cls d /\ same_meta (c_meta c) (c_meta d)) ->
     setattr w x n a = Err ValueError) /\
  (m_trace o = w_trace w -> (forall c d, has_attr w x n (ACont c) -> a = ACont d -> c_cls c = c_cls d /\ same_meta (c_meta c) (c_meta d)) ->
     exists w', setattr w x n a = Ok w').
Proof.
  intros w x o n a Hw Ho Ha Hn. pose proof (wf_objs _ Hw _ _ Ho) as W. unfold setattr. rewrite Ho. apply String.eqb_neq in Hn. rewrite Hn.
  assert (T : trace_valid w (m_trace o) = true <-> m_trace o = w_trace w) by apply trace_valid_iff.
  split; [|split].
  - intros Ne. destruct (trace_valid w (m_trace o)); [destruct Ne; now apply T|reflexivity].
  - intros E c d (o1 & Ho1 & Hd) -> Ne. assert (o1 = o) by congruence. subst o1. rewrite (proj2 T E). cbn [negb]. rewrite Hd.
    pose proof (wfo_attrs _ _ W _ _ Hd) as Wc. unfold assign_value. rewrite replace_value by exact Wc. destruct Ha as [Wd _].
    destruct (is_equivalent c d) eqn:Q; [|reflexivity]. destruct Ne. now apply (proj1 (is_equivalent_spec c d Wc Wd)).
  - intros E H. rewrite (proj2 T E). cbn [negb]. destruct (dget n (m_vars o)) as [[v|c]|] eqn:D.
    + destruct a as [u|d]; cbn [assign_value]; [cbn [rbind]; eauto|]. destruct Ha as [Wd _]. rewrite container_copy_id by exact Wd. cbn. eauto.
    + pose proof (wfo_attrs _ _ W _ _ D) as Wc. unfold assign_value. rewrite replace_value by exact Wc. destruct a as [u|d]; [cbn; eauto|].
      destruct Ha as [Wd _]. rewrite (proj2 (is_equivalent_spec c d Wc Wd)); [cbn; eauto|]. apply (H c d); [exists o; auto|reflexivity].
    + destruct a as [u|d]; cbn [assign_value]; [cbn [rbind]; eauto|]. destruct Ha as [Wd _]. rewrite container_copy_id by exact Wd. cbn. eauto.
Qed.
Print Assumptions C92_assign_refused.

(** Deleting an attribute that is no submodule: its entry is gone, no other entry
    changes.  A name that is not there: AttributeError. *)
Theorem C92_delete :
  forall (w : world) (r x : nat), wf_world w -> r < List.length (w_heap w) -> names_ok w r -> reaches w r x ->
  exists p, follow w r p = Some x /\
    forall n w', has_char "/" n = false -> starts_with "_module__" n = false ->
      (forall c, ~ has_attr w x n (ARaw (PyMod c))) -> delattr w x n = Ok w' ->
      exists s s', get_state w r = Ok s /\ get_state w' r = Ok s' /\
        dget (join_path (p ++ [n])) s' = None /\
        (forall k, k <> join_path (p ++ [n]) -> dget k s' = dget k s).
Proof.
  intros w r x Hw Hr Hn Hx. destruct (edit_state w r x Hw Hr Hn Hx) as (p & Hp & H). exists p. split; [exact Hp|].
  intros n w' S1 S2 Hold Hdel. destruct (delattr_edited w x n w' Hw Hdel Hold) as (He & Hno & Hm).
  destruct (one_name w r x p n w') as (s & s' & G & G' & A & B); auto; [eapply delattr_wf; eauto|].
  exists s, s'. split; [exact G|]. split; [exact G'|]. split; [|exact B].
  destruct (dget (join_path (p ++ [n])) s') as [c|] eqn:E; [|reflexivity]. destruct (proj1 (A c) eq_refl) as (o & Ho & Hd & _). exfalso. apply (Hno c). exists o. auto.
Qed.
Print Assumptions C92_delete.
Theorem C92_delete_missing :
  forall (w : world) (x : nat) (n : string) (o : mobj), get_obj w x = Some o ->
  (delattr w x n = Err AttributeError <-> forall a, ~ has_attr w x n a) /\
  ((exists a, has_attr w x n a) -> exists w', delattr w x n = Ok w').
Proof.
  intros w x n o Ho. unfold delattr, has_attr, dmem. rewrite Ho. destruct (dget n (m_vars o)) as [a|] eqn:M; split.
  - split; [discriminate|]. intros H. exfalso. apply (H a). eauto.
  - eauto.
  - split; [|reflexivity]. intros _ a (q & [= <-] & Hd). congruence.
  - intros (a & q & [= <-] & Hd). congruence.
Qed.
Print Assumptions C92_delete_missing.

(** Nodes are not in the definition: assigning a node to a name that holds a node
    or nothing, and deleting a node, keep it. *)
Theorem C92_definition :
  forall (w w' : world) (r x : nat) (n : string), wf_world w ->
  (forall c, ~ has_attr w x n (ARaw (PyMod c))) -> (forall a, ~ static_attr w x n a) ->
  ((exists a, is_submodule a = false /\ attr_ok w a /\ setattr w x n a = Ok w' /\ forall b, ~ static_attr w' x n b) \/ delattr w x n = Ok w') ->
  get_module_def w' r = get_module_def w r.
Proof.
  intros w w' r x n Hw Hold Hst H.
  assert (K : wf_world w' /\ edited w w' x /\ (forall b, ~ static_attr w' x n b) /\ forall m b, m <> n -> (has_attr w' x m b <-> has_attr w x m b)).
  { destruct H as [(a & Ha & Hok & Hset & Hb)|Hdel].
    - destruct (setattr_edited w x n a w' Hset Ha Hold) as (He & _ & Hm). split; [eapply setattr_wf; eauto|]. auto.
    - destruct (delattr_edited w x n w' Hw Hdel Hold) as (He & Hno & Hm). split; [eapply delattr_wf; eauto|]. split; [exact He|]. split; [|exact Hm].
      intros b (o & Ho & Hd & _). apply (Hno b). exists o. auto. }
  destruct K as (Hw' & He & Hb & Hm). apply (edit_def w w' x); auto. intros m b. destruct (string_dec m n) as [->|Ne].
  - split; intros G; [destruct (Hb b G)|destruct (Hst b G)].
  - destruct He as (En & _). unfold static_attr. rewrite En. split; intros (o & Ho & Hd & R).
    + destruct (proj1 (Hm m b Ne) (ex_intro _ o (conj Ho Hd))) as (o1 & Ho1 & Hd1). exists o1. auto.
    + destruct (proj2 (Hm m b Ne) (ex_intro _ o (conj Ho Hd))) as (o1 & Ho1 & Hd1). exists o1. auto.
Qed.
Print Assumptions C92_definition.

(** What is not so.  Assigning a submodule under a second name can move every entry
    below it: the state names a Module by its first path in name order. *)
Theorem C92_submodule_refuted :
  ~ (forall (w w' : world) (r x : nat) (n : string) (c : nat) s s' k,
       wf_world w -> names_ok w r -> reaches w r x -> (forall a, ~ has_attr w x n a) ->
       setattr w x n (ARaw (PyMod c)) = Ok w' -> get_state w r = Ok s -> get_state w' r = Ok s' ->
       dmem k s = true -> dmem k s' = true).
Proof.
  intros H.
  assert (E : exists w', setattr ex_dag 0 "a" (ARaw (PyMod 2)) = Ok w' /\ exists s s', get_state ex_dag 0 = Ok s /\ get_state w' 0 = Ok s' /\
            dmem "out/w" s = true /\ dmem "out/w" s' = false).
  { eexists. split; [vm_compute; reflexivity|]. do 2 eexists. repeat split; vm_compute; reflexivity. }
  destruct E as (w' & Hset & s & s' & G & G' & K & K'). destruct ex_dag_ok as (Hw & Hn & _).
  assert (Hx : reaches ex_dag 0 0) by (exists []; reflexivity).
  assert (Ha : forall a, ~ has_attr ex_dag 0 "a" a) by (intros a (o & [= <-] & Hd); vm_compute in Hd; discriminate).
  specialize (H _ _ _ _ _ _ _ _ _ Hw Hn Hx Ha Hset G G' K). congruence.
Qed.
Print Assumptions C92_submodule_refuted.
(** A Module of another trace refuses assignment, but not deletion. *)
Theorem C92_delete_unguarded_refuted :
  ~ (forall (w : world) (x : nat) (n : string) (a : attr), has_attr w x n a ->
       setattr w x n a = Err TraceContextError -> exists e, delattr w x n = Err e).
Proof.
  intros H.
  destruct (H (mkWorld (w_heap ex_dag) 7 (1, 1) default_node_types) 0 "w" (param 10)) as [e E].
  - eexists. split; reflexivity.
  - vm_compute. reflexivity.
  - vm_compute in E. discriminate.
Qed.
Print Assumptions C92_delete_unguarded_refuted.

(** The hypotheses are met: in [ex_cyc] the Module at ref 3 is reached on the path
    "inp/norm" and on "out/norm"; its state is under "inp/norm". *)
Example C92_assign_used :
  wf_world ex_cyc /\ names_ok ex_cyc 0 /\ follow ex_cyc 0 ["inp"; "norm"] = Some 3 /\
  exists w' s s', setattr ex_cyc 3 "mean" (stat 77) = Ok w' /\ get_state ex_cyc 0 = Ok s /\ get_state w' 0 = Ok s' /\
    dget "inp/norm/mean" s = Some (stat 14) /\ dget "inp/norm/mean" s' = Some (stat 77) /\ dget "out/norm/mean" s' = None /\
    dget "w" s' = Some (param 10) /\ List.length s = List.length s' /\ get_module_def w' 0 = get_module_def ex_cyc 0.
Proof.
  destruct ex_cyc_ok as (Hw & Hn & _). split; [exact Hw|]. split; [exact Hn|]. split; [vm_compute; reflexivity|].
  do 3 eexists. split; [vm_compute; reflexivity|]. split; [vm_compute; reflexivity|]. split; [vm_compute; reflexivity|].
  repeat split; vm_compute; reflexivity.
Qed.
(** an array replaced by a static value leaves the state and enters the definition *)
Example C92_static_used :
  exists w' s', setattr ex_cyc 2 "buf" (ARaw (PyInt 5%Z)) = Ok w' /\ get_state w' 0 = Ok s' /\
    dmem "out/buf" s' = false /\ get_module_def w' 0 <> get_module_def ex_cyc 0.
Proof.
  do 2 eexists. split; [vm_compute; reflexivity|]. split; [vm_compute; reflexivity|]. split; [vm_compute; reflexivity|].
  vm_compute. discriminate.
Qed.
Example C92_delete_used :
  exists w' s s', delattr ex_cyc 2 "buf" = Ok w' /\ get_state ex_cyc 0 = Ok s /\ get_state w' 0 = Ok s' /\
    dmem "out/buf" s = true /\ dmem "out/buf" s' = false /\ dget "out/w" s' = Some (param 12) /\
    get_module_def w' 0 = get_module_def ex_cyc 0 /\ delattr w' 2 "buf" = Err AttributeError.
Proof.
  do 3 eexists. split; [vm_compute; reflexivity|]. split; [vm_compute; reflexivity|]. split; [vm_compute; reflexivity|].
  repeat split; vm_compute; reflexivity.
Qed.
