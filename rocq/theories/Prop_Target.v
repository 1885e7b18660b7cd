(** Prop_Target: C114, a moving average of a model (a target network). *)
From Coq Require Import Lia.
From Verif Require Import PyBase PyBaseFacts ValuesM Spec_Eq ValuesFacts FiltersM StateM ModuleM PureM TransformM GradFunM JitCacheM TrainLoopM EarlyM TargetM
  Spec_Module Spec_Prog Spec_GradFun Spec_TrainLoop Spec_Early Spec_Target
  Graph_facts Dfs_proofs Prop_GradFun Prop_TrainLoop Early_proofs TrainLoop_proofs Prop_Early Target_proofs Ex_Module.
Local Open Scope string_scope.
Local Open Scope list_scope.

(** *** C114 *)
(** However the model is trained, and wherever an epoch raises: the model is what it would be
    without the target; every entry of the target is the average of the values the model had
    there after the clone and after every finished epoch; in everything else the target reads
    like the model it was cloned from.  They never share a Module, other objects are left
    alone. *)
Theorem C114_average :
  forall mix w r epochs log wz res,
  wf_world w -> r < List.length (w_heap w) -> names_ok w r -> live w r -> gives_nodes w mix -> history steady r w epochs log wz res ->
  exists t w0 w' avg wl, clone w r = Ok (t, w0) /\ track mix epochs w0 r t = (w', res) /\
    reads_like wz r w' r /\ separate w' r t /\
    averaged mix w r log avg /\ update_state w r (UStates (One avg)) = (wl, Ok tt) /\ get_state wl r = Ok avg /\ reads_like wl r w' t /\ get_module_def w' t = get_module_def w r /\
    (forall x o, get_obj w x = Some o -> ~ reaches w r x -> get_obj w' x = Some o) /\ w_trace w' = w_trace w.
Proof.
  intros mix w r l log wz res W V N L GN H. destruct (target_ok mix w r l log wz res W V N L GN H) as (t & w0 & w' & avg & wl & C & E & R & S & A & U & G & LK & D & _ & F & T).
  exists t, w0, w', avg, wl. do 7 (split; [assumption|]). split; [now apply like_reads|]. split; [rewrite (lk_def _ _ _ _ LK); exact D|]. auto.
Qed.
Print Assumptions C114_average.
(** With [mix = lambda t, m: m] the target is the model of the last finished epoch. *)
Theorem C114_copied :
  forall w r epochs log score wb wz res,
  wf_world w -> r < List.length (w_heap w) -> names_ok w r -> live w r -> history steady r w epochs (log ++ [(score, wb)]) wz res ->
  exists t w0 w', clone w r = Ok (t, w0) /\ track (fun _ y => y) epochs w0 r t = (w', res) /\ reads_like wz r w' r /\ reads_like wb r w' t /\ separate w' r t.
Proof. intros w r l log score wb wz res W V N L H. exact (copied_ok w r l log score wb wz res W V N L H). Qed.
Print Assumptions C114_copied.
(** If the two no longer have the same entries, or a Variable is of another class, the update
    raises ValueError and changes nothing. *)
Theorem C114_refused :
  forall mix w r t s u,
  get_state w t = Ok s -> get_state w r = Ok u ->
  (keys u <> keys s \/ exists k c d, dget k s = Some (ACont c) /\ dget k u = Some (ACont d) /\ c_cls c <> c_cls d) ->
  soft_update mix w r t = (w, Err ValueError).
Proof.
  intros mix w r t s u Gs Gu H. unfold soft_update. rewrite Gs, Gu. cbn [rbind]. destruct (tree_map2 mix s u) as [n|e] eqn:E.
  - exfalso. destruct H as [H|(k & c & d & H1 & H2 & H3)]; [exact (H (proj1 (tree_map2_keys _ _ _ _ E)))|]. apply H3. apply cls_eqb_eq. exact (tree_map2_cls _ _ _ _ E k c d H1 H2).
  - now rewrite (tree_map2_err _ _ _ _ E).
Qed.
Print Assumptions C114_refused.

(** *** Cases *)
(** Half of the old, half of the new. *)
Definition half (x y : pyval) : pyval := PyObj Array_cls (Nat.div (score_of x + score_of y) 2).
Definition ex_track : list (prog pyval) := [ex_epoch 8 false 3; ex_epoch 40 false 8; ex_epoch 1000 true 9; ex_epoch 1 false 20].
Example C114_hyps :
  wf_world ex_mlp /\ 0 < List.length (w_heap ex_mlp) /\ names_ok ex_mlp 0 /\ live ex_mlp 0 /\ gives_nodes ex_mlp half /\
  exists log wz, history steady 0 ex_mlp ex_track log wz (Err UserError) /\ List.length log = 2.
Proof.
  split; [apply wf_worldb_ok; vm_compute; reflexivity|]. split; [vm_compute; lia|]. split; [apply names_okb_ok; vm_compute; reflexivity|].
  split; [apply liveb_ok; vm_compute; reflexivity|]. split.
  - intros x y _ _ _ _. split; [|reflexivity]. exists "jax.Array". split; vm_compute; auto 10.
  - eexists _, _. split.
    + do 2 (eapply hi_epoch; [apply ex_epoch_ok|vm_compute; reflexivity|steady|]). eapply hi_raised; [apply ex_epoch_ok|vm_compute; reflexivity|steady].
    + reflexivity.
Qed.
Example C114_example :
  exists t w0 w', clone ex_mlp 0 = Ok (t, w0) /\ track half ex_track w0 0 t = (w', Err UserError) /\
    get_state ex_mlp 0 = Ok [("count", arr 0); ("linear1/w", param 3); ("linear2/w", param 5)] /\
    get_state w' 0 = Ok [("count", arr 3); ("linear1/w", param 1051); ("linear2/w", param 53)] /\
    get_state w' t = Ok [("count", arr 1); ("linear1/w", param 29); ("linear2/w", param 31)].
Proof. eexists _, _, _. repeat (split; [vm_compute; reflexivity|]). vm_compute. reflexivity. Qed.
Print Assumptions C114_example.
(** The model gets a counter of its own after the clone. *)
Example C114_refused_example :
  exists t w0 w1 w', clone ex_mlp 0 = Ok (t, w0) /\ setattr w0 0 "seen" (arr 4) = Ok w1 /\ soft_update half w1 0 t = (w', Err ValueError) /\ get_state w' t = get_state ex_mlp 0.
Proof. eexists _, _, _, _. repeat (split; [vm_compute; reflexivity|]). vm_compute. reflexivity. Qed.
