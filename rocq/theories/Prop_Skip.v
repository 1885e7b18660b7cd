(** Prop_Skip: C113, training steps that raise. *)
From Coq Require Import Lia.
From Verif Require Import PyBase PyBaseFacts ValuesM Spec_Eq ValuesFacts FiltersM StateM ModuleM PureM TransformM GradFunM JitCacheM TrainLoopM FineTuneM SkipM
  Spec_Module Spec_Prog Spec_GradFun Spec_Functional Spec_TrainLoop Spec_FineTune Spec_Skip State_proofs
  Graph_facts Dfs_proofs Bisim_proofs Clone_proofs Transform_proofs Functional_proofs GradFun_proofs Prop_Transform Prop_GradFun TrainLoop_proofs FineTune_proofs Skip_proofs Ex_Module Prop_TrainLoop.
Local Open Scope string_scope.
Local Open Scope list_scope.

(** *** C113 *)
(** If the forward pass of a batch raises, at any point, the loop with nnx.jit and nnx.grad
    ends with that exception; the model is as the steps before have left it, at every path,
    and nothing else has changed.  What the forward pass had written is not there. *)
Theorem C113_lifted :
  forall (wrt : filt) (D : grad_op) (sgd : pyval -> pyval -> pyval) r w losses wd f wx e rest t1 t2,
  structural wrt -> differentiates D -> wf_world w -> r < List.length (w_heap w) -> names_ok w r -> live w r -> In "jax.Array" (w_nodes w) ->
  trained D sgd wrt anything r w losses wd -> ok_prog f -> run f wd [r] = (wx, Err e) ->
  exists w', lifted_loop wrt t1 t2 D sgd (map user_fun losses ++ user_fun f :: rest) w r = (w', Err e) /\
    (forall p, look w' r p = look wd r p) /\ (forall p q, follow w' r p = follow w' r q <-> follow wd r p = follow wd r q) /\
    get_state w' r = get_state wd r /\ get_module_def w' r = get_module_def wd r /\
    (forall p, follow w' r p = follow w r p) /\
    (forall x o, get_obj w x = Some o -> ~ reaches w r x -> get_obj w' x = Some o) /\ w_trace w' = w_trace w.
Proof.
  intros wrt D sgd r w losses wd f wx e rest t1 t2 HS HD W V N L J T Hf Hrun.
  destruct (lifted_loop_ok wrt D sgd r losses HS HD w wd w r t1 t2 J T (like_refl w r W V N L)) as (w1 & E & LK & A).
  destruct (lifted_raises wrt D sgd f wd r wx e w1 r t1 t2 HS Hf Hrun LK) as (w' & E' & LK' & U & Tr).
  assert (A' : apart w r w') by (eapply apart_trans; [exact A|]; apply unchanged_apart; auto; apply LK).
  exists w'. rewrite lifted_app, E. cbn [lifted_loop]. rewrite E'. split; [reflexivity|].
  destruct A' as (A1 & A2 & A3). split; [intros p; now apply like_look|]. split; [intros p q; now apply like_alias|].
  split; [apply LK'|]. split; [apply LK'|]. auto.
Qed.
Print Assumptions C113_lifted.

(** With States instead of the model: the exception comes through, and no existing Module
    has changed; the States of before are as they are. *)
Theorem C113_pure :
  forall (wrt : filt) (D : grad_op) (sgd : pyval -> pyval -> pyval) r w losses wd f wx e rest v p t1 t2,
  structural wrt -> differentiates D -> wf_world w -> r < List.length (w_heap w) -> names_ok w r -> live w r -> In "jax.Array" (w_nodes w) ->
  trained D sgd wrt anything r w losses wd -> ok_prog f -> run f wd [r] = (wx, Err e) ->
  parts_of p w r -> wf_world v -> w_nodes v = w_nodes w ->
  exists v', pure_loop wrt t1 t2 D sgd (map user_fun losses ++ user_fun f :: rest) v p = (v', Err e) /\ all_unchanged v v' /\ w_trace v' = w_trace v.
Proof.
  intros wrt D sgd r w losses wd f wx e rest v p t1 t2 HS HD W V N L J T Hf Hrun Hp Wv Nv.
  destruct (pure_loop_ok wrt D sgd r losses HS HD w wd v v p t1 t2 J T) as (v1 & p1 & E & H1). { constructor; auto. intros x o Ho. exact Ho. }
  destruct (pure_raises wrt D sgd f wd r wx e v v1 p1 t1 t2 HS Hf Hrun H1) as (v' & E' & H').
  exists v'. rewrite pure_app, E. cbn [pure_loop]. rewrite E'. split; [reflexivity|]. split; apply H'.
Qed.
Print Assumptions C113_pure.
Theorem C113_functional :
  forall (D : grad_op) (sgd : pyval -> pyval -> pyval) r w losses wd f wx e rest v params buffers d t,
  differentiates D -> wf_world w -> r < List.length (w_heap w) -> names_ok w r -> live w r -> In "jax.Array" (w_nodes w) ->
  trained D sgd (FType "Param") (params_alone r) r w losses wd -> ok_prog f -> run f wd [r] = (wx, Err e) ->
  module_partition w r [FType "Param"; FEllipsis] = Ok (mkPure (Many [params; buffers]) d) -> wf_world v -> w_nodes v = w_nodes w ->
  exists v', functional_loop t D sgd d (map user_fun losses ++ user_fun f :: rest) v params buffers = (v', Err e) /\ all_unchanged v v' /\ w_trace v' = w_trace v.
Proof.
  intros D sgd r w losses wd f wx e rest v params buffers d t HD W V N L J T Hf Hrun Hp Wv Nv.
  revert v params buffers Wv Nv Hp. induction T as [w|w g diff w1 out par w2 l w3 Hg Hdiff Vd Hr Hst HQ Hpar Vp Hup T IH]; intros v a b Wv Nv Hp.
  - destruct (functional_raises D sgd f w r wx e v a b d t Hf Hrun W V N L Wv Nv Hp) as (v' & E & U & _ & _ & Tr). exists v'. cbn [map app functional_loop]. rewrite E. auto.
  - destruct (functional_step_ok D sgd g w r diff w1 out par w2 v a b d t HD J Hg Hdiff Vd Hr Hst HQ Hpar Vp Hup W V N L Wv Nv Hp)
      as (v1 & a1 & b1 & E & P1 & W2 & V2 & N2 & L2 & Nw & U1 & Wv1 & Nv1 & T1).
    cbn [map app functional_loop]. rewrite E. destruct (IH W2 V2 N2 L2) with (v := v1) (params := a1) (buffers := b1) as (v2 & E2 & U2 & T2); auto; [now rewrite Nw|congruence|].
    exists v2. split; [exact E2|]. split; [intros x o Ho; apply U2, U1, Ho|congruence].
Qed.
Print Assumptions C113_functional.
Theorem C113_tune :
  forall (wrt : filt) (D : grad_op) (sgd : pyval -> pyval -> pyval) r w losses wd f wx e rest v trainable frozen d t,
  structural wrt -> differentiates D -> wf_world w -> r < List.length (w_heap w) -> names_ok w r -> live w r -> In "jax.Array" (w_nodes w) ->
  trained D sgd wrt (quiet r) r w losses wd -> ok_prog f -> run f wd [r] = (wx, Err e) ->
  module_partition w r [wrt; FEllipsis] = Ok (mkPure (Many [trainable; frozen]) d) -> wf_world v -> w_nodes v = w_nodes w ->
  exists v', tune_loop t D sgd d frozen (map user_fun losses ++ user_fun f :: rest) v trainable = (v', Err e) /\ all_unchanged v v' /\ w_trace v' = w_trace v.
Proof.
  intros wrt D sgd r w losses wd f wx e rest v a b d t HS HD W V N L J T Hf Hrun Hp Wv Nv. pose proof HS as (pr & Hpr & BC).
  revert v a Wv Nv Hp. induction T as [w|w g diff w1 out par w2 l w3 Hg Hdiff Vd Hr Hst HQ Hpar Vp Hup T IH]; intros v a Wv Nv Hp.
  - destruct (tune_raises wrt D sgd f w r wx e v a b d t HS Hf Hrun W V N L Wv Nv Hp) as (v' & E & U & _ & _ & Tr). exists v'. cbn [map app tune_loop]. rewrite E. auto.
  - pose proof (not_ellipsis _ _ _ _ Hp) as He.
    destruct (tune_step_ok wrt pr D sgd g w r diff w1 out par w2 v a b d t Hpr BC He HD J Hg Hdiff Vd Hr Hst HQ Hpar Vp Hup W V N L Wv Nv Hp)
      as (v1 & a1 & E & P1 & W2 & V2 & N2 & L2 & Nw & U1 & Wv1 & Nv1 & T1).
    cbn [map app tune_loop]. rewrite E. destruct (IH W2 V2 N2 L2) with (v := v1) (a := a1) as (v2 & E2 & U2 & T2); auto; [now rewrite Nw|congruence|].
    exists v2. split; [exact E2|]. split; [intros x o Ho; apply U2, U1, Ho|congruence].
Qed.
Print Assumptions C113_tune.

(** With a handler around the step: batches that raise are as if they had not been there,
    for the model in place ... *)
Theorem C113_skip_lifted :
  forall (wrt : filt) (D : grad_op) (sgd : pyval -> pyval -> pyval) r w losses log wd t1 t2,
  structural wrt -> differentiates D -> wf_world w -> r < List.length (w_heap w) -> names_ok w r -> live w r -> In "jax.Array" (w_nodes w) ->
  trained_but D sgd wrt anything r w losses log wd ->
  exists w', skip_lifted wrt t1 t2 D sgd (map user_fun losses) w r = (w', log) /\
    (forall p, look w' r p = look wd r p) /\ (forall p q, follow w' r p = follow w' r q <-> follow wd r p = follow wd r q) /\
    get_state w' r = get_state wd r /\ get_module_def w' r = get_module_def wd r /\
    (forall p, follow w' r p = follow w r p) /\
    (forall x o, get_obj w x = Some o -> ~ reaches w r x -> get_obj w' x = Some o) /\ w_trace w' = w_trace w.
Proof.
  intros wrt D sgd r w losses log wd t1 t2 HS HD W V N L J T.
  destruct (skip_lifted_ok wrt D sgd r losses log HS HD w wd w r t1 t2 J T (like_refl w r W V N L)) as (w' & E & LK & A1 & A2 & A3).
  exists w'. split; [exact E|]. split; [intros p; now apply like_look|]. split; [intros p q; now apply like_alias|].
  split; [apply LK|]. split; [apply LK|]. auto.
Qed.
Print Assumptions C113_skip_lifted.
(** ... for a PureModule ... *)
Theorem C113_skip_pure :
  forall (wrt : filt) (D : grad_op) (sgd : pyval -> pyval -> pyval) r w losses log wd v p t1 t2,
  structural wrt -> differentiates D -> wf_world w -> r < List.length (w_heap w) -> names_ok w r -> live w r -> In "jax.Array" (w_nodes w) ->
  trained_but D sgd wrt anything r w losses log wd -> parts_of p w r -> wf_world v -> w_nodes v = w_nodes w ->
  exists v' p', skip_pure wrt t1 t2 D sgd (map user_fun losses) v p = (v', p', log) /\ parts_of p' wd r /\ all_unchanged v v' /\ w_trace v' = w_trace v.
Proof.
  intros wrt D sgd r w losses log wd v p t1 t2 HS HD W V N L J T Hp Wv Nv.
  destruct (skip_pure_ok wrt D sgd r losses log HS HD w wd v v p t1 t2 J T) as (v' & p' & E & [H1 H2 H3 H4 H5 H6 H7 H8 H9]).
  { constructor; auto. intros x o Ho. exact Ho. }
  exists v', p'. auto.
Qed.
Print Assumptions C113_skip_pure.
(** ... and for the Params and the buffers. *)
Theorem C113_skip_functional :
  forall (D : grad_op) (sgd : pyval -> pyval -> pyval) r w losses log wd v params buffers d t,
  differentiates D -> wf_world w -> r < List.length (w_heap w) -> names_ok w r -> live w r -> In "jax.Array" (w_nodes w) ->
  trained_but D sgd (FType "Param") (params_alone r) r w losses log wd ->
  module_partition w r [FType "Param"; FEllipsis] = Ok (mkPure (Many [params; buffers]) d) -> wf_world v -> w_nodes v = w_nodes w ->
  exists v' params' buffers', skip_functional t D sgd d (map user_fun losses) v params buffers = (v', (params', buffers'), log) /\
    module_partition wd r [FType "Param"; FEllipsis] = Ok (mkPure (Many [params'; buffers']) d) /\ all_unchanged v v' /\ w_trace v' = w_trace v.
Proof.
  intros D sgd r w losses log wd v params buffers d t HD W V N L J T Hp Wv Nv.
  exact (skip_functional_ok D sgd r losses log HD w wd v params buffers d t J T W V N L Wv Nv Hp).
Qed.
Print Assumptions C113_skip_functional.

(** *** Cases *)
(** [count += 1], [linear1.w = 99], then an exception. *)
Definition ex_bad : prog pyval :=
  Do (CGet 0 "count") (fun n => Do (CSet 0 "count" (arr (S (num n)))) (fun _ =>
  Do (CGet 0 "linear1") (fun _ => Do (CSet 1 "w" (param 99)) (fun _ => Finish (Err UserError))))).
Lemma ex_bad_ok : ok_prog ex_bad.
Proof.
  unfold ex_bad. repeat (apply ok_do; [first [exact Logic.I | split; [exact Logic.I|reflexivity] | split; [apply wf_containerb_ok; reflexivity|reflexivity]]|intros ? _]). constructor.
Qed.
Ltac good_step := eapply one_step; [apply ex_batch_ok|vm_compute; reflexivity|vm_compute; reflexivity|vm_compute; reflexivity|reflexivity|reflexivity|vm_compute; reflexivity|vm_compute; reflexivity|
  eexists _, _; split; [vm_compute; reflexivity|]; split; [vm_compute; reflexivity|]; split; [repeat constructor|]; split; vm_compute; reflexivity|vm_compute; reflexivity|].
Definition ex_mixed : list (prog pyval) := [ex_bad; ex_batch 7; ex_bad; ex_batch 9; ex_bad].
Example C113_hyps :
  differentiates quotient /\ wf_world ex_mlp /\ names_ok ex_mlp 0 /\ live ex_mlp 0 /\ In "jax.Array" (w_nodes ex_mlp) /\
  (exists wd wx, trained quotient ex_sgd (FType "Param") (params_alone 0) 0 ex_mlp [ex_batch 7] wd /\ run ex_bad wd [0] = (wx, Err UserError)) /\
  (exists wd, trained_but quotient ex_sgd (FType "Param") (params_alone 0) 0 ex_mlp ex_mixed [Err UserError; Ok tt; Err UserError; Ok tt; Err UserError] wd).
Proof.
  split; [exact quotient_ok|]. split; [apply wf_worldb_ok; vm_compute; reflexivity|]. split; [apply names_okb_ok; vm_compute; reflexivity|].
  split; [apply liveb_ok; vm_compute; reflexivity|]. split; [vm_compute; auto|]. split.
  - eexists _, _. split; [good_step; apply tr_done|vm_compute; reflexivity].
  - eexists. eapply tb_raised; [apply ex_bad_ok|vm_compute; reflexivity|]. eapply tb_step; [good_step; apply tr_done|].
    eapply tb_raised; [apply ex_bad_ok|vm_compute; reflexivity|]. eapply tb_step; [good_step; apply tr_done|].
    eapply tb_raised; [apply ex_bad_ok|vm_compute; reflexivity|]. apply tb_done.
Qed.
(** The results of C96_example, with two batches. *)
Example C113_example :
  (exists w', skip_lifted (FType "Param") (0, 1) (0, 2) quotient ex_sgd (map user_fun ex_mixed) ex_mlp 0 = (w', [Err UserError; Ok tt; Err UserError; Ok tt; Err UserError]) /\
     get_state w' 0 = Ok [("count", arr 2); ("linear1/w", param 20); ("linear2/w", param 18)]) /\
  (exists w', lifted_loop (FType "Param") (0, 1) (0, 2) quotient ex_sgd (map user_fun [ex_batch 7; ex_bad; ex_batch 9]) ex_mlp 0 = (w', Err UserError) /\
     get_state w' 0 = Ok [("count", arr 1); ("linear1/w", param 10); ("linear2/w", param 8)]).
Proof. split; eexists; split; vm_compute; reflexivity. Qed.

(** Without the transforms it is different: what the forward pass wrote before it raised
    stays in the model. *)
Theorem C113_eager :
  exists (f : prog pyval) w1 e, ok_prog f /\ user_fun f ex_mlp 0 = (w1, Err e) /\ get_state w1 0 <> get_state ex_mlp 0 /\
    exists w2, jit_call true (0, 1) (user_fun f) ex_mlp 0 = (w2, Err e) /\ get_state w2 0 = get_state ex_mlp 0.
Proof.
  exists ex_bad. eexists _, _. split; [apply ex_bad_ok|]. split; [vm_compute; reflexivity|]. split; [vm_compute; discriminate|].
  eexists. split; vm_compute; reflexivity.
Qed.
Print Assumptions C113_eager.
