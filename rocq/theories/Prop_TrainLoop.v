(** Prop_TrainLoop: C96, the training loops of the examples. *)
From Coq Require Import Lia.
From Verif Require Import PyBase PyBaseFacts ValuesM Spec_Eq ValuesFacts FiltersM StateM ModuleM PureM TransformM GradFunM JitCacheM TrainLoopM
  Spec_Module Spec_Prog Spec_GradFun Spec_Functional Spec_TrainLoop
  Graph_facts Dfs_proofs Bisim_proofs Clone_proofs Transform_proofs Functional_proofs GradFun_proofs Prop_Transform Prop_GradFun TrainLoop_proofs Ex_Module.
Local Open Scope string_scope.
Local Open Scope list_scope.

(** *** C96 *)
(** Training with nnx.jit and nnx.grad (examples/02): the model becomes what training it
    directly makes of it, at every path, with the same sharing; it stays in place, and
    nothing else changes.  The parameters may be chosen by any filter that does not look at
    values. *)
Theorem C96_lifted :
  forall (wrt : filt) (D : grad_op) (sgd : pyval -> pyval -> pyval) r w losses wd t1 t2,
  structural wrt -> differentiates D -> wf_world w -> r < List.length (w_heap w) -> names_ok w r -> live w r -> In "jax.Array" (w_nodes w) ->
  trained D sgd wrt anything r w losses wd ->
  exists w', lifted_loop wrt t1 t2 D sgd (map user_fun losses) w r = (w', Ok tt) /\
    (forall p, look w' r p = look wd r p) /\ (forall p q, follow w' r p = follow w' r q <-> follow wd r p = follow wd r q) /\
    get_state w' r = get_state wd r /\ get_module_def w' r = get_module_def wd r /\
    (forall p, follow w' r p = follow w r p) /\
    (forall x o, get_obj w x = Some o -> ~ reaches w r x -> get_obj w' x = Some o) /\ w_trace w' = w_trace w.
Proof.
  intros wrt D sgd r w losses wd t1 t2 HS HD W V N L J T.
  destruct (lifted_loop_ok wrt D sgd r losses HS HD w wd w r t1 t2 J T (like_refl w r W V N L)) as (w' & E & LK & A1 & A2 & A3).
  exists w'. split; [exact E|]. split; [intros p; now apply like_look|]. split; [intros p q; now apply like_alias|].
  split; [apply LK|]. split; [apply LK|]. auto.
Qed.
Print Assumptions C96_lifted.

(** Training a PureModule with jax.jit, merge and partition (examples/04): the PureModule
    at the end holds the parts of the model trained directly, and no existing Module has
    changed. *)
Theorem C96_pure :
  forall (wrt : filt) (D : grad_op) (sgd : pyval -> pyval -> pyval) r w losses wd v p t1 t2,
  structural wrt -> differentiates D -> wf_world w -> r < List.length (w_heap w) -> names_ok w r -> live w r -> In "jax.Array" (w_nodes w) ->
  trained D sgd wrt anything r w losses wd ->
  parts_of p w r -> wf_world v -> w_nodes v = w_nodes w ->
  exists v' p', pure_loop wrt t1 t2 D sgd (map user_fun losses) v p = (v', Ok p') /\
    parts_of p' wd r /\ all_unchanged v v' /\ w_trace v' = w_trace v.
Proof.
  intros wrt D sgd r w losses wd v p t1 t2 HS HD W V N L J T Hp Wv Nv.
  destruct (pure_loop_ok wrt D sgd r losses HS HD w wd v v p t1 t2 J T) as (v' & p' & E & [H1 H2 H3 H4 H5 H6 H7 H8 H9]).
  { constructor; auto. intros x o Ho. exact Ho. }
  exists v', p'. auto.
Qed.
Print Assumptions C96_pure.

(** Training on the Params and the buffers (examples/01), where all nodes are Params or
    arrays and the forward pass leaves the Params alone: the two States at the end are
    those into which [partition(Param, ...)] splits the model trained directly. *)
Theorem C96_functional :
  forall (D : grad_op) (sgd : pyval -> pyval -> pyval) r w losses wd v params buffers d t,
  differentiates D -> wf_world w -> r < List.length (w_heap w) -> names_ok w r -> live w r -> In "jax.Array" (w_nodes w) ->
  trained D sgd (FType "Param") (params_alone r) r w losses wd ->
  module_partition w r [FType "Param"; FEllipsis] = Ok (mkPure (Many [params; buffers]) d) -> wf_world v -> w_nodes v = w_nodes w ->
  exists v' params' buffers', functional_loop t D sgd d (map user_fun losses) v params buffers = (v', Ok (params', buffers')) /\
    module_partition wd r [FType "Param"; FEllipsis] = Ok (mkPure (Many [params'; buffers']) d) /\
    all_unchanged v v' /\ w_trace v' = w_trace v.
Proof.
  intros D sgd r w losses wd v params buffers d t HD W V N L J T Hp Wv Nv.
  destruct (functional_loop_ok D sgd r losses HD w wd v params buffers d t J T W V N L Wv Nv Hp) as (v' & a & b & E & P & U & Q). eauto 8.
Qed.
Print Assumptions C96_functional.

(** So the three agree: what the three loops end with has the same State and the same
    definition. *)
Theorem C96_agree :
  forall (D : grad_op) (sgd : pyval -> pyval -> pyval) r w losses wd p params buffers d t1 t2 t3 t4 t5,
  differentiates D -> wf_world w -> r < List.length (w_heap w) -> names_ok w r -> live w r -> In "jax.Array" (w_nodes w) ->
  trained D sgd (FType "Param") (params_alone r) r w losses wd ->
  module_partition w r [] = Ok p ->
  module_partition w r [FType "Param"; FEllipsis] = Ok (mkPure (Many [params; buffers]) d) ->
  exists w1 w2 p2 w3 params3 buffers3,
    lifted_loop (FType "Param") t1 t2 D sgd (map user_fun losses) w r = (w1, Ok tt) /\
    pure_loop (FType "Param") t3 t4 D sgd (map user_fun losses) w p = (w2, Ok p2) /\
    functional_loop t5 D sgd d (map user_fun losses) w params buffers = (w3, Ok (params3, buffers3)) /\
    parts_of p2 w1 r /\ module_partition w1 r [FType "Param"; FEllipsis] = Ok (mkPure (Many [params3; buffers3]) d).
Proof.
  intros D sgd r w losses wd p params buffers d t1 t2 t3 t4 t5 HD W V N L J T Hp Hpar.
  assert (T' : trained D sgd (FType "Param") anything r w losses wd) by (eapply trained_weaken; [|exact T]; intros ? ? _; exact Logic.I).
  destruct (C96_lifted _ D sgd r w losses wd t1 t2 param_structural HD W V N L J T') as (w1 & E1 & _ & _ & S1 & D1 & _).
  destruct (C96_pure _ D sgd r w losses wd w p t3 t4 param_structural HD W V N L J T') as (w2 & p2 & E2 & [P1 P2] & _); auto.
  { eapply partition_parts; [exact W|exact V|exact Hp]. }
  destruct (C96_functional D sgd r w losses wd w params buffers d t5 HD W V N L J T Hpar W eq_refl) as (w3 & a & b & E3 & P3 & _).
  exists w1, w2, p2, w3, a, b. split; [exact E1|]. split; [exact E2|]. split; [exact E3|]. split; [split; congruence|].
  unfold module_partition in *. now rewrite S1, D1.
Qed.
Print Assumptions C96_agree.

(** *** Cases *)
(** A model that counts its calls and uses one layer twice (through [tied]). *)
Definition ex_mlp : world := mkWorld
  [ mkMobj (Mod_cls "MLP") 1 false (0, 0) [("linear2", sub 2); ("linear1", sub 1); ("count", arr 0)];
    mkMobj (Mod_cls "Linear") 2 false (0, 0) [("w", param 3); ("name", ARaw (PyStr "l1"))];
    mkMobj (Mod_cls "Linear") 3 false (0, 0) [("w", param 5); ("tied", sub 1)];
    mkMobj (Mod_cls "Other") 4 false (0, 0) [("w", param 20); ("peer", sub 1)] ]
  4 (0, 0) default_node_types.
(** [count += 1]; the loss linear1.w * linear2.w + 2 * linear2.tied.w + x. *)
Definition ex_batch (x : nat) : prog pyval :=
  Do (CGet 0 "count") (fun n => Do (CSet 0 "count" (arr (S (num n)))) (fun _ =>
  Do (CGet 0 "linear1") (fun _ => Do (CGet 0 "linear2") (fun _ =>
  Do (CGet 1 "w") (fun a => Do (CGet 2 "w") (fun b =>
  Do (CGet 2 "tied") (fun _ => Do (CGet 3 "w") (fun c =>
  Finish (Ok (PyObj Array_cls (num a * num b + 2 * num c + x))))))))))).
Lemma ex_batch_ok x : ok_prog (ex_batch x).
Proof. unfold ex_batch. repeat (apply ok_do; [first [exact Logic.I | split; [exact Logic.I|reflexivity]]|intros ? _]). constructor. Qed.
(** "w + g" *)
Definition ex_sgd (x g : pyval) : pyval := match x, g with PyObj c n, PyObj _ k => PyObj c (n + k) | _, _ => x end.
Lemma one_step w f w1 w2 diff params l w3 out :
  ok_prog f -> module_filter w 0 (FType "Param") [] = Ok (One diff) ->
  run f w [0] = (w1, Ok out) -> module_filter w1 0 (FType "Param") [] = Ok (One params) ->
  forallb (fun ka => match snd ka with ACont _ => true | _ => false end) diff = true ->
  forallb (fun ka => match snd ka with ACont _ => true | _ => false end) params = true ->
  names_okb w1 = true -> get_module_def w1 0 = get_module_def w 0 ->
  (exists s s1, get_state w 0 = Ok s /\ get_state w1 0 = Ok s1 /\ Forall2 (fun x y => fst x = fst y /\ same_shape (snd x) (snd y)) s s1 /\
     diff = params /\ forallb (fun ka => Bool.eqb (isinstance (snd ka) "Param") (negb (isinstance (snd ka) "jax.Array" || isinstance (snd ka) "numpy.ndarray"))) s1 = true) ->
  update_state w1 0 (UStates (One (moved ex_sgd (quotient (loss_with false f w 0) diff) diff params))) = (w2, Ok tt) ->
  trained quotient ex_sgd (FType "Param") (params_alone 0) 0 w2 l w3 -> trained quotient ex_sgd (FType "Param") (params_alone 0) 0 w (f :: l) w3.
Proof.
  intros Hf Hd Hr Hp Bd Bp Hn Hdef (s & s1 & G & G1 & F & Eq & B) Hu T.
  assert (V : forall x, forallb (fun ka : string * attr => match snd ka with ACont _ => true | _ => false end) x = true -> variables x).
  { intros x Hx k a Ha. apply dget_In in Ha. rewrite forallb_forall in Hx. specialize (Hx _ Ha). cbn in Hx. destruct a; [discriminate|eauto]. }
  eapply tr_step; eauto.
  - split; [now apply names_okb_ok|]. split; [exact Hdef|]. intros a b Ha Hb. congruence.
  - split; [congruence|]. intros z k a Hz Ha. rewrite G1 in Hz. injection Hz as <-. rewrite forallb_forall in B. apply dget_In in Ha. specialize (B _ Ha). cbn in B. now apply Bool.eqb_prop in B.
Qed.
Example C96_example_hyps :
  differentiates quotient /\ wf_world ex_mlp /\ names_ok ex_mlp 0 /\ live ex_mlp 0 /\ In "jax.Array" (w_nodes ex_mlp) /\
  (exists wd, trained quotient ex_sgd (FType "Param") (params_alone 0) 0 ex_mlp [ex_batch 7; ex_batch 9] wd) /\
  exists params buffers d, module_partition ex_mlp 0 [FType "Param"; FEllipsis] = Ok (mkPure (Many [params; buffers]) d) /\ keys params = ["linear1/w"; "linear2/w"] /\ keys buffers = ["count"].
Proof.
  split; [exact quotient_ok|]. split; [apply wf_worldb_ok; vm_compute; reflexivity|]. split; [apply names_okb_ok; vm_compute; reflexivity|].
  split; [apply liveb_ok; vm_compute; reflexivity|]. split; [vm_compute; auto|]. split.
  - eexists. eapply one_step; [apply ex_batch_ok|vm_compute; reflexivity|vm_compute; reflexivity|vm_compute; reflexivity|reflexivity|reflexivity|vm_compute; reflexivity|vm_compute; reflexivity| |vm_compute; reflexivity|].
    { eexists _, _. split; [vm_compute; reflexivity|]. split; [vm_compute; reflexivity|]. split; [repeat constructor|]. split; vm_compute; reflexivity. }
    eapply one_step; [apply ex_batch_ok|vm_compute; reflexivity|vm_compute; reflexivity|vm_compute; reflexivity|reflexivity|reflexivity|vm_compute; reflexivity|vm_compute; reflexivity| |vm_compute; reflexivity|].
    { eexists _, _. split; [vm_compute; reflexivity|]. split; [vm_compute; reflexivity|]. split; [repeat constructor|]. split; vm_compute; reflexivity. }
    apply tr_done.
  - eexists _, _, _. split; [vm_compute; reflexivity|]. split; reflexivity.
Qed.
(** From 3 and 5, with derivatives 5+2 and 3, then 8+2 and 10; two calls. *)
Example C96_example :
  (exists w', lifted_loop (FType "Param") (0, 1) (0, 2) quotient ex_sgd (map user_fun [ex_batch 7; ex_batch 9]) ex_mlp 0 = (w', Ok tt) /\
     get_state w' 0 = Ok [("count", arr 2); ("linear1/w", param 20); ("linear2/w", param 18)] /\ get_state w' 3 = Ok [("peer/w", param 20); ("w", param 20)]) /\
  (exists p, module_partition ex_mlp 0 [] = Ok p /\
     exists w' p', pure_loop (FType "Param") (0, 1) (0, 2) quotient ex_sgd (map user_fun [ex_batch 7; ex_batch 9]) ex_mlp p = (w', Ok p') /\
       p_states p' = One [("count", arr 2); ("linear1/w", param 20); ("linear2/w", param 18)]) /\
  (exists a b d, module_partition ex_mlp 0 [FType "Param"; FEllipsis] = Ok (mkPure (Many [a; b]) d) /\
     exists w', functional_loop (0, 1) quotient ex_sgd d (map user_fun [ex_batch 7; ex_batch 9]) ex_mlp a b =
       (w', Ok ([("linear1/w", param 20); ("linear2/w", param 18)], [("count", arr 2)]))).
Proof.
  split; [|split].
  - eexists. split; [vm_compute; reflexivity|]. split; vm_compute; reflexivity.
  - eexists. split; [vm_compute; reflexivity|]. eexists _, _. split; vm_compute; reflexivity.
  - eexists _, _, _. split; [vm_compute; reflexivity|]. eexists. vm_compute. reflexivity.
Qed.

(** *** Where the functional loop is different *)
(** A Variable that is no Param (the mean of a norm) is not among [nnx.buffers], so it is
    gone after the first step, and the second step fails; the other loops go on. *)
Definition ex_mean (x : nat) : prog pyval :=
  Do (CGet 0 "inp") (fun _ => Do (CGet 1 "norm") (fun _ => Do (CGet 2 "mean") (fun c => Do (CGet 0 "w") (fun a =>
  match c with AValue _ => Finish (Ok (PyObj Array_cls (num a * num c + x))) | _ => Finish (Err AttributeError) end)))).
Theorem C96_functional_variables_refuted :
  (exists w', lifted_loop (FType "Param") (0, 1) (0, 2) quotient ex_sgd (map user_fun [ex_mean 1; ex_mean 2]) ex_cyc 0 = (w', Ok tt) /\ look w' 0 ["w"] = SValue (param 38)) /\
  exists a b d, module_partition ex_cyc 0 [FType "Param"; FEllipsis] = Ok (mkPure (Many [a; b]) d) /\ keys b = ["inp/norm/mean"; "out/buf"] /\
    (exists w' a', functional_loop (0, 1) quotient ex_sgd d (map user_fun [ex_mean 1]) ex_cyc a b = (w', Ok (a', [("out/buf", arr 13)]))) /\
    (exists w', functional_loop (0, 1) quotient ex_sgd d (map user_fun [ex_mean 1; ex_mean 2]) ex_cyc a b = (w', Err AttributeError)).
Proof.
  split.
  - eexists. split; vm_compute; reflexivity.
  - eexists _, _, _. split; [vm_compute; reflexivity|]. split; [reflexivity|]. split; [eexists _, _; vm_compute; reflexivity|eexists; vm_compute; reflexivity].
Qed.
Print Assumptions C96_functional_variables_refuted.

(** A forward pass that writes a Param: the functional loop starts from the old value. *)
Definition ex_writes : prog pyval :=
  Do (CGet 0 "linear1") (fun _ => Do (CGet 1 "w") (fun a => Do (CSet 1 "w" (arr 100)) (fun _ => Finish (Ok (PyObj Array_cls (num a)))))).
Theorem C96_functional_params_refuted :
  (exists w', lifted_loop (FType "Param") (0, 1) (0, 2) quotient ex_sgd (map user_fun [ex_writes]) ex_mlp 0 = (w', Ok tt) /\ look w' 0 ["linear1"; "w"] = SValue (param 101)) /\
  exists a b d w' b', module_partition ex_mlp 0 [FType "Param"; FEllipsis] = Ok (mkPure (Many [a; b]) d) /\
    functional_loop (0, 1) quotient ex_sgd d (map user_fun [ex_writes]) ex_mlp a b = (w', Ok ([("linear1/w", param 4); ("linear2/w", param 5)], b')).
Proof.
  split.
  - eexists. split; vm_compute; reflexivity.
  - eexists _, _, _, _, _. split; vm_compute; reflexivity.
Qed.
Print Assumptions C96_functional_params_refuted.
