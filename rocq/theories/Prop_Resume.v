(** Prop_Resume: C110, training that is interrupted and goes on in another process. *)
From Coq Require Import Lia.
From Verif Require Import PyBase PyBaseFacts ValuesM Spec_Eq ValuesFacts FiltersM StateM ModuleM PureM TransformM GradFunM JitCacheM TrainLoopM ResumeM
  Spec_Module Spec_Prog Spec_GradFun Spec_Functional Spec_TrainLoop Spec_Checkpoint Spec_Resume
  Graph_facts Dfs_proofs Bisim_proofs Clone_proofs Transform_proofs Functional_proofs GradFun_proofs Prop_Transform Prop_GradFun TrainLoop_proofs Prop_TrainLoop Checkpoint_proofs Resume_proofs Ex_Module.
Local Open Scope string_scope.
Local Open Scope list_scope.

(** *** C110 *)
(** Any number of interruptions: each process makes the model again (with other arrays),
    loads the State that the process before has saved, trains for a while and saves.  The
    State at the end is that of training without interruption in the first process. *)
Theorem C110_resume :
  forall (wrt : filt) (D : grad_op) (sgd : pyval -> pyval -> pyval) w0 c p w1 r l0 ps ls wd t1 t2,
  structural wrt -> differentiates D -> wf_world w0 -> In "jax.Array" (w_nodes w0) -> In "Module" c ->
  ok_prog p -> same_steps (w_nodes w0) p p -> construct w0 c p = (w1, r, Ok tt) -> names_ok w1 r ->
  Forall (fun q => made_again (w_nodes w0) c p (pr_world q) (pr_model q)) ps -> Forall2 does ps ls ->
  trained D sgd wrt anything r w1 (l0 ++ List.concat ls) wd ->
  exists wa s0 wz s,
    lifted_loop wrt t1 t2 D sgd (map user_fun l0) w1 r = (wa, Ok tt) /\ get_state wa r = Ok s0 /\
    resume_all wrt t1 t2 D sgd s0 ps = Ok s /\
    lifted_loop wrt t1 t2 D sgd (map user_fun (l0 ++ List.concat ls)) w1 r = (wz, Ok tt) /\ get_state wz r = Ok s.
Proof.
  intros wrt D sgd w0 c p w1 r l0 ps ls wd t1 t2 HS HD W J Hc Hp Hpp C Nm M Hl T.
  destruct (first_like w0 c p w1 r W Hc Hp Hpp C Nm) as [LK N1]. assert (J1 : In "jax.Array" (w_nodes w1)) by now rewrite N1.
  destruct (lifted_loop_ok wrt D sgd r _ HS HD w1 wd w1 r t1 t2 J1 T LK) as (wz & Ez & Lz & _).
  destruct (trained_split _ _ _ _ _ _ _ _ _ T) as (wm & T1 & T2).
  destruct (lifted_loop_ok wrt D sgd r _ HS HD w1 wm w1 r t1 t2 J1 T1 LK) as (wa & Ea & La & _).
  destruct (trained_keeps D sgd wrt r HS HD _ _ _ J1 T1 LK) as (LKm & Dm & Nmm & Sm).
  destruct (get_state_total wm r (lk_wf _ _ _ _ LKm) (lk_valid _ _ _ _ LKm)) as (s0 & G0 & _).
  destruct (get_state_total wd r (lk_wf _ _ _ _ Lz) (lk_valid _ _ _ _ Lz)) as (s & G & _).
  exists wa, s0, wz, s. split; [exact Ea|]. split; [now rewrite (lk_state _ _ _ _ La)|]. split; [|split; [exact Ez|now rewrite (lk_state _ _ _ _ Lz)]].
  rewrite <- G. now apply (resume_ok D sgd wrt w0 c p w1 r t1 t2 HS HD J W Hc Hp C N1 ps ls Hl M wm wd s0).
Qed.
Print Assumptions C110_resume.

(** One interruption, seen from the second process: its model becomes what the model of
    the first process would have become, at every path and with the same sharing; it
    stays in place, and nothing else changes. *)
Theorem C110_model :
  forall (wrt : filt) (D : grad_op) (sgd : pyval -> pyval -> pyval) w0 c p w1 r l0 l wd v m t1 t2 t3 t4,
  structural wrt -> differentiates D -> wf_world w0 -> In "jax.Array" (w_nodes w0) -> In "Module" c ->
  ok_prog p -> same_steps (w_nodes w0) p p -> construct w0 c p = (w1, r, Ok tt) -> names_ok w1 r ->
  made_again (w_nodes w0) c p v m ->
  trained D sgd wrt anything r w1 (l0 ++ l) wd ->
  exists wa s v1 v2 wz,
    lifted_loop wrt t1 t2 D sgd (map user_fun l0) w1 r = (wa, Ok tt) /\ get_state wa r = Ok s /\
    update_state v m (UStates (One s)) = (v1, Ok tt) /\ lifted_loop wrt t3 t4 D sgd (map user_fun l) v1 m = (v2, Ok tt) /\
    lifted_loop wrt t1 t2 D sgd (map user_fun (l0 ++ l)) w1 r = (wz, Ok tt) /\
    (forall q, look v2 m q = look wz r q) /\ (forall q q', follow v2 m q = follow v2 m q' <-> follow wz r q = follow wz r q') /\
    get_state v2 m = get_state wz r /\ get_module_def v2 m = get_module_def wz r /\
    (forall q, follow v2 m q = follow v m q) /\
    (forall x o, get_obj v x = Some o -> ~ reaches v m x -> get_obj v2 x = Some o) /\ w_trace v2 = w_trace v.
Proof.
  intros wrt D sgd w0 c p w1 r l0 l wd v m t1 t2 t3 t4 HS HD W J Hc Hp Hpp C Nm M T.
  destruct (first_like w0 c p w1 r W Hc Hp Hpp C Nm) as [LK N1]. assert (J1 : In "jax.Array" (w_nodes w1)) by now rewrite N1.
  destruct (lifted_loop_ok wrt D sgd r _ HS HD w1 wd w1 r t1 t2 J1 T LK) as (wz & Ez & Lz & _).
  destruct (trained_split _ _ _ _ _ _ _ _ _ T) as (wm & T1 & T2).
  destruct (lifted_loop_ok wrt D sgd r _ HS HD w1 wm w1 r t1 t2 J1 T1 LK) as (wa & Ea & La & _).
  destruct (trained_keeps D sgd wrt r HS HD _ _ _ J1 T1 LK) as (LKm & Dm & Nmm & Sm).
  destruct (get_state_total wm r (lk_wf _ _ _ _ LKm) (lk_valid _ _ _ _ LKm)) as (s & G & _).
  destruct (go_on_like D sgd wrt w0 c p w1 r wm l wd v m t3 t4 s HS HD J W Hc Hp C N1 M LKm Dm Nmm Sm G T2) as (v1 & v2 & E1 & E2 & L2 & (A1 & A2 & A3)).
  exists wa, s, v1, v2, wz. split; [exact Ea|]. split; [now rewrite (lk_state _ _ _ _ La)|]. split; [exact E1|]. split; [exact E2|]. split; [exact Ez|].
  split; [intros q; rewrite (like_look _ _ _ _ q L2), (like_look _ _ _ _ q Lz); reflexivity|].
  split; [intros q q'; rewrite (like_alias _ _ _ _ q q' L2), (like_alias _ _ _ _ q q' Lz); reflexivity|].
  split; [rewrite (lk_state _ _ _ _ L2), (lk_state _ _ _ _ Lz); reflexivity|].
  split; [rewrite (lk_def _ _ _ _ L2), (lk_def _ _ _ _ Lz); reflexivity|]. auto.
Qed.
Print Assumptions C110_model.

(** *** Cases *)
(** A constructor of the model of C96: a counter, a layer used twice (through [tied]), a
    static attribute; the number stands for the random key. *)
Definition mlp_init (k : nat) : prog unit :=
  Do (CSet 0 "count" (arr 0)) (fun _ =>
  Do (CNew (Mod_cls "Linear")) (fun _ =>
  Do (CSet 1 "w" (param k)) (fun _ =>
  Do (CSet 1 "name" (ARaw (PyStr "l1"))) (fun _ =>
  Do (CNew (Mod_cls "Linear")) (fun _ =>
  Do (CSet 2 "w" (param (S k))) (fun _ =>
  Do (CLink 2 "tied" 1) (fun _ =>
  Do (CLink 0 "linear1" 1) (fun _ =>
  Do (CLink 0 "linear2" 2) (fun _ => Finish (Ok tt)))))))))).
Lemma mlp_init_ok k : ok_prog (mlp_init k).
Proof.
  unfold mlp_init.
  repeat (apply ok_do; [first [exact Logic.I|split; [exact Logic.I|reflexivity]|split; [apply wf_containerb_ok; reflexivity|reflexivity]|right; left; reflexivity]|intros ? _]).
  constructor.
Qed.
Lemma mlp_init_same k j : same_steps default_node_types (mlp_init k) (mlp_init j).
Proof.
  assert (AR : forall a b, Spec_Checkpoint.alike default_node_types (arr a) (arr b)).
  { intros a b. apply alike_node; try reflexivity; exists "jax.Array"; split; [left; reflexivity|right; left; reflexivity| left; reflexivity|right; left; reflexivity]. }
  assert (PR : forall a b, Spec_Checkpoint.alike default_node_types (param a) (param b)).
  { intros a b. apply alike_cont; try (apply wf_containerb_ok; reflexivity). exists "Node"; split; [right; right; left; reflexivity|right; right; left; reflexivity]. }
  unfold mlp_init.
  repeat (constructor; [first [apply alike_set; first [exact (AR _ _)|exact (PR _ _)|constructor]|constructor; discriminate]|intros ? ? _]).
  constructor. exact Logic.I.
Qed.
Definition mlp_at (w : world) (k : nat) : world := fst (fst (construct w (Mod_cls "MLP") (mlp_init k))).
(** The first process starts with an empty heap; the second has other models, the third
    runs under another trace. *)
Definition ex_proc0 : world := mkWorld [] 0 (0, 0) default_node_types.
Definition ex_proc1 : process := mkProcess (mlp_at ex_dag 40) (List.length (w_heap ex_dag)) (map user_fun [ex_batch 9]).
Definition ex_proc2 : process := mkProcess (mlp_at (mkWorld [] 5 (1, 3) default_node_types) 70) 0 (map user_fun [ex_batch 1; ex_batch 2]).
Lemma one_step' w f w1 w2 diff params l w3 out :
  ok_prog f -> module_filter w 0 (FType "Param") [] = Ok (One diff) ->
  run f w [0] = (w1, Ok out) -> module_filter w1 0 (FType "Param") [] = Ok (One params) ->
  forallb (fun ka => match snd ka with ACont _ => true | _ => false end) diff = true ->
  forallb (fun ka => match snd ka with ACont _ => true | _ => false end) params = true ->
  names_okb w1 = true -> get_module_def w1 0 = get_module_def w 0 ->
  (exists s s1, get_state w 0 = Ok s /\ get_state w1 0 = Ok s1 /\ Forall2 (fun x y => fst x = fst y /\ same_shape (snd x) (snd y)) s s1) ->
  update_state w1 0 (UStates (One (moved ex_sgd (quotient (loss_with false f w 0) diff) diff params))) = (w2, Ok tt) ->
  trained quotient ex_sgd (FType "Param") anything 0 w2 l w3 -> trained quotient ex_sgd (FType "Param") anything 0 w (f :: l) w3.
Proof.
  intros Hf Hd Hr Hp Bd Bp Hn Hdef (s & s1 & G & G1 & F) Hu T.
  assert (V : forall x, forallb (fun ka : string * attr => match snd ka with ACont _ => true | _ => false end) x = true -> variables x).
  { intros x Hx k a Ha. apply dget_In in Ha. rewrite forallb_forall in Hx. specialize (Hx _ Ha). cbn in Hx. destruct a; [discriminate|eauto]. }
  eapply tr_step; eauto.
  - split; [now apply names_okb_ok|]. split; [exact Hdef|]. intros a b Ha Hb. congruence.
  - exact Logic.I.
Qed.
Example C110_hyps :
  differentiates quotient /\ structural (FType "Param") /\ wf_world ex_proc0 /\ In "jax.Array" (w_nodes ex_proc0) /\
  ok_prog (mlp_init 3) /\ same_steps (w_nodes ex_proc0) (mlp_init 3) (mlp_init 3) /\
  construct ex_proc0 (Mod_cls "MLP") (mlp_init 3) = (mlp_at ex_proc0 3, 0, Ok tt) /\ names_ok (mlp_at ex_proc0 3) 0 /\
  Forall (fun q => made_again (w_nodes ex_proc0) (Mod_cls "MLP") (mlp_init 3) (pr_world q) (pr_model q)) [ex_proc1; ex_proc2] /\
  Forall2 does [ex_proc1; ex_proc2] [[ex_batch 9]; [ex_batch 1; ex_batch 2]] /\
  exists wd, trained quotient ex_sgd (FType "Param") anything 0 (mlp_at ex_proc0 3) ([ex_batch 7] ++ List.concat [[ex_batch 9]; [ex_batch 1; ex_batch 2]]) wd.
Proof.
  split; [exact quotient_ok|]. split; [exact param_structural|]. split; [apply wf_worldb_ok; vm_compute; reflexivity|]. split; [vm_compute; auto|].
  split; [apply mlp_init_ok|]. split; [apply mlp_init_same|]. split; [vm_compute; reflexivity|]. split; [apply names_okb_ok; vm_compute; reflexivity|].
  split; [|split].
  - constructor; [|constructor; [|constructor]].
    + exists ex_dag, (mlp_init 40). split; [apply wf_worldb_ok; vm_compute; reflexivity|]. split; [reflexivity|]. split; [apply mlp_init_ok|]. split; [apply mlp_init_same|].
      split; [vm_compute; reflexivity|]. apply names_okb_ok. vm_compute. reflexivity.
    + exists (mkWorld [] 5 (1, 3) default_node_types), (mlp_init 70). split; [apply wf_worldb_ok; vm_compute; reflexivity|]. split; [reflexivity|]. split; [apply mlp_init_ok|]. split; [apply mlp_init_same|].
      split; [vm_compute; reflexivity|]. apply names_okb_ok. vm_compute. reflexivity.
  - constructor; [reflexivity|]. constructor; [reflexivity|constructor].
  - eexists. cbn [app List.concat].
    do 4 (eapply one_step'; [apply ex_batch_ok|vm_compute; reflexivity|vm_compute; reflexivity|vm_compute; reflexivity|reflexivity|reflexivity|vm_compute; reflexivity|vm_compute; reflexivity|
      eexists _, _; split; [vm_compute; reflexivity|]; split; [vm_compute; reflexivity|]; repeat constructor|vm_compute; reflexivity|]).
    apply tr_done.
Qed.
(** Three processes, four steps in all. *)
Example C110_example : exists wa s0 wz s,
  lifted_loop (FType "Param") (0, 1) (0, 2) quotient ex_sgd (map user_fun [ex_batch 7]) (mlp_at ex_proc0 3) 0 = (wa, Ok tt) /\ get_state wa 0 = Ok s0 /\
  resume_all (FType "Param") (0, 1) (0, 2) quotient ex_sgd s0 [ex_proc1; ex_proc2] = Ok s /\
  lifted_loop (FType "Param") (0, 1) (0, 2) quotient ex_sgd (map user_fun [ex_batch 7; ex_batch 9; ex_batch 1; ex_batch 2]) (mlp_at ex_proc0 3) 0 = (wz, Ok tt) /\
  get_state wz 0 = Ok s /\ dget "count" s = Some (arr 4) /\ s0 <> s.
Proof. eexists _, _, _, _. do 4 (split; [vm_compute; reflexivity|]). split; [vm_compute; reflexivity|]. split; [vm_compute; reflexivity|]. vm_compute. discriminate. Qed.
(** All of the State has to be saved: with the Params alone ([model.filter(nnx.Param)]) the
    second process loads without complaint, and its counter starts again. *)
Example C110_params_only : exists wa x s v1 v2,
  lifted_loop (FType "Param") (0, 1) (0, 2) quotient ex_sgd (map user_fun [ex_batch 7]) (mlp_at ex_proc0 3) 0 = (wa, Ok tt) /\
  module_filter wa 0 (FType "Param") [] = Ok (One x) /\
  update_state (pr_world ex_proc1) (pr_model ex_proc1) (UStates (One x)) = (v1, Ok tt) /\
  lifted_loop (FType "Param") (0, 1) (0, 2) quotient ex_sgd (pr_losses ex_proc1) v1 (pr_model ex_proc1) = (v2, Ok tt) /\
  get_state v2 (pr_model ex_proc1) = Ok s /\ dget "count" s = Some (arr 1).
Proof. eexists _, _, _, _, _. do 5 (split; [vm_compute; reflexivity|]). vm_compute. reflexivity. Qed.
