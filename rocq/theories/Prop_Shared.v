(** Prop_Shared: C118, models that share Modules, trained in turn. *)
From Coq Require Import Lia.
From Verif Require Import PyBase PyBaseFacts ValuesM Spec_Eq ValuesFacts FiltersM StateM ModuleM PureM TransformM GradFunM JitCacheM TrainLoopM EnsembleM
  Spec_Module Spec_Prog Spec_GradFun Spec_Functional Spec_TrainLoop Spec_Ensemble Spec_Shared
  Graph_facts Dfs_proofs Bisim_proofs Clone_proofs Revalue_proofs Transform_proofs Functional_proofs GradFun_proofs Prop_Transform Prop_GradFun TrainLoop_proofs Ensemble_proofs Shared_proofs
  Ex_Module Prop_TrainLoop Prop_Ensemble.
Local Open Scope string_scope.
Local Open Scope list_scope.

(** *** C118 *)
(** Models that may share Modules in any way, trained in turn with jitted steps: afterwards
    every model has what the same training done directly gives it, every path leads to the
    same Module as before, and no other Module has changed. *)
Theorem C118_shared :
  forall (how : nat -> recipe) models schedule w wd t1 t2,
  (forall m, In m models -> good_recipe (how m)) -> wf_world w -> In "jax.Array" (w_nodes w) ->
  (forall m, In m models -> m < List.length (w_heap w) /\ names_ok w m /\ live w m) ->
  Forall (fun e => In (fst e) models) schedule ->
  directly how w schedule wd ->
  exists w', train_in_turn how t1 t2 (as_functions schedule) w = (w', Ok tt) /\ w_trace w' = w_trace w /\
    (forall m, In m models -> get_state w' m = get_state wd m /\ get_module_def w' m = get_module_def wd m /\ (forall p, look w' m p = look wd m p) /\
      forall p, follow w' m p = follow w m p /\ follow wd m p = follow w m p) /\
    (forall x o, get_obj w x = Some o -> (forall m, In m models -> ~ reaches w m x) -> get_obj w' x = Some o /\ get_obj wd x = Some o).
Proof.
  intros how models schedule w wd t1 t2 HR W J HM HI HD.
  destruct (shared_in_turn how t1 t2 models HR schedule w w wd J HI) as (w' & E & T & _ & TW & F & K & K2); [|exact HD|].
  - intros m Hm. destruct (HM m Hm) as (V & N & L). split; [now apply like_refl|reflexivity].
  - exists w'. split; [exact E|]. split; [exact T|]. split; [|intros x o Ho Hx; split; [now apply K|now apply K2]].
    intros m Hm. destruct (TW m Hm) as [LK FF]. split; [apply LK|]. split; [apply LK|]. split; [intros p; now apply like_look|].
    intros p. split; [now apply F|]. rewrite <- FF. now apply F.
Qed.
Print Assumptions C118_shared.
(** A Module that two models share is still shared, and both see the same training in it. *)
Theorem C118_seen :
  forall (how : nat -> recipe) models schedule w wd t1 t2 a b p q x,
  (forall m, In m models -> good_recipe (how m)) -> wf_world w -> In "jax.Array" (w_nodes w) ->
  (forall m, In m models -> m < List.length (w_heap w) /\ names_ok w m /\ live w m) ->
  Forall (fun e => In (fst e) models) schedule ->
  directly how w schedule wd -> In a models -> In b models ->
  follow w a p = Some x -> follow w b q = Some x ->
  exists w', train_in_turn how t1 t2 (as_functions schedule) w = (w', Ok tt) /\
    follow w' a p = Some x /\ follow w' b q = Some x /\ forall n, look w' a (p ++ [n]) = look wd b (q ++ [n]) /\ look w' b (q ++ [n]) = look wd b (q ++ [n]).
Proof.
  intros how models schedule w wd t1 t2 a b p q x HR W J HM HI HD Ha Hb Hp Hq.
  destruct (C118_shared how models schedule w wd t1 t2 HR W J HM HI HD) as (w' & E & _ & K & _). exists w'. split; [exact E|].
  destruct (K a Ha) as (_ & _ & _ & FA). destruct (K b Hb) as (_ & _ & LB & FB). pose proof (proj1 (FA p)) as A1. pose proof (proj1 (FB q)) as B1. rewrite Hp in A1. rewrite Hq in B1.
  split; [exact A1|]. split; [exact B1|]. intros n. split; [|apply LB]. rewrite <- LB, (look_app _ _ n _ _ A1), (look_app _ _ n _ _ B1). reflexivity.
Qed.
Print Assumptions C118_seen.

(** If a step raises, the exception comes out, the models are as after the steps before it, and
    the remaining steps are not made. *)
Theorem C118_raises :
  forall (how : nat -> recipe) models schedule w wd m f wx e rest t1 t2,
  (forall m, In m models -> good_recipe (how m)) -> wf_world w -> In "jax.Array" (w_nodes w) ->
  (forall m, In m models -> m < List.length (w_heap w) /\ names_ok w m /\ live w m) ->
  Forall (fun e => In (fst e) models) schedule -> In m models ->
  directly how w schedule wd -> ok_prog f -> run f wd [m] = (wx, Err e) ->
  exists w', train_in_turn how t1 t2 (as_functions schedule ++ (m, user_fun f) :: rest) w = (w', Err e) /\ w_trace w' = w_trace w /\
    (forall m, In m models -> get_state w' m = get_state wd m /\ get_module_def w' m = get_module_def wd m /\ (forall p, look w' m p = look wd m p) /\ forall p, follow w' m p = follow w m p) /\
    (forall x o, get_obj w x = Some o -> (forall m, In m models -> ~ reaches w m x) -> get_obj w' x = Some o).
Proof.
  intros how models schedule w wd m f wx e rest t1 t2 HR W J HM HI Hm HD Hf Hrun.
  destruct (shared_in_turn how t1 t2 models HR schedule w w wd J HI) as (w1 & E & T & _ & TW & F & K & _); [|exact HD|].
  - intros m' Hm'. destruct (HM m' Hm') as (V & N & L). split; [now apply like_refl|reflexivity].
  - destruct (raised_in_turn how t1 t2 models m f wd w1 wx e HR Hm Hf Hrun TW) as (w' & E' & T' & U & TW').
    exists w'. rewrite in_turn_app, E. cbn [train_in_turn]. rewrite E'. split; [reflexivity|]. split; [congruence|]. split; [|intros x o Ho Hx; now apply U, K].
    intros m' Hm'. destruct (TW' m' Hm') as [[LK _] FF]. split; [apply LK|]. split; [apply LK|]. split; [intros p; now apply like_look|]. intros p. rewrite FF. now apply F.
Qed.
Print Assumptions C118_raises.
(** With a handler around each step, a step that raises is as if it had not been made, for every
    model, and the log tells which did. *)
Theorem C118_skip :
  forall (how : nat -> recipe) models schedule log w wd t1 t2,
  (forall m, In m models -> good_recipe (how m)) -> wf_world w -> In "jax.Array" (w_nodes w) ->
  (forall m, In m models -> m < List.length (w_heap w) /\ names_ok w m /\ live w m) ->
  Forall (fun e => In (fst e) models) schedule ->
  directly_but how w schedule log wd ->
  exists w', skip_in_turn how t1 t2 (as_functions schedule) w = (w', log) /\ w_trace w' = w_trace w /\
    (forall m, In m models -> get_state w' m = get_state wd m /\ get_module_def w' m = get_module_def wd m /\ (forall p, look w' m p = look wd m p) /\ forall p, follow w' m p = follow w m p) /\
    (forall x o, get_obj w x = Some o -> (forall m, In m models -> ~ reaches w m x) -> get_obj w' x = Some o).
Proof.
  intros how models schedule log w wd t1 t2 HR W J HM HI HD.
  destruct (shared_skip how t1 t2 models HR schedule log w w wd J HI) as (w' & E & T & TW & F & K); [|exact HD|].
  - intros m Hm. destruct (HM m Hm) as (V & N & L). split; [now apply like_refl|reflexivity].
  - exists w'. split; [exact E|]. split; [exact T|]. split; [|exact K]. intros m Hm. destruct (TW m Hm) as [LK _]. split; [apply LK|]. split; [apply LK|]. split; [intros p; now apply like_look|now apply F].
Qed.
Print Assumptions C118_skip.

(** *** Cases *)
(** The submodules of every object, with their names. *)
Definition subs (o : mobj) : list (string * option nat) := map (fun ka => (fst ka, match snd ka with ARaw (PyMod y) => Some y | _ => None end)) (m_vars o).
Lemma subs_dget n (d d' : dict attr) : map (fun ka => (fst ka, match snd ka with ARaw (PyMod y) => Some y | _ => None end)) d = map (fun ka => (fst ka, match snd ka with ARaw (PyMod y) => Some y | _ => None end)) d' ->
  match dget n d with Some (ARaw (PyMod y)) => Some y | _ => None end = match dget n d' with Some (ARaw (PyMod y)) => Some y | _ => None end.
Proof.
  revert d'. induction d as [|[k a] d IH]; intros [|[k' a'] d']; cbn [map fst snd]; try discriminate; [reflexivity|]. intros [= -> Ha Ht]. cbn [dget]. destruct (String.eqb n k'); [exact Ha|now apply IH].
Qed.
Lemma subs_paths w w1 : map subs (w_heap w1) = map subs (w_heap w) -> forall q m, follow w1 m q = follow w m q.
Proof.
  intros H. assert (G : forall x, option_map subs (get_obj w1 x) = option_map subs (get_obj w x)). { intros x. unfold get_obj. rewrite <- !nth_error_map. now rewrite H. }
  induction q as [|n q IH]; intros m; cbn [follow]; pose proof (G m) as Gm; destruct (get_obj w1 m) as [o1|], (get_obj w m) as [o|]; try discriminate; try reflexivity.
  cbn in Gm. injection Gm as Gm. apply (subs_dget n) in Gm. destruct (dget n (m_vars o1)) as [[[]|]|], (dget n (m_vars o)) as [[[]|]|]; try discriminate; try reflexivity. injection Gm as ->. apply IH.
Qed.
(** The loss w * peer.w + x, of the model that has the first layer of the other one as its
    [peer]. *)
Definition ex_peer (x : nat) : prog pyval :=
  Do (CGet 0 "w") (fun a => Do (CGet 0 "peer") (fun _ => Do (CGet 1 "w") (fun b => Finish (Ok (PyObj Array_cls (num a * num b + x)))))).
Lemma ex_peer_ok x : ok_prog (ex_peer x).
Proof. unfold ex_peer. repeat (apply ok_do; [first [exact Logic.I | split; [exact Logic.I|reflexivity]]|intros ? _]). constructor. Qed.
Definition ex_shared_turns : list (nat * prog pyval) := [(0, ex_batch 7); (3, ex_peer 1); (0, ex_batch 9)].
Lemma direct_step w m f w1 w2 diff params l w3 out :
  ok_prog f -> module_filter w m (FType "Param") [] = Ok (One diff) ->
  run f w [m] = (w1, Ok out) -> module_filter w1 m (FType "Param") [] = Ok (One params) ->
  forallb (fun ka => match snd ka with ACont _ => true | _ => false end) diff = true ->
  forallb (fun ka => match snd ka with ACont _ => true | _ => false end) params = true ->
  names_okb w1 = true -> get_module_def w1 m = get_module_def w m -> map subs (w_heap w1) = map subs (w_heap w) ->
  (exists s s1, get_state w m = Ok s /\ get_state w1 m = Ok s1 /\ Forall2 (fun x y => fst x = fst y /\ same_shape (snd x) (snd y)) s s1) ->
  update_state w1 m (UStates (One (moved ex_sgd (quotient (loss_with false f w m) diff) diff params))) = (w2, Ok tt) ->
  directly ex_recipe w2 l w3 -> directly ex_recipe w ((m, f) :: l) w3.
Proof.
  intros Hf Hd Hr Hp Bd Bp Hn Hdef Hs (s & s1 & G & G1 & F) Hu T.
  assert (V : forall x, forallb (fun ka : string * attr => match snd ka with ACont _ => true | _ => false end) x = true -> variables x).
  { intros x Hx k a Ha. apply dget_In in Ha. rewrite forallb_forall in Hx. specialize (Hx _ Ha). cbn in Hx. destruct a; [discriminate|eauto]. }
  eapply dr_step; eauto.
  - split; [now apply names_okb_ok|]. split; [exact Hdef|]. intros s' s1' Gs Gs1. rewrite G in Gs. rewrite G1 in Gs1. injection Gs as <-. injection Gs1 as <-. exact F.
  - intros q. now apply subs_paths.
Qed.
Example C118_hyps :
  (forall m, good_recipe (ex_recipe m)) /\ wf_world ex_mlp /\ In "jax.Array" (w_nodes ex_mlp) /\
  (forall m, In m [0; 3] -> m < List.length (w_heap ex_mlp) /\ names_ok ex_mlp m /\ live ex_mlp m) /\
  Forall (fun e => In (fst e) [0; 3]) ex_shared_turns /\ (exists wd, directly ex_recipe ex_mlp ex_shared_turns wd) /\
  follow ex_mlp 0 ["linear1"] = Some 1 /\ follow ex_mlp 3 ["peer"] = Some 1.
Proof.
  split; [intros m; split; [apply param_structural|exact quotient_ok]|]. split; [apply wf_worldb_ok; vm_compute; reflexivity|]. split; [cbn; tauto|].
  split; [intros m [<-|[<-|[]]]; (split; [cbn; lia|]; split; [apply names_okb_ok; vm_compute; reflexivity|apply liveb_ok; vm_compute; reflexivity])|].
  split; [unfold ex_shared_turns; do 3 (constructor; [cbn; tauto|]); constructor|]. split; [|split; reflexivity].
  eexists. unfold ex_shared_turns.
  eapply direct_step; [apply ex_batch_ok|vm_compute; reflexivity|vm_compute; reflexivity|vm_compute; reflexivity|reflexivity|reflexivity|vm_compute; reflexivity|vm_compute; reflexivity|vm_compute; reflexivity| |vm_compute; reflexivity|].
  { eexists _, _. split; [vm_compute; reflexivity|]. split; [vm_compute; reflexivity|]. repeat constructor. }
  eapply direct_step; [apply ex_peer_ok|vm_compute; reflexivity|vm_compute; reflexivity|vm_compute; reflexivity|reflexivity|reflexivity|vm_compute; reflexivity|vm_compute; reflexivity|vm_compute; reflexivity| |vm_compute; reflexivity|].
  { eexists _, _. split; [vm_compute; reflexivity|]. split; [vm_compute; reflexivity|]. repeat constructor. }
  eapply direct_step; [apply ex_batch_ok|vm_compute; reflexivity|vm_compute; reflexivity|vm_compute; reflexivity|reflexivity|reflexivity|vm_compute; reflexivity|vm_compute; reflexivity|vm_compute; reflexivity| |vm_compute; reflexivity|].
  { eexists _, _. split; [vm_compute; reflexivity|]. split; [vm_compute; reflexivity|]. repeat constructor. }
  apply dr_done.
Qed.
Example C118_example :
  exists w', train_in_turn ex_recipe (0, 1) (0, 2) (as_functions ex_shared_turns) ex_mlp = (w', Ok tt) /\
    get_state w' 0 = Ok [("count", arr 2); ("linear1/w", param 40); ("linear2/w", param 38)] /\ get_state w' 3 = Ok [("peer/w", param 40); ("w", param 30)].
Proof. eexists. split; [vm_compute; reflexivity|]. split; vm_compute; reflexivity. Qed.

(** The second step overwrites a parameter and raises. *)
Definition ex_bad : prog pyval := Do (CGet 0 "w") (fun _ => Do (CSet 0 "w" (arr 0)) (fun _ => Finish (Err ValueError))).
Example C118_skip_example :
  ok_prog ex_bad /\ (exists wd, directly_but ex_recipe ex_mlp [(0, ex_batch 7); (3, ex_bad); (3, ex_peer 1)] [Ok tt; Err ValueError; Ok tt] wd) /\
  exists w', skip_in_turn ex_recipe (0, 1) (0, 2) (as_functions [(0, ex_batch 7); (3, ex_bad); (3, ex_peer 1)]) ex_mlp = (w', [Ok tt; Err ValueError; Ok tt]) /\
    get_state w' 0 = Ok [("count", arr 1); ("linear1/w", param 30); ("linear2/w", param 8)] /\ get_state w' 3 = Ok [("peer/w", param 30); ("w", param 30)].
Proof.
  assert (B : ok_prog ex_bad) by (unfold ex_bad; repeat (apply ok_do; [first [exact Logic.I | split; [exact Logic.I|reflexivity]]|intros ? _]); constructor).
  split; [exact B|]. split.
  - eexists. eapply db_step.
    + eapply direct_step; [apply ex_batch_ok|vm_compute; reflexivity|vm_compute; reflexivity|vm_compute; reflexivity|reflexivity|reflexivity|vm_compute; reflexivity|vm_compute; reflexivity|vm_compute; reflexivity| |vm_compute; reflexivity|].
      { eexists _, _. split; [vm_compute; reflexivity|]. split; [vm_compute; reflexivity|]. repeat constructor. }
      apply dr_done.
    + eapply db_raised; [exact B|vm_compute; reflexivity|]. eapply db_step; [|apply db_done].
      eapply direct_step; [apply ex_peer_ok|vm_compute; reflexivity|vm_compute; reflexivity|vm_compute; reflexivity|reflexivity|reflexivity|vm_compute; reflexivity|vm_compute; reflexivity|vm_compute; reflexivity| |vm_compute; reflexivity|].
      { eexists _, _. split; [vm_compute; reflexivity|]. split; [vm_compute; reflexivity|]. repeat constructor. }
      apply dr_done.
  - eexists. split; [vm_compute; reflexivity|]. split; vm_compute; reflexivity.
Qed.

(** *** Where it fails *)
(** A forward pass that puts a new, equal layer in the place of the shared one: done directly
    the models share it no longer; the jitted step writes the values into the old layer, and
    they still do. *)
Definition ex_relayer : prog pyval :=
  Do (CNew (Mod_cls "Linear")) (fun _ => Do (CSet 1 "w" (param 3)) (fun _ => Do (CSet 1 "name" (ARaw (PyStr "l1"))) (fun _ =>
  Do (CGet 0 "linear2") (fun _ => Do (CLink 0 "linear1" 1) (fun _ => Do (CLink 2 "tied" 1) (fun _ => Finish (Ok (PyObj Array_cls 7)))))))).
Theorem C118_rebound_refuted :
  ok_prog ex_relayer /\ exists w1 w', run ex_relayer ex_mlp [0] = (w1, Ok (PyObj Array_cls 7)) /\
    get_state w1 0 = get_state ex_mlp 0 /\ get_module_def w1 0 = get_module_def ex_mlp 0 /\ follow w1 0 ["linear1"] <> follow w1 3 ["peer"] /\
    train_in_turn ex_recipe (0, 1) (0, 2) (as_functions [(0, ex_relayer)]) ex_mlp = (w', Ok tt) /\ follow w' 0 ["linear1"] = follow w' 3 ["peer"].
Proof.
  split; [unfold ex_relayer; repeat (apply ok_do; [first [exact Logic.I | split; [exact Logic.I|reflexivity] | right; left; reflexivity | split; [apply wf_containerb_ok; reflexivity|reflexivity]]|intros ? _]); constructor|].
  eexists _, _. split; [vm_compute; reflexivity|]. split; [vm_compute; reflexivity|]. split; [vm_compute; reflexivity|]. split; [vm_compute; discriminate|]. split; vm_compute; reflexivity.
Qed.
Print Assumptions C118_rebound_refuted.
