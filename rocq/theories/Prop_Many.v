(** Prop_Many: C119, scripts that work on several models. *)
From Coq Require Import Lia.
From Verif Require Import PyBase PyBaseFacts ValuesM Spec_Eq ValuesFacts FiltersM StateM ModuleM PureM TransformM GradFunM JitCacheM TrainLoopM EnsembleM ManyM
  Spec_Module Spec_Prog Spec_GradFun Spec_Functional Spec_TrainLoop Spec_Ensemble Spec_Shared Spec_Many
  Graph_facts Dfs_proofs Bisim_proofs Clone_proofs Revalue_proofs Prog_proofs Transform_proofs Functional_proofs GradFun_proofs Prop_Transform Prop_GradFun TrainLoop_proofs Ensemble_proofs Shared_proofs Many_proofs
  Ex_Module Prop_TrainLoop Prop_Ensemble Prop_Shared.
Local Open Scope string_scope.
Local Open Scope list_scope.

(** *** C119 *)
(** A script that works on several models, with plain code, jitted calls and training steps in
    any order: every statement returns or raises what it does without transforms, and
    afterwards the models are the same, including which Modules they have in common. *)
Theorem C119_script :
  forall models p w wd xs,
  wf_world w -> (forall m, In m models -> m < List.length (w_heap w) /\ live w m) ->
  simply models w p wd xs ->
  exists w', do_script models p w = (w', xs) /\ w_trace w' = w_trace w /\
    (forall m, In m models -> get_state w' m = get_state wd m /\ get_module_def w' m = get_module_def wd m /\ forall q, look w' m q = look wd m q) /\
    (forall a b q q', In a models -> In b models -> follow w' a q = follow w' b q' <-> follow wd a q = follow wd b q') /\
    (forall x o, get_obj w x = Some o -> (forall m, In m models -> ~ reaches w m x) -> get_obj w' x = Some o).
Proof.
  intros models p w wd xs W HM HS.
  destruct (many_run models w p wd xs HS w (fun x y => x = y /\ exists m, In m models /\ reaches w m x)) as (w' & R & E & P & HR & T & K); [| |reflexivity|].
  - constructor; auto.
    + constructor; [|intros x y y' [-> _] [-> _]; reflexivity|intros x x' y [-> _] [-> _]; reflexivity]. intros x y [<- (m & Hm & Hx)].
      pose proof Hx as [q Hq]. apply follow_valid in Hq as [o Ho]. exists o, o. do 4 (split; [auto|]). intros n. destruct (dget n (m_vars o)) as [a|] eqn:Ea; [|exact Logic.I]. destruct a as [u|c]; [|split; reflexivity]. destruct u as [| | | | |y|]; try (split; reflexivity).
      cbn. split; [reflexivity|]. exists m. split; [exact Hm|]. eapply reaches_trans; [exact Hx|]. apply (reaches_child w _ n _ W). exists o. split; eassumption.
    + intros x y o [_ (m & Hm & Hx)] Ho. exact (proj2 (HM m Hm) x o Hx Ho).
    + intros x y o [<- (m & Hm & Hx)] Ho. exact (proj2 (HM m Hm) x o Hx Ho).
  - intros m Hm. split; [reflexivity|]. exists m. split; [exact Hm|]. exists []. cbn. destruct (get_obj_ex _ _ (proj1 (HM m Hm))) as [o ->]. reflexivity.
  - pose proof (pr_bi _ _ _ P) as B. exists w'. split; [exact E|]. split; [exact T|]. split; [|split].
    + intros m Hm. specialize (HR m Hm). split; [eapply bisim_get_state; try apply P; exact HR|]. split; [eapply bisim_module_def; try apply P; exact HR|]. intros q. now apply (bisim_look _ _ _ q B).
    + intros a b q q' Ha Hb. apply HR in Ha, Hb.
      destruct (follow w' a q) as [x|] eqn:Ex.
      * destruct (bisim_follow _ _ _ q B _ _ _ Ha Ex) as (y & Hy & Rxy). rewrite Hy. split; intros H.
        { symmetry in H. destruct (bisim_follow _ _ _ q' B _ _ _ Hb H) as (y' & Hy' & Rxy'). rewrite Hy'. f_equal. exact (bi_fun _ _ _ B _ _ _ Rxy Rxy'). }
        { symmetry in H. destruct (bisim_follow _ _ _ q' (bisim_sym _ _ _ B) _ _ _ Hb H) as (x' & Hx' & Rxy'). rewrite Hx'. f_equal. exact (bi_inj _ _ _ B _ _ _ Rxy Rxy'). }
      * assert (Ey : follow wd a q = None). { destruct (follow wd a q) as [y|] eqn:Ey; [|reflexivity]. destruct (bisim_follow _ _ _ q (bisim_sym _ _ _ B) _ _ _ Ha Ey) as (x & Hx & _). congruence. }
        rewrite Ey. split; intros H.
        { destruct (follow wd b q') as [y|] eqn:E2; [|reflexivity]. destruct (bisim_follow _ _ _ q' (bisim_sym _ _ _ B) _ _ _ Hb E2) as (x & Hx & _). congruence. }
        { destruct (follow w' b q') as [y|] eqn:E2; [|reflexivity]. destruct (bisim_follow _ _ _ q' B _ _ _ Hb E2) as (x & Hx & _). congruence. }
    + intros x o Ho Hx. apply K; [exact Ho|]. intros y [_ (m & Hm & G)]. exact (Hx m Hm G).
Qed.
Print Assumptions C119_script.

(** *** Cases *)
(** Two models, 0 and 3, which share a layer.  Plain code gives both a new common layer; the
    first is trained and its State kept, the second called under jit, a call that raises is
    caught, the second is trained, which moves the parameter of the common layer, and plain
    code puts the kept State back and returns that parameter as the first model has it. *)
Definition ex_common : prog memo :=
  Do (CNew (Mod_cls "Linear")) (fun _ => Do (CSet 2 "w" (param 2)) (fun _ => Do (CLink 0 "linear1" 2) (fun _ => Do (CLink 1 "peer" 2) (fun _ => Finish (Ok (PyNone, [])))))).
Definition ex_see : prog memo :=
  Do (CGet 0 "linear1") (fun _ => Do (CGet 2 "w") (fun a => Finish (Ok (PyObj Array_cls (num a), [])))).
Definition ex_save : prog memo := Do (CState 0) (fun a => Finish (match a with AState s => Ok (PyNone, [s]) | _ => Err TypeError end)).
Definition ex_back (s : state) : prog memo := Do (CUpdate 0 (One s)) (fun _ => ex_see).
Definition ex_script : script :=
  Then (Plain ex_common) (fun _ => Then (TrainOn 0 (0, 1) (0, 2) (ex_recipe 0) (ex_batch 7)) (fun _ => Then (Plain ex_save) (fun saved =>
  Then (Jitted 3 (0, 1) (ex_peer 1)) (fun _ => Then (Jitted 3 (0, 1) ex_bad) (fun x => match x with Ok _ => Stop | Err _ =>
  Then (TrainOn 3 (0, 1) (0, 2) (ex_recipe 3) (ex_peer 1)) (fun _ => Then (Plain ex_see) (fun _ =>
  match saved with Ok (_, [s]) => Then (Plain (ex_back s)) (fun _ => Stop) | _ => Stop end)) end))))).
Definition ex_saved : state := [("count", arr 1); ("linear1/w", param 7); ("linear2/tied/w", param 5); ("linear2/w", param 7)].
Definition ex_log : list (result memo) :=
  [Ok (PyNone, []); Ok (PyNone, []); Ok (PyNone, [ex_saved]); Ok (PyObj Array_cls 141, []); Err ValueError; Ok (PyNone, []); Ok (PyObj Array_cls 27, []); Ok (PyObj Array_cls 7, [])].
Lemma kept_all w m : wf_world w -> nodes_only w w m.
Proof.
  intros W. split; [reflexivity|]. intros x [q Hq]. apply follow_valid in Hq as [o Ho]. exists o, o. do 4 (split; [auto|]). intros n. destruct (dget n (m_vars o)); [now left|exact Logic.I].
Qed.
Lemma train_statement models w m t1 t2 f k w1 w2 diff params w3 out xs :
  In m models -> names_okb w = true -> In "jax.Array" (w_nodes w) -> ok_prog f -> module_filter w m (FType "Param") [] = Ok (One diff) ->
  run f w [m] = (w1, Ok out) -> module_filter w1 m (FType "Param") [] = Ok (One params) ->
  forallb (fun ka => match snd ka with ACont _ => true | _ => false end) diff = true ->
  forallb (fun ka => match snd ka with ACont _ => true | _ => false end) params = true ->
  names_okb w1 = true -> get_module_def w1 m = get_module_def w m -> map subs (w_heap w1) = map subs (w_heap w) ->
  (exists s s1, get_state w m = Ok s /\ get_state w1 m = Ok s1 /\ Forall2 (fun x y => fst x = fst y /\ same_shape (snd x) (snd y)) s s1) ->
  update_state w1 m (UStates (One (moved ex_sgd (quotient (loss_with false f w m) diff) diff params))) = (w2, Ok tt) ->
  simply models w2 (k (Ok (PyNone, []))) w3 xs -> simply models w (Then (TrainOn m t1 t2 (ex_recipe m) f) k) w3 (Ok (PyNone, []) :: xs).
Proof.
  intros Hm HN J Hf Hd Hr Hp Bd Bp Hn Hdef Hs (s & s1 & G & G1 & F) Hu T.
  assert (V : forall x, forallb (fun ka : string * attr => match snd ka with ACont _ => true | _ => false end) x = true -> variables x).
  { intros x Hx k' a Ha. apply dget_In in Ha. rewrite forallb_forall in Hx. specialize (Hx _ Ha). cbn in Hx. destruct a; [discriminate|eauto]. }
  eapply si_train; eauto.
  - now apply names_okb_ok.
  - split; [apply param_structural|exact quotient_ok].
  - split; [now apply names_okb_ok|]. split; [exact Hdef|]. intros s' s1' Gs Gs1. rewrite G in Gs. rewrite G1 in Gs1. injection Gs as <-. injection Gs1 as <-. exact F.
  - intros q. now apply subs_paths.
Qed.
Example C119_hyps :
  wf_world ex_mlp /\ (forall m, In m [0; 3] -> m < List.length (w_heap ex_mlp) /\ live ex_mlp m) /\
  exists wd, simply [0; 3] ex_mlp ex_script wd ex_log /\
    follow wd 0 ["linear1"] = follow wd 3 ["peer"] /\ follow wd 0 ["linear1"] <> follow wd 0 ["linear2"; "tied"].
Proof.
  split; [apply wf_worldb_ok; vm_compute; reflexivity|].
  split; [intros m [<-|[<-|[]]]; (split; [cbn; lia|apply liveb_ok; vm_compute; reflexivity])|].
  eexists. split; [|split].
  - unfold ex_script, ex_log. eapply si_plain.
    { unfold ex_common. repeat (apply ok_do; [first [exact Logic.I | right; left; reflexivity | split; [apply wf_containerb_ok; reflexivity|reflexivity]]|intros ? _]); constructor. }
    { vm_compute; reflexivity. }
    eapply train_statement; [cbn; tauto|vm_compute; reflexivity|cbn; tauto|apply ex_batch_ok|vm_compute; reflexivity|vm_compute; reflexivity|vm_compute; reflexivity|reflexivity|reflexivity|vm_compute; reflexivity|vm_compute; reflexivity|vm_compute; reflexivity| |vm_compute; reflexivity|].
    { eexists _, _. split; [vm_compute; reflexivity|]. split; [vm_compute; reflexivity|]. repeat constructor. }
    eapply si_plain; [unfold ex_save; apply ok_do; [exact Logic.I|intros ? _; constructor]|vm_compute; reflexivity|].
    eapply si_jit; [cbn; tauto|apply names_okb_ok; vm_compute; reflexivity|apply ex_peer_ok|vm_compute; reflexivity|apply kept_all; apply wf_worldb_ok; vm_compute; reflexivity|apply names_okb_ok; vm_compute; reflexivity|].
    eapply si_jit_raised; [cbn; tauto|apply names_okb_ok; vm_compute; reflexivity|unfold ex_bad; repeat (apply ok_do; [first [exact Logic.I | split; [exact Logic.I|reflexivity]]|intros ? _]); constructor|vm_compute; reflexivity|].
    eapply train_statement; [cbn; tauto|vm_compute; reflexivity|cbn; tauto|apply ex_peer_ok|vm_compute; reflexivity|vm_compute; reflexivity|vm_compute; reflexivity|reflexivity|reflexivity|vm_compute; reflexivity|vm_compute; reflexivity|vm_compute; reflexivity| |vm_compute; reflexivity|].
    { eexists _, _. split; [vm_compute; reflexivity|]. split; [vm_compute; reflexivity|]. repeat constructor. }
    eapply si_plain; [unfold ex_see; repeat (apply ok_do; [exact Logic.I|intros ? _]); constructor|vm_compute; reflexivity|].
    cbv beta iota. eapply si_plain; [unfold ex_back; apply ok_do; [constructor; [repeat (constructor; [split; [first [exact Logic.I | apply wf_containerb_ok; reflexivity]|reflexivity]|]); constructor|constructor]|intros ? _; unfold ex_see; repeat (apply ok_do; [exact Logic.I|intros ? _]); constructor]|vm_compute; reflexivity|]. apply si_stop.
  - vm_compute; reflexivity.
  - vm_compute; discriminate.
Qed.
Example C119_example :
  exists w', do_script [0; 3] ex_script ex_mlp = (w', ex_log) /\
    follow w' 0 ["linear1"] = follow w' 3 ["peer"] /\ get_state w' 3 = Ok [("peer/w", param 7); ("w", param 27)].
Proof. eexists. split; [vm_compute; reflexivity|]. split; vm_compute; reflexivity. Qed.

(** *** Where it fails *)
(** A jitted function that deletes an attribute: the attribute is still there afterwards (C47). *)
Definition ex_forget : prog pyval := Do (CDel 0 "count") (fun _ => Finish (Ok PyNone)).
Theorem C119_delete_refuted :
  ok_prog ex_forget /\ exists w1 w', run ex_forget ex_mlp [0] = (w1, Ok PyNone) /\ do_script [0; 3] (Then (Jitted 0 (0, 1) ex_forget) (fun _ => Stop)) ex_mlp = (w', [Ok (PyNone, [])]) /\
    look w1 0 ["count"] = SNothing /\ look w' 0 ["count"] = SValue (arr 0).
Proof.
  split; [unfold ex_forget; repeat (apply ok_do; [exact Logic.I|intros ? _]); constructor|].
  eexists _, _. split; [vm_compute; reflexivity|]. split; [vm_compute; reflexivity|]. split; vm_compute; reflexivity.
Qed.
Print Assumptions C119_delete_refuted.
