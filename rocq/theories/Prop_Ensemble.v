(** Prop_Ensemble: C117, models trained in turn. *)
From Coq Require Import Lia.
From Verif Require Import PyBase PyBaseFacts ValuesM Spec_Eq ValuesFacts FiltersM StateM ModuleM PureM TransformM GradFunM JitCacheM TrainLoopM EnsembleM
  Spec_Module Spec_Prog Spec_GradFun Spec_Functional Spec_TrainLoop Spec_Ensemble
  Graph_facts Dfs_proofs Bisim_proofs Clone_proofs Transform_proofs Functional_proofs GradFun_proofs Prop_Transform Prop_GradFun TrainLoop_proofs Ensemble_proofs
  Ex_Module Prop_TrainLoop.
Local Open Scope string_scope.
Local Open Scope list_scope.

(** *** C117 *)
(** Models that share no Module, trained in turn in any order: each of them ends as if it had
    been trained alone with its own losses, and no other Module has changed.  [wd m] is the
    world in which [m] was trained alone. *)
Theorem C117_alone :
  forall (how : nat -> recipe) models schedule w wd t1 t2,
  (forall m, In m models -> good_recipe (how m)) -> wf_world w -> In "jax.Array" (w_nodes w) ->
  (forall m, In m models -> m < List.length (w_heap w) /\ names_ok w m /\ live w m) ->
  (forall a b, In a models -> In b models -> a <> b -> share_nothing w a b) ->
  Forall (fun e => In (fst e) models) schedule ->
  (forall m, In m models -> trained (rc_grad (how m)) (rc_sgd (how m)) (rc_wrt (how m)) anything m w (own_losses m schedule) (wd m)) ->
  exists w', train_in_turn how t1 t2 (as_functions schedule) w = (w', Ok tt) /\ w_trace w' = w_trace w /\
    (forall m, In m models -> get_state w' m = get_state (wd m) m /\ get_module_def w' m = get_module_def (wd m) m /\ (forall p, look w' m p = look (wd m) m p) /\ forall p, follow w' m p = follow w m p) /\
    (forall x o, get_obj w x = Some o -> (forall m, In m models -> ~ reaches w m x) -> get_obj w' x = Some o).
Proof.
  intros how models schedule w wd t1 t2 HR W J HM HD HI HT.
  destruct (in_turn how t1 t2 models (fun m => m) wd HR schedule w W HI) as (w' & E & W' & T & LK & F & K).
  - intros m Hm. destruct (HM m Hm) as (V & N & L). exists w. split; [now apply like_refl|]. split; [exact J|now apply HT].
  - exact HD.
  - exists w'. split; [exact E|]. split; [exact T|]. split; [|exact K]. intros m Hm. pose proof (LK m Hm) as Lm. split; [apply Lm|]. split; [apply Lm|]. split; [intros p; now apply like_look|now apply F].
Qed.
Print Assumptions C117_alone.
(** So two schedules that have the same losses in the same order for every model have the
    same effect on every model. *)
Theorem C117_schedules :
  forall (how : nat -> recipe) models schedule schedule' w wd t1 t2 t1' t2',
  (forall m, In m models -> good_recipe (how m)) -> wf_world w -> In "jax.Array" (w_nodes w) ->
  (forall m, In m models -> m < List.length (w_heap w) /\ names_ok w m /\ live w m) ->
  (forall a b, In a models -> In b models -> a <> b -> share_nothing w a b) ->
  Forall (fun e => In (fst e) models) schedule -> Forall (fun e => In (fst e) models) schedule' ->
  (forall m, In m models -> own_losses m schedule' = own_losses m schedule) ->
  (forall m, In m models -> trained (rc_grad (how m)) (rc_sgd (how m)) (rc_wrt (how m)) anything m w (own_losses m schedule) (wd m)) ->
  exists w1 w2, train_in_turn how t1 t2 (as_functions schedule) w = (w1, Ok tt) /\ train_in_turn how t1' t2' (as_functions schedule') w = (w2, Ok tt) /\
    forall m, In m models -> get_state w1 m = get_state w2 m /\ get_module_def w1 m = get_module_def w2 m /\ (forall p, look w1 m p = look w2 m p) /\ forall p, follow w1 m p = follow w2 m p.
Proof.
  intros how models sc sc' w wd t1 t2 t1' t2' HR W J HM HD HI HI' HE HT.
  destruct (C117_alone how models sc w wd t1 t2 HR W J HM HD HI HT) as (w1 & E1 & _ & K1 & _).
  destruct (C117_alone how models sc' w wd t1' t2' HR W J HM HD HI') as (w2 & E2 & _ & K2 & _); [intros m Hm; rewrite (HE m Hm); now apply HT|].
  exists w1, w2. split; [exact E1|]. split; [exact E2|]. intros m Hm. destruct (K1 m Hm) as (A1 & A2 & A3 & A4). destruct (K2 m Hm) as (B1 & B2 & B3 & B4).
  split; [congruence|]. split; [congruence|]. split; intros p; [now rewrite A3, B3|now rewrite A4, B4].
Qed.
Print Assumptions C117_schedules.
(** An ensemble: a model and any number of clones of it, each with its own recipe and losses.
    Every member ends as the model itself would have with the losses of that member. *)
Theorem C117_ensemble :
  forall (how : nat -> recipe) n w r ms w0 schedule wd t1 t2,
  wf_world w -> r < List.length (w_heap w) -> names_ok w r -> live w r -> In "jax.Array" (w_nodes w) ->
  clones w r n = Ok (ms, w0) -> (forall m, In m (r :: ms) -> good_recipe (how m)) ->
  Forall (fun e => In (fst e) (r :: ms)) schedule ->
  (forall m, In m (r :: ms) -> trained (rc_grad (how m)) (rc_sgd (how m)) (rc_wrt (how m)) anything r w (own_losses m schedule) (wd m)) ->
  exists w', train_in_turn how t1 t2 (as_functions schedule) w0 = (w', Ok tt) /\ w_trace w' = w_trace w /\
    (forall m, In m (r :: ms) -> get_state w' m = get_state (wd m) r /\ get_module_def w' m = get_module_def (wd m) r /\ forall p, look w' m p = look (wd m) r p) /\
    (forall x o, get_obj w x = Some o -> ~ reaches w r x -> get_obj w' x = Some o).
Proof.
  intros how n w r ms w0 schedule wd t1 t2 W V N L J HC HR HI HT.
  destruct (clones_like n w r W V N L) as (ms' & w0' & E & _ & _ & W0 & U0 & T0 & N0 & LK0 & SN). rewrite HC in E. injection E as <- <-.
  pose proof (unchanged_like w r w r w0 (like_refl w r W V N L) W0 U0 N0 T0) as LKr.
  assert (Rr : forall x, reaches w0 r x <-> reaches w r x) by (intros x; now apply unchanged_reaches).
  assert (Sr : forall m, In m ms -> share_nothing w0 r m). { intros m Hm x Hx Hy. apply Rr in Hx as [q Hq]. apply follow_valid in Hq as [o Ho]. destruct (LK0 m Hm) as [_ Hn]. rewrite (Hn x Hy) in Ho. discriminate. }
  destruct (in_turn how t1 t2 (r :: ms) (fun _ => r) wd HR schedule w0 W0 HI) as (w' & E & W' & T & LK & F & K).
  - intros m Hm. exists w. split; [|split; [exact J|now apply HT]]. destruct Hm as [<-|Hm]; [exact LKr|apply (LK0 m Hm)].
  - intros a b [<-|Ha] [<-|Hb] Ne; [congruence|now apply Sr| |now apply SN]. intros x Hx Hy. exact (Sr a Ha x Hy Hx).
  - exists w'. split; [exact E|]. split; [congruence|]. split.
    + intros m Hm. pose proof (LK m Hm) as Lm. split; [apply Lm|]. split; [apply Lm|]. intros p. now apply like_look.
    + intros x o Ho Hx. apply K; [now apply U0|]. intros m [<-|Hm]; [now rewrite Rr|]. intros Hy. destruct (LK0 m Hm) as [_ Hn]. rewrite (Hn x Hy) in Ho. discriminate.
Qed.
Print Assumptions C117_ensemble.
(** The clones can always be made. *)
Theorem C117_clones :
  forall n w r, wf_world w -> r < List.length (w_heap w) -> names_ok w r -> live w r ->
  exists ms w0, clones w r n = Ok (ms, w0) /\ List.length ms = n /\ NoDup (r :: ms) /\
    (forall a b, In a (r :: ms) -> In b (r :: ms) -> a <> b -> share_nothing w0 a b) /\
    (forall m, In m (r :: ms) -> get_state w0 m = get_state w r /\ get_module_def w0 m = get_module_def w r).
Proof.
  intros n w r W V N L. destruct (clones_like n w r W V N L) as (ms & w0 & E & Len & ND & W0 & U0 & T0 & N0 & LK0 & SN). exists ms, w0. split; [exact E|]. split; [exact Len|].
  pose proof (unchanged_like w r w r w0 (like_refl w r W V N L) W0 U0 N0 T0) as LKr.
  assert (Rr : forall x, reaches w0 r x <-> reaches w r x) by (intros x; now apply unchanged_reaches).
  assert (Sr : forall m, In m ms -> share_nothing w0 r m). { intros m Hm x Hx Hy. apply Rr in Hx as [q Hq]. apply follow_valid in Hq as [o Ho]. destruct (LK0 m Hm) as [_ Hn]. rewrite (Hn x Hy) in Ho. discriminate. }
  split; [constructor; [|exact ND]|].
  - intros Hr. assert (RR : reaches w0 r r) by (exists []; cbn; destruct (get_obj_ex _ _ (lk_valid' _ _ _ _ LKr)) as [o ->]; reflexivity). exact (Sr r Hr r RR RR).
  - split; [intros a b [<-|Ha] [<-|Hb] Ne; [congruence|now apply Sr| |now apply SN]; intros x Hx Hy; exact (Sr a Ha x Hy Hx)|].
    intros m [<-|Hm]; [split; apply LKr|]. destruct (LK0 m Hm) as [Lm _]. split; apply Lm.
Qed.
Print Assumptions C117_clones.

(** *** Cases *)
Definition ex_recipe : nat -> recipe := fun _ => mkRecipe (FType "Param") quotient ex_sgd.
(** The model and a clone of it (4): two steps for the model, one for the clone in between. *)
Definition ex_turns : list (nat * prog pyval) := [(0, ex_batch 7); (4, ex_batch 1); (0, ex_batch 9)].
Lemma ex_turn_trained l : l = [ex_batch 7; ex_batch 9] \/ l = [ex_batch 1] -> exists wd, trained quotient ex_sgd (FType "Param") anything 0 ex_mlp l wd.
Proof.
  assert (Wk : forall l wd, trained quotient ex_sgd (FType "Param") (params_alone 0) 0 ex_mlp l wd -> trained quotient ex_sgd (FType "Param") anything 0 ex_mlp l wd).
  { intros l' wd T. eapply trained_weaken; [|exact T]. intros ? ? _. exact Logic.I. }
  intros [-> | -> ].
  - destruct C96_example_hyps as (_ & _ & _ & _ & _ & (wd & T) & _). exists wd. now apply Wk.
  - eexists. apply Wk. eapply one_step; [apply ex_batch_ok|vm_compute; reflexivity|vm_compute; reflexivity|vm_compute; reflexivity|reflexivity|reflexivity|vm_compute; reflexivity|vm_compute; reflexivity| |vm_compute; reflexivity|].
    { eexists _, _. split; [vm_compute; reflexivity|]. split; [vm_compute; reflexivity|]. split; [repeat constructor|]. split; vm_compute; reflexivity. }
    apply tr_done.
Qed.
Example C117_hyps :
  wf_world ex_mlp /\ names_ok ex_mlp 0 /\ live ex_mlp 0 /\ (exists w0, clones ex_mlp 0 1 = Ok ([4], w0)) /\ (forall m, good_recipe (ex_recipe m)) /\
  Forall (fun e => In (fst e) [0; 4]) ex_turns /\ own_losses 0 ex_turns = [ex_batch 7; ex_batch 9] /\ own_losses 4 ex_turns = [ex_batch 1] /\
  exists wd : nat -> world, forall m, In m [0; 4] -> trained (rc_grad (ex_recipe m)) (rc_sgd (ex_recipe m)) (rc_wrt (ex_recipe m)) anything 0 ex_mlp (own_losses m ex_turns) (wd m).
Proof.
  split; [apply wf_worldb_ok; vm_compute; reflexivity|]. split; [apply names_okb_ok; vm_compute; reflexivity|]. split; [apply liveb_ok; vm_compute; reflexivity|].
  split; [eexists; vm_compute; reflexivity|]. split; [intros m; split; [apply param_structural|exact quotient_ok]|]. split; [unfold ex_turns; do 3 (constructor; [cbn; tauto|]); constructor|]. split; [reflexivity|]. split; [reflexivity|].
  destruct (ex_turn_trained _ (or_introl eq_refl)) as [w1 T1]. destruct (ex_turn_trained _ (or_intror eq_refl)) as [w2 T2].
  exists (fun m => if Nat.eqb m 0 then w1 else w2). intros m [<-|[<-|[]]]; [exact T1|exact T2].
Qed.
Example C117_example :
  exists ms w0 w', clones ex_mlp 0 1 = Ok (ms, w0) /\ train_in_turn ex_recipe (0, 1) (0, 2) (as_functions ex_turns) w0 = (w', Ok tt) /\
    get_state w' 0 = Ok [("count", arr 2); ("linear1/w", param 20); ("linear2/w", param 18)] /\
    get_state w' 4 = Ok [("count", arr 1); ("linear1/w", param 10); ("linear2/w", param 8)].
Proof. eexists _, _, _. split; [vm_compute; reflexivity|]. split; [vm_compute; reflexivity|]. split; vm_compute; reflexivity. Qed.

(** *** Where it fails *)
(** Models that share a layer are not independent: after a step of the one the other has
    another State, which training it alone (with no losses) does not give. *)
Theorem C117_shared_refuted :
  exists w', train_in_turn ex_recipe (0, 1) (0, 2) (as_functions [(0, ex_batch 7)]) ex_mlp = (w', Ok tt) /\ own_losses 3 [(0, ex_batch 7)] = [] /\
    get_state ex_mlp 3 = Ok [("peer/w", param 3); ("w", param 20)] /\ get_state w' 3 = Ok [("peer/w", param 10); ("w", param 20)].
Proof. eexists. split; [vm_compute; reflexivity|]. split; [reflexivity|]. split; vm_compute; reflexivity. Qed.
Print Assumptions C117_shared_refuted.
