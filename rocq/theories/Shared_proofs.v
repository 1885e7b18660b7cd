(** Shared_proofs: models that share Modules, trained in turn. *)
From Coq Require Import Permutation Lia.
From Verif Require Import PyBase PyBaseFacts ValuesM Spec_Eq ValuesFacts FiltersM StateM Spec_State State_proofs ModuleM PureM Spec_Module Spec_Prog
  Graph_facts Dfs_proofs Build_proofs Bisim_proofs Skel_proofs RoundTrip_proofs Clone_proofs Update_proofs Write_proofs
  Laws_proofs Revalue_proofs Prog_proofs TransformM Transform_proofs History_proofs Leaf_proofs Nest_proofs Spec_Functional Functional_proofs
  GradFunM Spec_GradFun GradFun_proofs JitCacheM TrainLoopM Spec_TrainLoop TrainLoop_proofs FineTuneM Spec_FineTune SkipM Spec_Skip Skip_proofs EnsembleM Spec_Ensemble Ensemble_proofs Spec_Shared.
Local Open Scope string_scope.
Local Open Scope list_scope.

(** the object [x] is the same in both worlds *)
Definition same_at (w v : world) (x : nat) : Prop :=
  exists o o', get_obj w x = Some o /\ get_obj v x = Some o' /\ m_cls o = m_cls o' /\ m_init o = m_init o' /\ forall n, dget n (m_vars o) = dget n (m_vars o').

Lemma sub_valid w x o n y : wf_world w -> get_obj w x = Some o -> dget n (m_vars o) = Some (ARaw (PyMod y)) -> exists oy, get_obj w y = Some oy.
Proof. intros W Ho Hn. destruct (reaches_child w x n y W) as [q Hq]; [exists o; split; assumption|]. now apply follow_valid in Hq. Qed.
Lemma follow_step w x o n : wf_world w -> get_obj w x = Some o -> follow w x [n] = match dget n (m_vars o) with Some (ARaw (PyMod y)) => Some y | _ => None end.
Proof.
  intros W Ho. cbn [follow]. rewrite Ho. destruct (dget n (m_vars o)) as [[[]|]|] eqn:E; try reflexivity. destruct (sub_valid w x o n _ W Ho E) as [oy ->]. reflexivity.
Qed.
Lemma look_step w x o n : get_obj w x = Some o -> look w x [n] = match dget n (m_vars o) with None => SNothing | Some (ARaw (PyMod y)) => look w y [] | Some a => SValue a end.
Proof. intros Ho. cbn [look]. rewrite Ho. destruct (dget n (m_vars o)) as [[[]|]|]; reflexivity. Qed.
Lemma look_nil w y o : get_obj w y = Some o -> look w y [] = SModule (m_cls o) (m_init o).
Proof. intros H. cbn. now rewrite H. Qed.

Lemma like_same w v m : like w m v m -> (forall q, follow v m q = follow w m q) -> forall x, reaches w m x -> same_at w v x.
Proof.
  intros LK F x [q Hq]. pose proof (F q) as Hv. rewrite Hq in Hv. destruct (follow_valid _ _ _ _ Hq) as [o Ho]. destruct (follow_valid _ _ _ _ Hv) as [o' Ho'].
  pose proof (lk_wf _ _ _ _ LK) as W. pose proof (lk_wf' _ _ _ _ LK) as W'.
  exists o, o'. split; [exact Ho|]. split; [exact Ho'|].
  assert (A : look w m q = SModule (m_cls o) (m_init o)) by (apply look_module; eauto 6). rewrite <- (like_look _ _ _ _ q LK) in A.
  apply look_module in A as (x' & o2 & B1 & B2 & B3 & B4). rewrite Hv in B1. injection B1 as <-. rewrite Ho' in B2. injection B2 as <-.
  split; [congruence|]. split; [congruence|]. intros n.
  pose proof (like_look _ _ _ _ (q ++ [n]) LK) as L1. rewrite (look_app _ _ _ _ _ Hq), (look_app _ _ _ _ _ Hv), (look_step _ _ _ n Ho), (look_step _ _ _ n Ho') in L1.
  pose proof (F (q ++ [n])) as F1. rewrite !follow_app, Hq, Hv, (follow_step _ _ _ n W Ho), (follow_step _ _ _ n W' Ho') in F1.
  destruct (dget n (m_vars o)) as [a|] eqn:Ea, (dget n (m_vars o')) as [b|] eqn:Eb; try reflexivity.
  - destruct a as [u|c], b as [u'|c']; try (destruct u; try discriminate; congruence); try (destruct u'; try discriminate; congruence); try congruence.
    destruct u, u'; try discriminate; try congruence.
  - destruct a as [u|c]; [destruct u|]; try discriminate.
  - destruct b as [u|c]; [destruct u|]; try discriminate.
Qed.

(** the submodules at [x] are the same *)
Definition same_subs (w v : world) (x : nat) : Prop :=
  exists o o', get_obj w x = Some o /\ get_obj v x = Some o' /\ forall n y, dget n (m_vars o) = Some (ARaw (PyMod y)) <-> dget n (m_vars o') = Some (ARaw (PyMod y)).
Lemma subs_follow w v m : wf_world w -> (forall x, reaches w m x -> same_subs w v x) -> forall q x, reaches w m x -> follow v x q = follow w x q.
Proof.
  intros W H. induction q as [|n q IH]; intros x Hx; destruct (H x Hx) as (o & o' & Ho & Ho' & E); cbn [follow]; rewrite Ho, Ho'; [reflexivity|].
  destruct (dget n (m_vars o)) as [a|] eqn:Ea.
  - destruct a as [u|c].
    + destruct u as [| | | | |y|]; try (destruct (dget n (m_vars o')) as [[u'|]|] eqn:Eb; try reflexivity; destruct u' as [| | | | |y|]; try reflexivity; apply E in Eb; congruence).
      pose proof (proj1 (E n y) Ea) as Eb. rewrite Eb. apply IH. eapply reaches_trans; [exact Hx|]. apply (reaches_child w _ n _ W). exists o. split; eassumption.
    + destruct (dget n (m_vars o')) as [[u'|]|] eqn:Eb; try reflexivity. destruct u' as [| | | | |y|]; try reflexivity. apply E in Eb. congruence.
  - destruct (dget n (m_vars o')) as [[u'|]|] eqn:Eb; try reflexivity. destruct u' as [| | | | |y|]; try reflexivity. apply E in Eb. congruence.
Qed.
Lemma same_like w v m : wf_world w -> wf_world v -> valid w m -> w_nodes w = w_nodes v -> (forall x, reaches w m x -> same_at w v x) ->
  (forall q, follow v m q = follow w m q) /\ get_module_def v m = get_module_def w m /\ get_state v m = get_state w m.
Proof.
  intros W Wv V N H. assert (Rm : reaches w m m) by (exists []; cbn; destruct (get_obj_ex _ _ V) as [o ->]; reflexivity).
  assert (B : bisim w v (fun x y => x = y /\ reaches w m x)).
  { constructor; [|intros x y y' [-> _] [-> _]; reflexivity|intros x x' y [-> _] [-> _]; reflexivity]. intros x y [<- Hx].
    destruct (H x Hx) as (o & o' & Ho & Ho' & C & I & A). exists o, o'. do 4 (split; [assumption|]). intros n. rewrite <- A.
    destruct (dget n (m_vars o)) as [a|] eqn:Ea; [|exact Logic.I]. destruct a as [u|c]; [|split; reflexivity]. destruct u as [| | | | |y|]; try (split; reflexivity).
    cbn. split; [reflexivity|]. eapply reaches_trans; [exact Hx|]. apply (reaches_child w _ n _ W). exists o. split; eassumption. }
  split; [|split].
  - intros q. apply (subs_follow w v m W); [|exact Rm]. intros x Hx. destruct (H x Hx) as (o & o' & Ho & Ho' & _ & _ & A). exists o, o'. split; [exact Ho|]. split; [exact Ho'|]. intros n y. now rewrite A.
  - symmetry. apply (bisim_module_def w v _ m m W Wv B); auto.
  - symmetry. apply (bisim_get_state w v _ m m W Wv B); auto.
Qed.

(** what a step on [m] does to the paths of another model *)
Lemma apart_subs w w2 m m' : wf_world w -> wf_world w2 -> valid w m -> apart w m w2 -> forall x, reaches w m' x -> same_subs w w2 x.
Proof.
  intros W W2 V (_ & A2 & A3) x Hx. pose proof Hx as [q' Hq']. destruct (follow_valid _ _ _ _ Hq') as [o Ho].
  destruct (reaches_or w m x W V) as [[q Hq]|NR].
  - pose proof (A3 q) as H2. rewrite Hq in H2. destruct (follow_valid _ _ _ _ H2) as [o2 Ho2]. exists o, o2. split; [exact Ho|]. split; [exact Ho2|]. intros n y.
    pose proof (A3 (q ++ [n])) as F. rewrite !follow_app, Hq, H2, (follow_step _ _ _ n W Ho), (follow_step _ _ _ n W2 Ho2) in F.
    split; intros E; rewrite E in F; [destruct (dget n (m_vars o2)) as [[[]|]|]|destruct (dget n (m_vars o)) as [[[]|]|]]; congruence.
  - exists o, o. split; [exact Ho|]. split; [now apply A2|tauto].
Qed.
Lemma apart_follow w w2 m m' : wf_world w -> wf_world w2 -> valid w m -> valid w m' -> apart w m w2 -> forall q, follow w2 m' q = follow w m' q.
Proof.
  intros W W2 V V' A q. apply (subs_follow w w2 m' W); [now apply (apart_subs w w2 m)|]. exists []; cbn; destruct (get_obj_ex _ _ V') as [o ->]; reflexivity.
Qed.
Lemma apart_obj w w2 m x : wf_world w -> valid w m -> apart w m w2 -> (exists o, get_obj w x = Some o) -> reaches w2 m x \/ (~ reaches w m x /\ get_obj w2 x = get_obj w x).
Proof.
  intros W V (_ & A2 & A3) [o Ho]. destruct (reaches_or w m x W V) as [[q Hq]|NR]; [left; exists q; now rewrite A3|right]. split; [exact NR|]. rewrite Ho. now apply A2.
Qed.

Lemma names_at w m : names_ok w m <-> forall x o, reaches w m x -> get_obj w x = Some o -> forall name a, dget name (m_vars o) = Some a ->
  (is_submodule a = true -> has_char "/" name = false) /\
  ((is_submodule a = false /\ exists t, In t (w_nodes w) /\ In t (cls_of_attr a)) -> has_char "/" name = false) /\
  ((is_submodule a = false /\ forall t, In t (w_nodes w) -> ~ In t (cls_of_attr a)) -> starts_with "_module__" name = false).
Proof.
  split.
  - intros N x o Hx Ho name a Ha. destruct (N x o name a Hx Ho Ha) as (A1 & A2 & A3). split; [exact A1|]. split; [intros [B1 B2]; apply A2; exists o; auto|intros [B1 B2]; apply A3; exists o; auto].
  - intros N x o name a Hx Ho Ha. destruct (N x o Hx Ho name a Ha) as (A1 & A2 & A3). split; [exact A1|]. split.
    + intros (o2 & B1 & B2 & B3 & B4). now apply A2.
    + intros (o2 & B1 & B2 & B3 & B4). now apply A3.
Qed.
Lemma carry_names w w2 m m' : wf_world w -> wf_world w2 -> valid w m -> valid w m' -> apart w m w2 -> w_nodes w2 = w_nodes w -> names_ok w2 m -> names_ok w m' -> names_ok w2 m'.
Proof.
  intros W W2 V V' A Nn N2 N'. apply names_at. intros x o Hx Ho. assert (Hx' : reaches w m' x) by (destruct Hx as [q Hq]; exists q; now rewrite <- (apart_follow w w2 m m')).
  assert (E : exists o, get_obj w x = Some o) by (destruct Hx' as [q Hq]; now apply follow_valid in Hq).
  destruct (apart_obj w w2 m x W V A E) as [R|[_ R]]; [exact (proj1 (names_at w2 m) N2 x o R Ho)|]. rewrite R in Ho. rewrite Nn. exact (proj1 (names_at w m') N' x o Hx' Ho).
Qed.
Lemma carry_live w w2 m m' : wf_world w -> wf_world w2 -> valid w m -> valid w m' -> apart w m w2 -> live w2 m -> live w m' -> live w2 m'.
Proof.
  intros W W2 V V' A L2 L' x o Hx Ho. assert (Hx' : reaches w m' x) by (destruct Hx as [q Hq]; exists q; now rewrite <- (apart_follow w w2 m m')).
  assert (E : exists o, get_obj w x = Some o) by (destruct Hx' as [q Hq]; now apply follow_valid in Hq).
  destruct (apart_obj w w2 m x W V A E) as [R|[_ R]]; [exact (L2 x o R Ho)|]. rewrite R in Ho. rewrite (proj1 A). exact (L' x o Hx' Ho).
Qed.
(** two worlds in which a model is the same, object by object *)
Definition twin (w v : world) (m : nat) : Prop := like w m v m /\ forall q, follow v m q = follow w m q.
Lemma carry w v w2 v2 m m' : twin w v m -> twin w v m' -> apart w m w2 -> apart v m v2 -> twin w2 v2 m -> w_nodes w2 = w_nodes w -> twin w2 v2 m'.
Proof.
  intros [LK F] [LK' F'] A B [LK2 F2] Nn.
  pose proof (lk_wf _ _ _ _ LK) as W. pose proof (lk_valid _ _ _ _ LK) as V. pose proof (lk_wf' _ _ _ _ LK) as Wv. pose proof (lk_valid' _ _ _ _ LK) as Vv.
  pose proof (lk_valid _ _ _ _ LK') as V'. pose proof (lk_valid' _ _ _ _ LK') as Vv'. pose proof (lk_wf _ _ _ _ LK2) as W2. pose proof (lk_wf' _ _ _ _ LK2) as Wv2.
  pose proof (apart_follow w w2 m m' W W2 V V' A) as G. pose proof (apart_follow v v2 m m' Wv Wv2 Vv Vv' B) as Gv.
  assert (Nv : w_nodes v2 = w_nodes v) by (rewrite (lk_nodes _ _ _ _ LK2), Nn; symmetry; apply LK).
  assert (V2' : valid w2 m') by (pose proof (G []) as H; cbn in H; destruct (get_obj_ex _ _ V') as [o Ho]; rewrite Ho in H; destruct (get_obj w2 m') as [o2|] eqn:E; [eapply get_obj_lt; eauto|discriminate]).
  assert (Vv2' : valid v2 m') by (pose proof (Gv []) as H; cbn in H; destruct (get_obj_ex _ _ Vv') as [o Ho]; rewrite Ho in H; destruct (get_obj v2 m') as [o2|] eqn:E; [eapply get_obj_lt; eauto|discriminate]).
  assert (SA : forall x, reaches w2 m' x -> same_at w2 v2 x).
  { intros x Hx. assert (Hx' : reaches w m' x) by (destruct Hx as [q Hq]; exists q; now rewrite <- G).
    destruct (like_same w v m' LK' F' x Hx') as (o & o' & Ho & Ho' & C).
    destruct (apart_obj w w2 m x W V A (ex_intro _ o Ho)) as [R|[NR R]]; [exact (like_same w2 v2 m LK2 F2 x R)|].
    exists o, o'. split; [now rewrite R|]. split; [|exact C]. apply (proj1 (proj2 B)); [exact Ho'|]. intros [q Hq]. apply NR. exists q. now rewrite <- F. }
  destruct (same_like w2 v2 m' W2 Wv2 V2' (eq_sym (lk_nodes _ _ _ _ LK2)) SA) as (S1 & S2 & S3).
  split; [|exact S1]. constructor; auto.
  - apply (carry_names w w2 m m'); auto; [apply LK2|apply LK'].
  - apply (carry_live w w2 m m'); auto; [apply LK2|apply LK'].
  - apply (carry_names v v2 m m'); auto; [apply LK2|apply LK'].
  - apply (carry_live v v2 m m'); auto; [apply LK2|apply LK'].
  - apply LK2.
Qed.

(** a program that gets [m] changes only what [m] reaches *)
Lemma run_frame {A} (f : prog A) w m w1 res : ok_prog f -> wf_world w -> valid w m -> live w m -> run f w [m] = (w1, res) ->
  w_trace w1 = w_trace w /\ w_nodes w1 = w_nodes w /\ forall x o, get_obj w x = Some o -> ~ reaches w m x -> get_obj w1 x = Some o.
Proof.
  intros Hf W V L E. assert (Rm : reaches w m m) by (exists []; cbn; destruct (get_obj_ex _ _ V) as [o ->]; reflexivity).
  assert (P : pair w w (fun x y => x = y /\ reaches w m x)).
  { constructor; auto.
    - constructor; [|intros x y y' [-> _] [-> _]; reflexivity|intros x x' y [-> _] [-> _]; reflexivity]. intros x y [<- Hx].
      pose proof Hx as [q Hq]. apply follow_valid in Hq as [o Ho]. exists o, o. do 4 (split; [auto|]). intros n. destruct (dget n (m_vars o)) as [a|] eqn:Ea; [|exact Logic.I]. destruct a as [u|c]; [|split; reflexivity]. destruct u as [| | | | |y|]; try (split; reflexivity).
      cbn. split; [reflexivity|]. eapply reaches_trans; [exact Hx|]. apply (reaches_child w _ n _ W). exists o. split; eassumption.
    - intros x y o [_ Hx] Ho. exact (L x o Hx Ho).
    - intros x y o [<- Hx] Ho. exact (L x o Hx Ho). }
  destruct (run_pair f Hf w w _ [m] [m] P) as (w2 & w2' & res' & R2 & E1 & _ & M); [constructor; [split; [reflexivity|exact Rm]|constructor]|].
  rewrite E in E1. injection E1 as <- <-. split; [apply M|]. split; [apply M|]. intros x o Ho Hx. rewrite (mv_fr _ _ _ _ _ _ M x); [exact Ho|eapply get_obj_lt; eauto|]. intros y [_ Hy]. contradiction.
Qed.

(** what a step done directly leaves alone *)
Lemma step_apart h (f : prog pyval) w m diff w1 out params w2 : structural (rc_wrt h) -> ok_prog f ->
  run f w [m] = (w1, Ok out) -> steady w w1 m -> (forall q, follow w1 m q = follow w m q) ->
  module_filter w1 m (rc_wrt h) [] = Ok (One params) -> variables params ->
  update_state w1 m (UStates (One (moved (rc_sgd h) (rc_grad h (loss_with false f w m) diff) diff params))) = (w2, Ok tt) ->
  wf_world w -> valid w m -> names_ok w m -> live w m -> apart w m w2.
Proof.
  intros HS Hf Hrun Hst Hfol Hpar Vp Hup W V N L.
  destruct (run_frame f w m w1 _ Hf W V L Hrun) as (T1 & N1 & K1). destruct (run_live f w m w1 _ Hf W V N L Hrun) as (W1 & V1 & L1 & _).
  destruct (get_state_total w1 m W1 V1) as (s1 & Gs1 & Ws1). destruct HS as (pr & Hpr & BC).
  assert (Epar : params = chosen pr s1). { unfold module_filter in Hpar. rewrite Gs1 in Hpar. cbn [rbind] in Hpar. rewrite (filter_sub s1 _ _ Ws1 Hpr) in Hpar. now injection Hpar as <-. }
  assert (FM : fits w1 s1 (moved (rc_sgd h) (rc_grad h (loss_with false f w m) diff) diff params)). { rewrite Epar. apply (moved_fits pr w1 m); auto. now rewrite Epar in Vp. }
  destruct (adopt w1 m s1 _ W1 V1 (proj1 Hst) L1 Gs1 FM) as (w2' & E2 & _ & _ & _ & _ & _ & _ & T2 & _ & K2 & F2). rewrite Hup in E2. injection E2 as <-.
  apply (apart_trans w w1 w2 m); (split; [assumption|split; assumption]).
Qed.

Theorem shared_in_turn how t1 t2 models : (forall m, In m models -> good_recipe (how m)) -> forall schedule w v wd,
  In "jax.Array" (w_nodes w) -> Forall (fun e => In (fst e) models) schedule -> (forall m, In m models -> twin w v m) -> directly how w schedule wd ->
  exists v', train_in_turn how t1 t2 (as_functions schedule) v = (v', Ok tt) /\ w_trace v' = w_trace v /\ w_nodes wd = w_nodes w /\
    (forall m, In m models -> twin wd v' m) /\ (forall m, In m models -> forall q, follow v' m q = follow v m q) /\
    (forall x o, get_obj v x = Some o -> (forall m, In m models -> ~ reaches v m x) -> get_obj v' x = Some o) /\
    (forall x o, get_obj w x = Some o -> (forall m, In m models -> ~ reaches w m x) -> get_obj wd x = Some o).
Proof.
  intros HR. induction schedule as [|[m f] l IH]; intros w v wd J HI HT HD.
  - inversion HD; subst. exists v. split; [reflexivity|]. split; [reflexivity|]. split; [reflexivity|]. split; [exact HT|]. auto.
  - inversion HI as [|? ? Hm HI']; subst. cbn [fst] in Hm. destruct (HR m Hm) as [HS HG].
    inversion HD as [|? ? ? diff w1 out params w2 ? ? Hf Hdiff Vd Hrun Hst Hfol Hpar Vp Hup HD2]; subst.
    pose proof (HT m Hm) as [LK F].
    destruct (lifted_step_ok (rc_wrt (how m)) (rc_grad (how m)) (rc_sgd (how m)) f w m diff w1 out params w2 v m t1 t2 HS HG J Hf Hdiff Vd Hrun Hst Hpar Vp Hup LK) as (v1 & E & LK1 & B & Nw).
    pose proof (lk_wf _ _ _ _ LK) as W. pose proof (lk_valid _ _ _ _ LK) as V. pose proof (lk_names _ _ _ _ LK) as N. pose proof (lk_live _ _ _ _ LK) as L.
    pose proof (step_apart (how m) f w m diff w1 out params w2 HS Hf Hrun Hst Hfol Hpar Vp Hup W V N L) as A.
    assert (TM : twin w2 v1 m). { split; [exact LK1|]. intros q. rewrite (proj2 (proj2 B)), F. symmetry. apply A. }
    assert (TW : forall m', In m' models -> twin w2 v1 m') by (intros m' Hm'; apply (carry w v w2 v1 m m'); auto).
    assert (FV : forall m', In m' models -> forall q, follow v1 m' q = follow v m' q).
    { intros m' Hm'. apply (apart_follow v v1 m m'); auto; [apply LK|apply LK1|apply LK|apply (HT m' Hm')]. }
    assert (FW : forall m', In m' models -> forall q, follow w2 m' q = follow w m' q).
    { intros m' Hm'. apply (apart_follow w w2 m m'); auto; [apply LK1|apply (HT m' Hm')]. }
    destruct (IH w2 v1 wd) as (v' & E' & T' & Nd & LK' & F' & K' & K2'); auto; [now rewrite Nw|].
    exists v'. cbn [as_functions map train_in_turn fst snd]. rewrite E. split; [exact E'|]. split; [rewrite T'; apply B|]. split; [congruence|].
    split; [exact LK'|]. split; [intros m' Hm' q; rewrite (F' m' Hm'); now apply FV|]. split.
    + intros x o Ho Hx. apply K'; [apply (proj1 (proj2 B)); [exact Ho|now apply Hx]|]. intros m' Hm' [q Hq]. rewrite (FV m' Hm') in Hq. apply (Hx m' Hm'). now exists q.
    + intros x o Ho Hx. apply K2'; [apply (proj1 (proj2 A)); [exact Ho|now apply Hx]|]. intros m' Hm' [q Hq]. rewrite (FW m' Hm') in Hq. apply (Hx m' Hm'). now exists q.
Qed.

(** ** Steps that raise *)
Lemma in_turn_app how t1 t2 l1 : forall l2 w, train_in_turn how t1 t2 (l1 ++ l2) w =
  match train_in_turn how t1 t2 l1 w with (w1, Ok _) => train_in_turn how t1 t2 l2 w1 | (w1, Err e) => (w1, Err e) end.
Proof.
  induction l1 as [|[m f] l1 IH]; intros l2 w; cbn [app train_in_turn]; [reflexivity|]. destruct (jit_call _ _ _ w m) as [w1 [u|e]]; [apply IH|reflexivity].
Qed.
Lemma raised_in_turn how t1 t2 models m f w v w1 e : (forall m, In m models -> good_recipe (how m)) -> In m models -> ok_prog f -> run f w [m] = (w1, Err e) ->
  (forall m, In m models -> twin w v m) ->
  exists v', jit_call true t1 (sgd_body (rc_wrt (how m)) t2 (rc_grad (how m)) (rc_sgd (how m)) (user_fun f)) v m = (v', Err e) /\ w_trace v' = w_trace v /\ all_unchanged v v' /\
    (forall m, In m models -> twin w v' m /\ forall q, follow v' m q = follow v m q).
Proof.
  intros HR Hm Hf Hrun HT. destruct (HT m Hm) as [LK F]. destruct (lifted_raises (rc_wrt (how m)) (rc_grad (how m)) (rc_sgd (how m)) f w m w1 e v m t1 t2 (proj1 (HR m Hm)) Hf Hrun LK) as (v' & E & LK' & U & T).
  exists v'. split; [exact E|]. split; [exact T|]. split; [exact U|]. intros m' Hm'. destruct (HT m' Hm') as [Lm Fm].
  assert (N' : w_nodes v' = w_nodes v) by (rewrite (lk_nodes _ _ _ _ LK'); symmetry; apply LK).
  assert (G : forall q, follow v' m' q = follow v m' q) by (intros q; apply unchanged_follow; auto; apply Lm).
  split; [|exact G]. split; [|intros q; now rewrite G]. eapply unchanged_like; [exact Lm|apply LK'|exact U|exact N'|exact T].
Qed.
Theorem shared_skip how t1 t2 models : (forall m, In m models -> good_recipe (how m)) -> forall schedule log w v wd,
  In "jax.Array" (w_nodes w) -> Forall (fun e => In (fst e) models) schedule -> (forall m, In m models -> twin w v m) -> directly_but how w schedule log wd ->
  exists v', skip_in_turn how t1 t2 (as_functions schedule) v = (v', log) /\ w_trace v' = w_trace v /\
    (forall m, In m models -> twin wd v' m) /\ (forall m, In m models -> forall q, follow v' m q = follow v m q) /\
    (forall x o, get_obj v x = Some o -> (forall m, In m models -> ~ reaches v m x) -> get_obj v' x = Some o).
Proof.
  intros HR. induction schedule as [|[m f] l IH]; intros log w v wd J HI HT HD.
  - inversion HD; subst. exists v. split; [reflexivity|]. split; [reflexivity|]. split; [exact HT|]. auto.
  - inversion HI as [|? ? Hm HI']; subst. cbn [fst] in Hm. inversion HD as [|? ? ? w2 ? log' ? D1 D2|? ? ? w1 e ? log' ? Hf Hrun D2]; subst.
    + destruct (shared_in_turn how t1 t2 models HR [(m, f)] w v w2 J) as (v1 & E1 & T1 & N1 & TW1 & F1 & K1 & _); auto.
      destruct (IH log' w2 v1 wd) as (v' & E' & T' & TW' & F' & K'); auto; [now rewrite N1|].
      cbn [as_functions map train_in_turn fst snd] in E1. cbn [as_functions map skip_in_turn fst snd].
      destruct (jit_call _ _ _ v m) as [v1' [u|e]]; [|discriminate]. injection E1 as ->. destruct u. fold (as_functions l). rewrite E'.
      exists v'. split; [reflexivity|]. split; [congruence|]. split; [exact TW'|]. split; [intros m' Hm' q; rewrite (F' m' Hm'); now apply F1|].
      intros x o Ho Hx. apply K'; [now apply K1|]. intros m' Hm' [q Hq]. rewrite (F1 m' Hm') in Hq. apply (Hx m' Hm'). now exists q.
    + destruct (raised_in_turn how t1 t2 models m f w v w1 e HR Hm Hf Hrun HT) as (v1 & E1 & T1 & U1 & TW1).
      destruct (IH log' w v1 wd) as (v' & E' & T' & TW' & F' & K'); auto; [intros m' Hm'; now apply TW1|].
      cbn [as_functions map skip_in_turn fst snd]. rewrite E1. fold (as_functions l). rewrite E'.
      exists v'. split; [reflexivity|]. split; [congruence|]. split; [exact TW'|]. split; [intros m' Hm' q; rewrite (F' m' Hm'); now apply TW1|].
      intros x o Ho Hx. apply K'; [now apply U1|]. intros m' Hm' [q Hq]. rewrite (proj2 (TW1 m' Hm')) in Hq. apply (Hx m' Hm'). now exists q.
Qed.
