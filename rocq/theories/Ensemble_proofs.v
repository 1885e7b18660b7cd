(** Ensemble_proofs: training one model does not touch another that shares nothing with it. *)
From Coq Require Import Permutation Lia.
From Verif Require Import PyBase PyBaseFacts ValuesM Spec_Eq ValuesFacts FiltersM StateM Spec_State State_proofs ModuleM PureM Spec_Module Spec_Prog
  Graph_facts Dfs_proofs Build_proofs Bisim_proofs Skel_proofs RoundTrip_proofs Clone_proofs Update_proofs Write_proofs
  Laws_proofs Prog_proofs TransformM Transform_proofs History_proofs Leaf_proofs Spec_Functional Functional_proofs
  GradFunM Spec_GradFun GradFun_proofs JitCacheM TrainLoopM Spec_TrainLoop TrainLoop_proofs EnsembleM Spec_Ensemble.
Local Open Scope string_scope.
Local Open Scope list_scope.

Lemma frame_follow v v' m : wf_world v -> (forall x, reaches v m x -> get_obj v' x = get_obj v x) -> forall q x, reaches v m x -> follow v' x q = follow v x q.
Proof.
  intros W H. induction q as [|n q IH]; intros x Hx; cbn [follow]; rewrite (H x Hx); [reflexivity|]. destruct (get_obj v x) as [o|] eqn:Ho; [|reflexivity].
  destruct (dget n (m_vars o)) as [a|] eqn:Ea; [|reflexivity]. destruct a as [u|c]; [|reflexivity]. destruct u as [| | | | |y|]; try reflexivity.
  apply IH. eapply reaches_trans; [exact Hx|]. apply (reaches_child v _ n _ W). exists o. split; eassumption.
Qed.
Lemma frame_like w r v m v' : like w r v m -> wf_world v' -> (forall x, reaches v m x -> get_obj v' x = get_obj v x) -> w_nodes v' = w_nodes v -> w_trace v' = w_trace v ->
  like w r v' m /\ (forall q, follow v' m q = follow v m q).
Proof.
  intros [W V N L W' V' N' L' Nn Ed Es] W2 H Nv Tv. assert (Rm : reaches v m m) by (exists []; cbn; destruct (get_obj_ex _ _ V') as [o ->]; reflexivity).
  assert (FF : forall q, follow v' m q = follow v m q) by (intros q; now apply (frame_follow v v' m)).
  assert (RR : forall x, reaches v' m x -> reaches v m x) by (intros x [q Hq]; exists q; now rewrite <- FF).
  split; [|exact FF].
  assert (B : bisim v v' (fun x y => x = y /\ reaches v m x)).
  { constructor; [|intros x y y' [-> _] [-> _]; reflexivity|intros x x' y [-> _] [-> _]; reflexivity]. intros x y [<- Hx].
    pose proof Hx as [q Hq]. apply follow_valid in Hq as [o Ho]. exists o, o. split; [exact Ho|]. split; [now rewrite H|]. split; [reflexivity|]. split; [reflexivity|].
    intros n. destruct (dget n (m_vars o)) as [a|] eqn:Ea; [|exact Logic.I]. destruct a as [u|c]; [|split; reflexivity]. destruct u as [| | | | |y|]; try (split; reflexivity).
    cbn. split; [reflexivity|]. eapply reaches_trans; [exact Hx|]. apply (reaches_child v _ n _ W'). exists o. split; eassumption. }
  constructor; auto.
  - destruct (get_obj_ex _ _ V') as [o Ho]. rewrite <- (H m Rm) in Ho. eapply get_obj_lt; eauto.
  - intros x o name a Hx Ho Ha. apply RR in Hx. rewrite (H x Hx) in Ho. destruct (N' x o name a Hx Ho Ha) as (A1 & A2 & A3). split; [exact A1|]. split.
    + intros (o2 & B1 & B2 & B3 & B4). apply A2. rewrite (H x Hx) in B1. exists o2. rewrite Nv in B4. auto.
    + intros (o2 & B1 & B2 & B3 & B4). apply A3. rewrite (H x Hx) in B1. exists o2. rewrite Nv in B4. auto.
  - intros x o Hx Ho. apply RR in Hx. rewrite (H x Hx) in Ho. rewrite Tv. now apply (L' x).
  - congruence.
  - rewrite <- Ed. symmetry. apply (bisim_module_def v v' _ m m W' W2 B); auto.
  - rewrite <- Es. symmetry. apply (bisim_get_state v v' _ m m W' W2 B); auto.
Qed.

(** each model is like one that is trained alone *)
Definition on_the_way (how : nat -> recipe) (start : nat -> nat) (schedule : list (nat * prog pyval)) (wd : nat -> world) (v : world) (m : nat) : Prop :=
  exists w, like w (start m) v m /\ In "jax.Array" (w_nodes w) /\
    trained (rc_grad (how m)) (rc_sgd (how m)) (rc_wrt (how m)) anything (start m) w (own_losses m schedule) (wd m).
Lemma own_same m f l : own_losses m ((m, f) :: l) = f :: own_losses m l.
Proof. unfold own_losses. cbn [filter fst]. now rewrite Nat.eqb_refl. Qed.
Lemma own_other m m' f l : m <> m' -> own_losses m' ((m, f) :: l) = own_losses m' l.
Proof. intros H. unfold own_losses. cbn [filter fst]. destruct (Nat.eqb_spec m m'); [congruence|reflexivity]. Qed.
Theorem in_turn how t1 t2 models start wd : (forall m, In m models -> good_recipe (how m)) -> forall schedule v,
  wf_world v -> Forall (fun e => In (fst e) models) schedule -> (forall m, In m models -> on_the_way how start schedule wd v m) ->
  (forall a b, In a models -> In b models -> a <> b -> share_nothing v a b) ->
  exists v', train_in_turn how t1 t2 (as_functions schedule) v = (v', Ok tt) /\ wf_world v' /\ w_trace v' = w_trace v /\
    (forall m, In m models -> like (wd m) (start m) v' m) /\
    (forall m, In m models -> forall q, follow v' m q = follow v m q) /\
    (forall x o, get_obj v x = Some o -> (forall m, In m models -> ~ reaches v m x) -> get_obj v' x = Some o).
Proof.
  intros HR. induction schedule as [|[m f] l IH]; intros v Wv HI HO HD.
  - exists v. split; [reflexivity|]. split; [exact Wv|]. split; [reflexivity|]. split; [|auto]. intros m Hm. destruct (HO m Hm) as (w & LK & _ & T). inversion T; subst. exact LK.
  - inversion HI as [|? ? Hm HI']; subst. cbn [fst] in Hm. destruct (HO m Hm) as (w & LK & J & T). rewrite own_same in T. destruct (HR m Hm) as [HS HG].
    inversion T as [|? ? diff w1 out params w2 ? ? Hf Hdiff Vd Hrun Hst _ Hpar Vp Hup T2]; subst.
    destruct (lifted_step_ok (rc_wrt (how m)) (rc_grad (how m)) (rc_sgd (how m)) f w (start m) diff w1 out params w2 v m t1 t2 HS HG J Hf Hdiff Vd Hrun Hst Hpar Vp Hup LK) as (v1 & E & LK1 & (A1 & A2 & A3) & Nw).
    pose proof (lk_wf' _ _ _ _ LK1) as W1. assert (N1 : w_nodes v1 = w_nodes v) by (rewrite (lk_nodes _ _ _ _ LK1), Nw; symmetry; apply LK).
    assert (FO : forall m', In m' models -> m' <> m -> forall x, reaches v m' x -> get_obj v1 x = get_obj v x).
    { intros m' Hm' Ne x Hx. pose proof Hx as [q Hq]. apply follow_valid in Hq as [o Ho]. rewrite Ho. apply (A2 x o Ho). exact (HD m' m Hm' Hm Ne x Hx). }
    assert (FF : forall m', In m' models -> forall q, follow v1 m' q = follow v m' q).
    { intros m' Hm' q. destruct (Nat.eq_dec m' m) as [->|Ne]; [apply A3|]. destruct (HO m' Hm') as (w' & LK' & _). destruct (frame_like w' (start m') v m' v1 LK' W1 (FO m' Hm' Ne) N1 A1) as [_ H]. apply H. }
    destruct (IH v1 W1 HI') as (v' & E' & W' & T' & LK' & F' & K').
    + intros m' Hm'. destruct (Nat.eq_dec m' m) as [->|Ne].
      * exists w2. split; [exact LK1|]. split; [now rewrite Nw|exact T2].
      * destruct (HO m' Hm') as (w' & LKm & Jm & Tm). rewrite own_other in Tm by auto. exists w'. split; [|auto]. apply (frame_like w' (start m') v m' v1 LKm W1 (FO m' Hm' Ne) N1 A1).
    + intros a b Ha Hb Ne x [qa Hx] [qb Hy]. rewrite (FF a Ha) in Hx. rewrite (FF b Hb) in Hy. apply (HD a b Ha Hb Ne x); [now exists qa|now exists qb].
    + exists v'. cbn [as_functions map train_in_turn fst snd]. rewrite E. split; [exact E'|]. split; [exact W'|]. split; [congruence|]. split; [exact LK'|]. split.
      * intros m' Hm' q. rewrite (F' m' Hm'). now apply FF.
      * intros x o Ho Hx. apply K'; [apply (A2 x o Ho); now apply Hx|]. intros m' Hm' [q Hq]. rewrite (FF m' Hm') in Hq. apply (Hx m' Hm'). now exists q.
Qed.

(** ** Clones *)
Lemma like_trans w r v m u k : like w r v m -> like v m u k -> like w r u k.
Proof. intros [] []. constructor; auto; congruence. Qed.
Lemma clone_like v r : wf_world v -> valid v r -> names_ok v r -> live v r ->
  exists v1, clone v r = Ok (List.length (w_heap v), v1) /\ like v r v1 (List.length (w_heap v)) /\ all_unchanged v v1 /\ w_trace v1 = w_trace v /\ w_nodes v1 = w_nodes v /\
    (forall x, reaches v1 (List.length (w_heap v)) x -> get_obj v x = None).
Proof.
  intros W V N L. destruct (partition_ok_iff_state v r [] W V) as (d & s & Hd & Hs & Ws & E). cbn [partition_state rmap] in E.
  assert (Pv : parts_of (mkPure (One s) d) v r) by (split; [exact Hd|exact Hs]).
  destruct (parts_like _ v r v (w_trace v) W V N L Pv W eq_refl) as (v1 & Hm & LK & U1 & T1 & N1 & R1). exists v1.
  split; [|auto 8]. unfold clone. rewrite E. cbn [rbind]. replace (set_trace v (w_trace v)) with v in Hm by (now destruct v). exact Hm.
Qed.
Lemma clones_like n : forall v r, wf_world v -> valid v r -> names_ok v r -> live v r ->
  exists ms v', clones v r n = Ok (ms, v') /\ List.length ms = n /\ NoDup ms /\ wf_world v' /\ all_unchanged v v' /\ w_trace v' = w_trace v /\ w_nodes v' = w_nodes v /\
    (forall m, In m ms -> like v r v' m /\ forall x, reaches v' m x -> get_obj v x = None) /\
    (forall a b, In a ms -> In b ms -> a <> b -> share_nothing v' a b).
Proof.
  induction n as [|n IH]; intros v r W V N L.
  - exists [], v. split; [reflexivity|]. split; [reflexivity|]. split; [constructor|]. split; [exact W|]. split; [intros x o Ho; exact Ho|]. split; [reflexivity|]. split; [reflexivity|]. split; [intros m []|intros a b []].
  - destruct (clone_like v r W V N L) as (v1 & E1 & LK1 & U1 & T1 & N1 & R1). pose proof (unchanged_like v r v r v1 (like_refl v r W V N L) (lk_wf' _ _ _ _ LK1) U1 N1 T1) as LKr.
    destruct (IH v1 r (lk_wf' _ _ _ _ LK1) (lk_valid' _ _ _ _ LKr) (lk_names' _ _ _ _ LKr) (lk_live' _ _ _ _ LKr)) as (ms & v' & E2 & Len & ND & W2 & U2 & T2 & N2 & LK2 & SN).
    set (m := List.length (w_heap v)) in *. exists (m :: ms), v'. split; [cbn [clones]; rewrite E1; cbn [rbind]; rewrite E2; reflexivity|]. split; [cbn; congruence|].
    assert (Rm : forall x, reaches v' m x -> exists o, get_obj v1 x = Some o). { intros x Hx. apply (unchanged_reaches v1 v') in Hx; try apply LK1; auto. destruct Hx as [q Hq]. now apply follow_valid in Hq. }
    assert (Hm : forall x, In x ms -> share_nothing v' m x). { intros k Hk x Hx Hy. destruct (Rm x Hx) as [o Ho]. destruct (LK2 k Hk) as [_ Hn]. rewrite (Hn x Hy) in Ho. discriminate. }
    assert (LKm : like v r v' m) by (eapply unchanged_like; [exact LK1|exact W2|exact U2|exact N2|exact T2]).
    split; [constructor; [|exact ND]|].
    { intros Hin. assert (RR : reaches v' m m) by (exists []; cbn; destruct (get_obj_ex _ _ (lk_valid' _ _ _ _ LKm)) as [o ->]; reflexivity). exact (Hm m Hin m RR RR). }
    split; [exact W2|]. split; [intros x o Ho; apply U2, U1, Ho|]. split; [congruence|]. split; [congruence|]. split.
    + intros k [<-|Hk].
      * split; [exact LKm|]. intros x Hx. apply (unchanged_reaches v1 v') in Hx; try apply LK1; auto.
      * destruct (LK2 k Hk) as [LKk Hn]. split; [exact (like_trans _ _ _ _ _ _ LKr LKk)|]. intros x Hx. specialize (Hn x Hx). destruct (get_obj v x) as [o|] eqn:Ho; [|reflexivity]. apply U1 in Ho. congruence.
    + intros a b [<-|Ha] [<-|Hb] Ne; [congruence|now apply Hm| |now apply SN]. intros x Hx Hy. exact (Hm a Ha x Hy Hx).
Qed.
