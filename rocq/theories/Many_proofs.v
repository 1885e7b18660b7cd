(** Many_proofs: scripts on several models. *)
From Coq Require Import Permutation Lia.
From Verif Require Import PyBase PyBaseFacts ValuesM Spec_Eq ValuesFacts FiltersM StateM Spec_State State_proofs ModuleM PureM Spec_Module Spec_Prog
  Graph_facts Dfs_proofs Build_proofs Bisim_proofs Skel_proofs RoundTrip_proofs Clone_proofs Update_proofs Write_proofs
  Laws_proofs Revalue_proofs Prog_proofs TransformM Transform_proofs Scan_proofs Mixed_proofs History_proofs Leaf_proofs Nest_proofs Spec_Functional Functional_proofs
  GradFunM Spec_GradFun GradFun_proofs JitCacheM TrainLoopM Spec_TrainLoop TrainLoop_proofs FineTuneM Spec_FineTune SkipM Spec_Skip Skip_proofs
  EnsembleM Spec_Ensemble Ensemble_proofs Spec_Shared Shared_proofs ManyM Spec_Many.
Local Open Scope string_scope.
Local Open Scope list_scope.

Lemma reach_rel v w R m : pair v w R -> R m m -> forall x y, R x y -> reaches w m y <-> reaches v m x.
Proof.
  intros P Hm x y Hxy. split; intros H.
  - destruct (bisim_reaches _ _ _ _ _ _ (bisim_sym _ _ _ (pr_bi _ _ _ P)) Hm H) as (x' & H' & Hx'). now rewrite (bi_inj _ _ _ (pr_bi _ _ _ P) x x' y Hxy Hx').
  - destruct (bisim_reaches _ _ _ _ _ _ (pr_bi _ _ _ P) Hm H) as (y' & H' & Hy'). now rewrite (bi_fun _ _ _ (pr_bi _ _ _ P) x y y' Hxy Hy').
Qed.
(** both sides change only what [m] reaches, and agree there *)
Lemma join v w R m v2 w2 : pair v w R -> R m m -> wf_world v2 -> wf_world w2 -> w_nodes v2 = w_nodes w2 -> w_trace v2 = w_trace v -> w_trace w2 = w_trace w ->
  (forall x o, get_obj v x = Some o -> ~ reaches v m x -> get_obj v2 x = Some o) -> (forall x o, get_obj w x = Some o -> ~ reaches w m x -> get_obj w2 x = Some o) ->
  (forall x y, R x y -> reaches v m x -> reaches w m y -> exists o o', get_obj v2 x = Some o /\ get_obj w2 y = Some o' /\ m_cls o = m_cls o' /\ m_init o = m_init o' /\
     (forall n, orel R (dget n (m_vars o)) (dget n (m_vars o'))) /\ m_trace o = w_trace v /\ m_trace o' = w_trace w) ->
  pair v2 w2 R.
Proof.
  intros P Hm Wv Ww Nn Tv Tw Fv Fw In. pose proof (pr_bi _ _ _ P) as B.
  assert (DEC : forall x, reaches v m x \/ ~ reaches v m x) by (intros x; apply reaches_or; [apply P|exact (proj1 (bisim_valid _ _ _ _ _ B Hm))]).
  assert (A : forall x y, R x y -> exists o o', get_obj v2 x = Some o /\ get_obj w2 y = Some o' /\ m_cls o = m_cls o' /\ m_init o = m_init o' /\
     (forall n, orel R (dget n (m_vars o)) (dget n (m_vars o'))) /\ m_trace o = w_trace v /\ m_trace o' = w_trace w).
  { intros x y Hxy. destruct (DEC x) as [H|H]; [apply In; auto; now apply (reach_rel v w R m P Hm x y Hxy)|].
    destruct (bi_obj _ _ _ B x y Hxy) as (o & o' & A1 & A2 & A3 & A4 & A5). exists o, o'. split; [now apply Fv|]. split; [apply Fw; [exact A2|]; intros G; apply H; now apply (reach_rel v w R m P Hm x y Hxy)|].
    do 3 (split; [assumption|]). split; [exact (pr_live _ _ _ P x y o Hxy A1)|exact (pr_live' _ _ _ P x y o' Hxy A2)]. }
  constructor; auto.
  - constructor; [|apply B|apply B]. intros x y Hxy. destruct (A x y Hxy) as (o & o' & A1 & A2 & A3 & A4 & A5 & _). exists o, o'. auto.
  - intros x y o Hxy Ho. destruct (A x y Hxy) as (o1 & o' & A1 & A2 & A3 & A4 & A5 & A6 & A7). rewrite Tv. congruence.
  - intros x y o Hxy Ho. destruct (A x y Hxy) as (o1 & o' & A1 & A2 & A3 & A4 & A5 & A6 & A7). rewrite Tw. congruence.
Qed.

Lemma pair_like v w R m : pair v w R -> R m m -> names_ok w m -> like w m v m.
Proof.
  intros P Hm N. pose proof (pr_bi _ _ _ P) as B. constructor; try apply P; auto.
  - exact (proj2 (bisim_valid _ _ _ _ _ B Hm)).
  - apply (same_live w v (fun x y => R y x) m); [now apply pair_sym|exact Hm].
  - exact (proj1 (bisim_valid _ _ _ _ _ B Hm)).
  - eapply same_names; eauto.
  - eapply same_live; eauto.
  - eapply bisim_module_def; [apply P|apply P|exact B|apply P|exact Hm].
  - eapply bisim_get_state; [apply P|apply P|exact B|apply P|exact Hm].
Qed.
Lemma orel_seen R (v w : world) a b : (match a with None => SNothing | Some (ARaw (PyMod y)) => look v y [] | Some c => SValue c end) = (match b with None => SNothing | Some (ARaw (PyMod y)) => look w y [] | Some c => SValue c end) ->
  (forall x, a = Some (ARaw (PyMod x)) -> exists y, b = Some (ARaw (PyMod y)) /\ R x y) -> (forall y, b = Some (ARaw (PyMod y)) -> exists x, a = Some (ARaw (PyMod x)) /\ R x y) ->
  orel R a b.
Proof.
  intros H A B. destruct a as [a|].
  - destruct a as [u|c].
    + destruct u as [| | | | |x|];
        try (destruct b as [b|]; [destruct b as [u'|c']; [destruct u' as [| | | | |y|]; try (cbn; split; [reflexivity|congruence]); destruct (B y eq_refl) as (x & E & _); discriminate|cbn; split; [reflexivity|congruence]]|discriminate]).
      destruct (A x eq_refl) as (y & -> & Hr). exact Hr.
    + destruct b as [b|]; [|discriminate]. destruct b as [u'|c']; [destruct u' as [| | | | |y|]; try discriminate; destruct (B y eq_refl) as (x & E & _); discriminate|]. cbn. split; [reflexivity|congruence].
  - destruct b as [b|]; [|exact Logic.I]. destruct b as [u'|c']; [destruct u' as [| | | | |y|]; try discriminate; destruct (B y eq_refl) as (x & E & _); discriminate|discriminate].
Qed.

Lemma train_pair v w R m v2 w2 : pair v w R -> R m m -> like w2 m v2 m -> apart v m v2 -> apart w m w2 -> pair v2 w2 R.
Proof.
  intros P Hm LK (Tv & Fv & Pv) (Tw & Fw & Pw). pose proof (pr_bi _ _ _ P) as B.
  pose proof (lk_wf _ _ _ _ LK) as W2. pose proof (lk_wf' _ _ _ _ LK) as V2.
  apply (join v w R m v2 w2 P Hm); auto; [apply LK|].
  intros x y Hxy [q Hq] _. destruct (bisim_follow _ _ _ q B _ _ _ Hm Hq) as (y' & Hq' & Hy'). assert (y' = y) by (exact (bi_fun _ _ _ B x y' y Hy' Hxy)). subst y'.
  pose proof (Pv q) as Qv. rewrite Hq in Qv. pose proof (Pw q) as Qw. rewrite Hq' in Qw.
  destruct (follow_valid _ _ _ _ Qv) as [o Ho]. destruct (follow_valid _ _ _ _ Qw) as [o' Ho']. exists o, o'. split; [exact Ho|]. split; [exact Ho'|].
  assert (A : look w2 m q = SModule (m_cls o') (m_init o')) by (apply look_module; eauto 6). rewrite <- (like_look _ _ _ _ q LK) in A.
  apply look_module in A as (z & oz & B1 & B2 & B3 & B4). rewrite Qv in B1. injection B1 as <-. rewrite Ho in B2. injection B2 as <-.
  split; [congruence|]. split; [congruence|]. split.
  2:{ split; [rewrite <- Tv; apply (lk_live' _ _ _ _ LK x o); [now exists q|exact Ho]|rewrite <- Tw; apply (lk_live _ _ _ _ LK y o'); [now exists q|exact Ho']]. }
  intros n. pose proof (like_look _ _ _ _ (q ++ [n]) LK) as L1. rewrite (look_app _ _ _ _ _ Qv), (look_app _ _ _ _ _ Qw), (look_step _ _ _ n Ho), (look_step _ _ _ n Ho') in L1.
  pose proof (Pv (q ++ [n])) as F1. rewrite !follow_app, Hq, Qv, (follow_step _ _ _ n V2 Ho) in F1. pose proof (Pw (q ++ [n])) as F2. rewrite !follow_app, Hq', Qw, (follow_step _ _ _ n W2 Ho') in F2.
  apply (orel_seen R v2 w2); [exact L1| |].
  - intros a Ea. rewrite Ea in F1. symmetry in F1. destruct (bisim_follow _ _ _ [n] B _ _ _ Hxy F1) as (b & Hb & Rb). exists b. rewrite Hb in F2.
    split; [|exact Rb]. destruct (dget n (m_vars o')) as [[[]|]|]; congruence.
  - intros b Eb. rewrite Eb in F2. symmetry in F2. destruct (bisim_follow _ _ _ [n] (bisim_sym _ _ _ B) _ _ _ Hxy F2) as (a & Ha & Ra). exists a. rewrite Ha in F1.
    split; [|exact Ra]. destruct (dget n (m_vars o)) as [[[]|]|]; congruence.
Qed.

Lemma orel_after (Q : nat -> Prop) (R1 R : nat -> nat -> Prop) a b c : (forall x z, Q x -> R1 x z -> R x z) -> orel (fun x y => x = y /\ Q x) a b -> orel R1 b c -> orel R a c.
Proof.
  intros H A B. destruct b as [b|].
  - destruct (is_submodule b) eqn:Eb.
    + destruct b as [[| | | | |y|]|]; try discriminate. destruct a as [[[| | | | |x|]|]|]; cbn in A; try contradiction; try (destruct A; discriminate). destruct A as [-> Hq].
      destruct c as [[[| | | | |z|]|]|]; cbn in B; try contradiction; try (destruct B; discriminate). cbn. now apply H.
    + apply orel_flip in A. assert (Ea : a = Some b) by (destruct b as [[]|], a as [[[]|]|]; cbn in *; try discriminate; try contradiction; destruct A; congruence). subst a.
      destruct b as [[]|], c as [[[]|]|]; cbn in *; try discriminate; try contradiction; exact B.
  - destruct a as [[[]|]|]; cbn in A; try contradiction. destruct c as [[[]|]|]; cbn in B; try contradiction. exact Logic.I.
Qed.
Lemma jit_pair (f : prog pyval) v w R m t w1 out : pair v w R -> R m m -> names_ok w m -> ok_prog f -> run f w [m] = (w1, Ok out) -> nodes_only w w1 m -> names_ok w1 m ->
  exists v4, jit_call true t (user_fun f) v m = (v4, Ok out) /\ pair v4 w1 R /\ w_trace v4 = w_trace v /\ w_trace w1 = w_trace w /\
    (forall x o, get_obj v x = Some o -> (forall y, ~ R x y) -> get_obj v4 x = Some o).
Proof.
  intros P Hm N Hf Hrun HN N1. pose proof (pr_bi _ _ _ P) as B. pose proof (pair_like v w R m P Hm N) as [W V _ L Wv Vv NNv Lv _ _ _].
  destruct (run_pair f Hf v w R [m] [m] P) as (v1 & w1' & res & R1 & E1 & E2 & M); [constructor; [exact Hm|constructor]|].
  rewrite Hrun in E2. injection E2 as <- <-. pose proof (mv_pair _ _ _ _ _ _ M) as P1. pose proof (mv_incl _ _ _ _ _ _ M) as I1.
  assert (N1' := same_names v1 w1 R1 m P1 (I1 _ _ Hm) N1). assert (HN' := same_nodes_only v w R v1 w1 R1 m P Hm P1 I1 (mv_nt _ _ _ _ _ _ M) HN).
  destruct (jit_same f v m t v1 out Hf Wv Vv NNv Lv E1 HN' N1') as (v4 & E4 & W4 & T4 & N4 & B4 & Fr4).
  exists v4. split; [exact E4|]. split; [|split; [exact T4|split; [apply M|]]].
  - destruct (run_frame f w m w1 _ Hf W V L Hrun) as (T1 & Nw1 & K1).
    apply (join v w R m v4 w1 P Hm); auto; [apply P1| |].
    { rewrite N4, Nw1. apply P. }
    intros x y Hxy Hx Hy. destruct (bi_obj _ _ _ B4 x x (conj eq_refl Hx)) as (o4 & o1 & A1 & A2 & A3 & A4 & A5).
    destruct (bi_obj _ _ _ (pr_bi _ _ _ P1) x y (I1 _ _ Hxy)) as (o1' & o' & C1 & C2 & C3 & C4 & C5). assert (o1' = o1) by congruence. subst o1'.
    exists o4, o'. split; [exact A1|]. split; [exact C2|]. split; [congruence|]. split; [congruence|]. split.
    + intros n. refine (orel_after (fun z => reaches v m z) R1 R _ _ _ _ (A5 n) (C5 n)). intros z z' [q Hq] C.
      destruct (mv_new _ _ _ _ _ _ M z z' C) as [G|[G _]]; [exact G|]. apply follow_valid in Hq as [oz Hoz]. apply get_obj_lt in Hoz. unfold valid in Hoz. lia.
    + split; [|rewrite <- T1; exact (pr_live' _ _ _ P1 x y o' (I1 _ _ Hxy) C2)].
      destruct (bi_obj _ _ _ B x y Hxy) as (ov & ow & D1 & _). destruct (jit_traces f v m t true v4 _ Hf Wv Vv NNv Lv E4 x ov D1) as (o4' & D2 & D3). assert (o4' = o4) by congruence. subst o4'.
      rewrite D3. exact (pr_live _ _ _ P x y ov Hxy D1).
  - intros x o Ho Hn. apply Fr4; [exact Ho|]. intros Hre. destruct (bisim_reaches _ _ _ _ _ _ B Hm Hre) as (y & _ & Hy). exact (Hn y Hy).
Qed.
Lemma jit_undone (f : prog pyval) v m t wd e : ok_prog f -> wf_world v -> valid v m -> names_ok v m -> live v m -> run f v [m] = (wd, Err e) ->
  exists v4, jit_call true t (user_fun f) v m = (v4, Err e) /\ undone v v4.
Proof.
  intros Hf Hw Hr Hno Hlive Hrun. destruct (partition_all v m Hw Hr) as (p & s & Hp & Es).
  destruct (inner_run f v m [] p t [s] Hf Hw Hr Hno Hlive Hp) as (m' & w1 & wd' & w2 & res & Hm & E1 & E2 & W1 & W2 & V2 & Vd & N1 & N2 & Hun & Hst).
  { rewrite Es. reflexivity. }
  change (user_fun f v m) with (run f v [m]) in E1. rewrite Hrun in E1. injection E1 as <- <-. exists (set_trace w2 (w_trace v)). split; [|unfold undone; auto using set_trace_wf].
  unfold jit_call, jitted_fn. rewrite Hp. unfold pure_merge. rewrite Es. cbn [sts_list]. rewrite Hm, E2. reflexivity.
Qed.

Theorem many_run models : forall w p wd xs, simply models w p wd xs -> forall v R, pair v w R -> (forall m, In m models -> R m m) -> w_trace v = w_trace w ->
  exists v' R', do_script models p v = (v', xs) /\ pair v' wd R' /\ (forall m, In m models -> R' m m) /\ w_trace v' = w_trace v /\
    (forall x o, get_obj v x = Some o -> (forall y, ~ R x y) -> get_obj v' x = Some o).
Proof.
  assert (DONE : forall (v : world) (R : nat -> nat -> Prop) v1 (R1 : nat -> nat -> Prop) v2, (forall x o, get_obj v x = Some o -> (forall y, ~ R x y) -> get_obj v1 x = Some o /\ forall y, ~ R1 x y) ->
    (forall x o, get_obj v1 x = Some o -> (forall y, ~ R1 x y) -> get_obj v2 x = Some o) -> forall x o, get_obj v x = Some o -> (forall y, ~ R x y) -> get_obj v2 x = Some o).
  { intros v R v1 R1 v2 H1 H2 x o Ho Hn. destruct (H1 x o Ho Hn) as [A B]. now apply H2. }
  induction 1 as [w|w p k w1 x w2 xs Hp Hrun HS IH|w m t f k w1 out w2 xs Hm N Hf Hrun HN N1 HS IH|w m t f k w1 e w2 xs Hm N Hf Hrun HS IH
    |w m t1 t2 h f k diff w1 out params w1' w2 xs Hm N J [HSt HG] Hf Hdiff Vd Hrun Hst Hfol Hpar Vp Hup HS IH|w m t1 t2 h f k w1 e w2 xs Hm N [HSt HG] Hf Hrun HS IH]; intros v R P HR T.
  - exists v, R. split; [reflexivity|]. auto.
  - destruct (run_pair p Hp v w R models models P) as (v1 & w1' & res & R1 & E1 & E2 & M).
    { clear -HR. assert (G : forall l, (forall m, In m l -> R m m) -> Forall2 R l l). { induction l as [|a l IH]; intros H; constructor; [apply H; now left|apply IH; intros m Hm; apply H; now right]. } now apply G. }
    rewrite Hrun in E2. injection E2 as <- <-. destruct (IH v1 R1) as (v' & R' & E' & P' & HR' & T' & K'); [apply M|intros m Hm; apply M; now apply HR|rewrite (mv_tr _ _ _ _ _ _ M), (mv_tr' _ _ _ _ _ _ M); exact T|].
    exists v', R'. cbn [do_script do_statement]. rewrite E1, E'. split; [reflexivity|]. split; [exact P'|]. split; [exact HR'|]. split; [rewrite T'; apply M|].
    apply (DONE v R v1 R1 v'); [|exact K']. intros z o Ho Hn. apply get_obj_lt in Ho as Hl. split; [rewrite (mv_fr _ _ _ _ _ _ M z Hl Hn); exact Ho|].
    intros y Hy. apply (mv_new _ _ _ _ _ _ M) in Hy as [Hy|[Hy _]]; [exact (Hn y Hy)|unfold valid in Hl; lia].
  - destruct (jit_pair f v w R m t w1 out P (HR m Hm) N Hf Hrun HN N1) as (v1 & E1 & P1 & T1 & Tw1 & K1).
    destruct (IH v1 R P1 HR) as (v' & R' & E' & P' & HR' & T' & K'); [congruence|].
    exists v', R'. cbn [do_script do_statement]. rewrite E1. cbn [rmap]. rewrite E'. split; [reflexivity|]. split; [exact P'|]. split; [exact HR'|]. split; [congruence|]. intros z o Ho Hn. apply K'; auto.
  - pose proof (pair_like v w R m P (HR m Hm) N) as LK. destruct (run_pair f Hf v w R [m] [m] P) as (vx & w1' & res & R1 & E1 & E2 & _); [constructor; [now apply HR|constructor]|].
    rewrite Hrun in E2. injection E2 as <- <-. destruct (jit_undone f v m t vx e Hf (lk_wf' _ _ _ _ LK) (lk_valid' _ _ _ _ LK) (lk_names' _ _ _ _ LK) (lk_live' _ _ _ _ LK) E1) as (v1 & E4 & U).
    destruct (IH v1 R (pair_undone v v1 w R P U) HR) as (v' & R' & E' & P' & HR' & T' & K'); [rewrite (proj1 (proj2 U)); exact T|].
    exists v', R'. cbn [do_script do_statement]. rewrite E4. cbn [rmap]. rewrite E'. split; [reflexivity|]. split; [exact P'|]. split; [exact HR'|]. split; [rewrite T'; apply U|]. intros z o Ho Hn. apply K'; [now apply U|exact Hn].
  - pose proof (pair_like v w R m P (HR m Hm) N) as LK.
    destruct (lifted_step_ok (rc_wrt h) (rc_grad h) (rc_sgd h) f w m diff w1 out params w1' v m t1 t2 HSt HG J Hf Hdiff Vd Hrun Hst Hpar Vp Hup LK) as (v1 & E & LK1 & B & Nw).
    pose proof (step_apart h f w m diff w1 out params w1' HSt Hf Hrun Hst Hfol Hpar Vp Hup (lk_wf _ _ _ _ LK) (lk_valid _ _ _ _ LK) N (lk_live _ _ _ _ LK)) as A.
    pose proof (train_pair v w R m v1 w1' P (HR m Hm) LK1 B A) as P1.
    destruct (IH v1 R P1 HR) as (v' & R' & E' & P' & HR' & T' & K'); [rewrite (proj1 B), (proj1 A); exact T|].
    exists v', R'. cbn [do_script do_statement]. rewrite E. cbn [rmap]. rewrite E'. split; [reflexivity|]. split; [exact P'|]. split; [exact HR'|]. split; [rewrite T'; apply B|].
    intros z o Ho Hn. apply K'; [apply (proj1 (proj2 B)); [exact Ho|]|exact Hn]. intros Hre. destruct (bisim_reaches _ _ _ _ _ _ (pr_bi _ _ _ P) (HR m Hm) Hre) as (y & _ & Hy). exact (Hn y Hy).
  - pose proof (pair_like v w R m P (HR m Hm) N) as LK.
    destruct (lifted_raises (rc_wrt h) (rc_grad h) (rc_sgd h) f w m w1 e v m t1 t2 HSt Hf Hrun LK) as (v1 & E & LK1 & U & T1).
    assert (UD : undone v v1) by (split; [exact U|split; [exact T1|split; [apply LK1|rewrite (lk_nodes _ _ _ _ LK1); symmetry; apply LK]]]).
    destruct (IH v1 R (pair_undone v v1 w R P UD) HR) as (v' & R' & E' & P' & HR' & T' & K'); [congruence|].
    exists v', R'. cbn [do_script do_statement]. rewrite E. cbn [rmap]. rewrite E'. split; [reflexivity|]. split; [exact P'|]. split; [exact HR'|]. split; [congruence|]. intros z o Ho Hn. apply K'; [now apply U|exact Hn].
Qed.
