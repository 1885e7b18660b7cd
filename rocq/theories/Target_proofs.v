(** Target_proofs: a model and a moving average of it. *)
From Coq Require Import Lia.
From Verif Require Import PyBase PyBaseFacts ValuesM Spec_Eq ValuesFacts FiltersM StateM Spec_State State_proofs ModuleM PureM Spec_Module Spec_Prog
  Graph_facts Dfs_proofs Bisim_proofs Clone_proofs RoundTrip_proofs Update_proofs Leaf_proofs Laws_proofs Prog_proofs History_proofs Scan_proofs Container_proofs ScanDeco_proofs ScanClass_proofs TransformM Transform_proofs
  Spec_Functional Functional_proofs GradFunM Spec_GradFun GradFun_proofs JitCacheM TrainLoopM Spec_TrainLoop TrainLoop_proofs Resume_proofs EarlyM Spec_Early Early_proofs TargetM Spec_Target.
Local Open Scope string_scope.
Local Open Scope list_scope.

(** equal parts: the same program does the same *)
Lemma like_bisim w r v m : like w r v m -> exists R, bisim w v R /\ R r m /\ (forall x y, R x y -> reaches w r x /\ reaches v m y).
Proof.
  intros [W V N L Wv Vv NNv Lv Nv Ed Es]. destruct (partition_ok_iff_state w r [] W V) as (d & s & Hd & Hs & Ws & _).
  assert (P1 : parts_of (mkPure (One s) d) w r) by (split; [exact Hd|exact Hs]).
  assert (P2 : parts_of (mkPure (One s) d) v m) by (split; cbn; congruence).
  destruct (parts_merge _ w r w W V N P1) as (L1 & w1 & o1 & G1 & M1 & F1). destruct (parts_merge _ v m w Wv Vv NNv P2) as (L2 & w2 & o2 & G2 & M2 & F2).
  rewrite M1 in M2. injection M2 as <-. exists (fun x z => exists y, copyR L1 (List.length (w_heap w)) x y /\ copyR L2 (List.length (w_heap w)) z y). split; [|split].
  - exact (bisim_comp _ _ _ _ _ (mg_bisim _ _ _ _ _ F1) (bisim_sym _ _ _ (mg_bisim _ _ _ _ _ F2))).
  - exists (List.length (w_heap w)). split; eapply merged_root; eauto.
  - intros x z (y & [Hx _] & [Hz _]). split; [now apply (graph_reaches _ _ _ _ W V G1)|now apply (graph_reaches _ _ _ _ Wv Vv G2)].
Qed.
Lemma run_like {A} (f : prog A) w r v m w1 res : ok_prog f -> like w r v m -> run f w [r] = (w1, res) -> names_ok w1 r ->
  exists v1, run f v [m] = (v1, res) /\ like w1 r v1 m /\ w_trace v1 = w_trace v /\ w_nodes v1 = w_nodes v /\
    (forall x o, get_obj v x = Some o -> ~ reaches v m x -> get_obj v1 x = Some o) /\
    (forall x o, get_obj v x = Some o -> reaches v1 m x -> reaches v m x) /\ List.length (w_heap v) <= List.length (w_heap v1).
Proof.
  intros Hf LK E N1. destruct (like_bisim _ _ _ _ LK) as (R & B & Rr & RR). pose proof LK as [W V N L Wv Vv NNv Lv Nv Ed Es].
  assert (P : pair w v R).
  { constructor; auto; intros x y o Hxy Ho; destruct (RR _ _ Hxy) as [Hx Hy]; [exact (L _ _ Hx Ho)|exact (Lv _ _ Hy Ho)]. }
  destruct (run_pair f Hf w v R [r] [m] P) as (w1' & v1 & res' & R2 & E1 & E2 & M); [repeat constructor; exact Rr|].
  rewrite E in E1. injection E1 as <- <-. exists v1. split; [exact E2|].
  pose proof (mv_pair _ _ _ _ _ _ M) as P2. pose proof (mv_incl _ _ _ _ _ _ M _ _ Rr) as Rr2. destruct (bisim_valid _ _ _ _ _ (pr_bi _ _ _ P2) Rr2) as [V1 V2].
  assert (NN : w_nodes v1 = w_nodes v). { rewrite <- (pr_nodes _ _ _ P2), (mv_nt _ _ _ _ _ _ M). now symmetry. }
  split; [|split; [apply M|split; [exact NN|split; [|split; [|apply M]]]]].
  - constructor; auto; try apply P2.
    + intros x o Hx Ho. destruct (bisim_reaches _ _ _ _ _ _ (pr_bi _ _ _ P2) Rr2 Hx) as (y & _ & Hy). exact (pr_live _ _ _ P2 _ _ _ Hy Ho).
    + eapply bisim_names; [apply P2|apply P2|exact Rr2|exact N1].
    + intros x o Hx Ho. destruct (bisim_reaches _ _ _ _ _ _ (bisim_sym _ _ _ (pr_bi _ _ _ P2)) Rr2 Hx) as (y & _ & Hy). exact (pr_live' _ _ _ P2 _ _ _ Hy Ho).
    + symmetry. apply P2.
    + symmetry. eapply bisim_module_def; try apply P2. exact Rr2.
    + symmetry. eapply bisim_get_state; try apply P2. exact Rr2.
  - intros x o Ho Hx. rewrite (mv_fr' _ _ _ _ _ _ M x); [exact Ho|eapply get_obj_lt; eauto|]. intros y Hy. apply Hx. exact (proj2 (RR _ _ Hy)).
  - intros x o Ho Hx. destruct (bisim_reaches _ _ _ _ _ _ (bisim_sym _ _ _ (pr_bi _ _ _ P2)) Rr2 Hx) as (y & _ & Hy).
    destruct (mv_new _ _ _ _ _ _ M _ _ Hy) as [Q|[_ Q]]; [exact (proj2 (RR _ _ Q))|]. apply get_obj_lt in Ho. unfold valid in Ho. lia.
Qed.

(** a Module whose objects are untouched *)
Lemma beside v v1 t : wf_world v -> wf_world v1 -> valid v t -> names_ok v t -> live v t -> w_nodes v1 = w_nodes v -> w_trace v1 = w_trace v ->
  (forall x o, reaches v t x -> get_obj v x = Some o -> get_obj v1 x = Some o) ->
  valid v1 t /\ names_ok v1 t /\ live v1 t /\ get_state v1 t = get_state v t /\ get_module_def v1 t = get_module_def v t /\ (forall x, reaches v1 t x <-> reaches v t x).
Proof.
  intros W W1 V N L Nn T U. pose proof (same_bisim v v1 t W V U) as B. destruct (get_obj_ex _ _ V) as [o Ho].
  assert (R0 : t = t /\ reaches v t t) by (split; [reflexivity|eapply reaches_refl; eauto]).
  assert (RR : forall x, reaches v1 t x <-> reaches v t x).
  { intros x. split; intros Hx.
    - destruct (bisim_reaches _ _ _ _ _ _ (bisim_sym _ _ _ B) R0 Hx) as (y & _ & [-> Hy]). exact Hy.
    - destruct (bisim_reaches _ _ _ _ _ _ B R0 Hx) as (y & Hy & [<- _]). exact Hy. }
  split; [eapply get_obj_lt; apply U; [apply R0|exact Ho]|]. split; [exact (bisim_names v v1 _ t t B (eq_sym Nn) R0 N)|]. split.
  { intros x ob Hx Hob. apply RR in Hx. destruct (reaches_valid _ _ _ Hx) as [o2 Ho2]. pose proof (U _ _ Hx Ho2) as Q. rewrite Hob in Q. injection Q as ->. rewrite T. eapply L; eauto. }
  split; [symmetry; exact (bisim_get_state v v1 _ t t W W1 B (eq_sym Nn) R0)|]. split; [symmetry; exact (bisim_module_def v v1 _ t t W W1 B (eq_sym Nn) R0)|exact RR].
Qed.

(** mixing two States *)
Lemma tree_map2_ok mix a u : shaped a u -> (forall k x, In (k, x) a -> plain_attr x) ->
  exists n, tree_map2 mix a u = Ok n /\ keys n = keys a /\
    forall k x, dget k a = Some x -> exists y, dget k u = Some y /\ same_shape x y /\ dget k n = Some (with_value x (mix (value x) (value y))).
Proof.
  induction 1 as [|[k x] [k' y] a u [E S] F IH]; intros P; [exists []; repeat split; discriminate|]. cbn [fst snd] in E, S. subst k'.
  destruct IH as (n & E1 & E2 & E3); [intros j z H; apply (P j); now right|]. cbn [tree_map2]. rewrite String.eqb_refl.
  assert (KE : attr_key_eqb (fun _ _ => true) x y = true).
  { destruct (P k x (or_introl eq_refl)) as [P1 _]. destruct x as [v|c], y as [v'|c']; try destruct S; [reflexivity|]. unfold attr_key_eqb. rewrite H, H0, cls_eqb_refl, dict_eqb_refl; [reflexivity|apply P1]. }
  rewrite KE, E1. cbn [andb rbind]. eexists. split; [reflexivity|]. split; [unfold keys in *; cbn; now rewrite E2|].
  intros j z. cbn [dget]. destruct (String.eqb j k); [|apply E3]. intros [= <-]. exists y. split; [reflexivity|]. split; [exact S|reflexivity].
Qed.
Lemma tree_map2_keys mix a u n : tree_map2 mix a u = Ok n -> keys u = keys a /\ keys n = keys a.
Proof.
  revert u n. induction a as [|[k x] a IH]; intros [|[k' y] u] n; cbn [tree_map2]; try discriminate; [intros [= <-]; auto|].
  destruct (String.eqb_spec k k') as [->|]; cbn [andb]; [|discriminate]. destruct attr_key_eqb; [|discriminate].
  destruct (tree_map2 mix a u) as [t|] eqn:E; cbn [rbind]; [|discriminate]. intros [= <-]. destruct (IH _ _ E) as [A B]. unfold keys in *. cbn. split; congruence.
Qed.
Lemma tree_map2_err mix a u e : tree_map2 mix a u = Err e -> e = ValueError.
Proof.
  revert u. induction a as [|[k x] a IH]; intros [|[k' y] u]; cbn [tree_map2]; try discriminate; try congruence.
  destruct (_ && _); [|congruence]. destruct (tree_map2 mix a u) eqn:E; cbn [rbind]; [discriminate|]. intros [= <-]. eauto.
Qed.
Lemma tree_map2_cls mix a u n : tree_map2 mix a u = Ok n -> forall k c d, dget k a = Some (ACont c) -> dget k u = Some (ACont d) -> cls_eqb (c_cls c) (c_cls d) = true.
Proof.
  revert u n. induction a as [|[k x] a IH]; intros [|[k' y] u] n; cbn [tree_map2]; try discriminate.
  destruct (String.eqb_spec k k') as [->|]; cbn [andb]; [|discriminate]. destruct attr_key_eqb eqn:K; [|discriminate].
  destruct (tree_map2 mix a u) as [t|] eqn:E; cbn [rbind]; [|discriminate]. intros _ j c d. cbn [dget]. destruct (String.eqb j k'); [|eauto].
  intros [= ->] [= ->]. unfold attr_key_eqb in K. apply andb_prop in K as [K _]. now apply andb_prop in K as [K _].
Qed.

(** the invariant *)
Record follows (w : world) (r : nat) (v : world) (t : nat) (a : state) : Prop := {
  fo_like : like w r v r;
  fo_valid : valid v t; fo_names : names_ok v t; fo_live : live v t;
  fo_def : get_module_def v t = get_module_def w r; fo_state : get_state v t = Ok a;
  fo_shape : forall s, get_state w r = Ok s -> shaped a s;
  fo_apart : separate v r t
}.
Definition spares (v : world) (r t : nat) (v' : world) : Prop :=
  w_trace v' = w_trace v /\ w_nodes v' = w_nodes v /\ (forall x o, get_obj v x = Some o -> ~ reaches v r x -> ~ reaches v t x -> get_obj v' x = Some o) /\
  (forall x o, get_obj v x = Some o -> reaches v' r x -> reaches v r x) /\ (forall x, reaches v' t x <-> reaches v t x).
Lemma spares_refl v r t : spares v r t v.
Proof. repeat split; auto. Qed.
Lemma spares_trans v1 v2 v3 r t : spares v1 r t v2 -> spares v2 r t v3 -> (forall x o, get_obj v1 x = Some o -> exists o', get_obj v2 x = Some o') -> spares v1 r t v3.
Proof.
  intros (A1 & A2 & A3 & A4 & A5) (B1 & B2 & B3 & B4 & B5) K. split; [congruence|]. split; [congruence|]. split; [|split].
  - intros x o Ho Hr Ht. apply B3; [now apply A3|intros H; apply Hr; eapply A4; eauto|intros H; apply Ht; now apply A5].
  - intros x o Ho H. destruct (K x o Ho) as [o' Ho']. eapply A4; [exact Ho|]. eapply B4; eauto.
  - intros x. now rewrite B5, A5.
Qed.

(** an epoch *)
Lemma epoch_follows {A} (f : prog A) w r v t a w1 res : ok_prog f -> follows w r v t a -> run f w [r] = (w1, res) -> steady w w1 r ->
  exists v1, run f v [r] = (v1, res) /\ follows w1 r v1 t a /\ spares v r t v1 /\ (forall x o, get_obj v x = Some o -> exists o', get_obj v1 x = Some o').
Proof.
  intros Hf [LK V N L D G Sh Ap] E (S1 & S2 & S3). destruct (run_like f w r v r w1 res Hf LK E S1) as (v1 & E1 & LK1 & T & Nn & U & Rc & Le).
  assert (Ut : forall x o, reaches v t x -> get_obj v x = Some o -> get_obj v1 x = Some o). { intros x o Hx Ho. apply U; [exact Ho|]. intros H. exact (Ap x H Hx). }
  destruct (beside v v1 t (lk_wf' _ _ _ _ LK) (lk_wf' _ _ _ _ LK1) V N L Nn T Ut) as (B1 & B2 & B3 & B4 & B5 & B6).
  exists v1. split; [exact E1|]. split; [|split].
  - constructor; auto; [congruence|congruence| |].
    + intros s1 Gs1. destruct (get_state_total w r (lk_wf _ _ _ _ LK) (lk_valid _ _ _ _ LK)) as (s & Gs & _). eapply TrainLoop_proofs.alike_trans; [exact (Sh s Gs)|exact (S3 s s1 Gs Gs1)].
    + intros x Hr Ht. apply B6 in Ht. destruct (reaches_valid _ _ _ Ht) as [o Ho]. eapply Ap; [eapply Rc; eauto|exact Ht].
  - split; [exact T|]. split; [exact Nn|]. split; [intros x o Ho Hr _; now apply U|]. split; [exact Rc|exact B6].
  - intros x o Ho. apply get_obj_ex. apply get_obj_lt in Ho. unfold valid in *. lia.
Qed.
(** the update of the average *)
Lemma mixed_shape a v : same_shape a (with_value a v).
Proof. destruct a; cbn; auto. Qed.
Lemma soft_follows mix w r v t a : gives_nodes w mix -> follows w r v t a ->
  exists v2 n, soft_update mix v r t = (v2, Ok tt) /\ follows w r v2 t n /\ keys n = keys a /\
    (forall k x, dget k a = Some x -> exists s y, get_state w r = Ok s /\ dget k s = Some y /\ dget k n = Some (with_value x (mix (value x) (value y)))) /\
    spares v r t v2 /\ (forall x o, get_obj v x = Some o -> exists o', get_obj v2 x = Some o').
Proof.
  intros GN [LK V N L D G Sh Ap]. pose proof LK as [W Vr Nr Lr Wv Vvr Nvr Lvr Nn Ed Es].
  destruct (get_state_total w r W Vr) as (s & Gs & Ws). pose proof (Sh s Gs) as Shs.
  assert (Wa : wf_state a) by (destruct (get_state_total v t Wv V) as (a' & E & H); congruence).
  destruct (tree_map2_ok mix a s Shs) as (n & E1 & E2 & E3); [intros k x H; exact (get_state_plain v t a Wv G k x H)|].
  assert (F : fits v a n).
  { split; [rewrite E2; now apply wf_NoDup|]. intros k b Hb. assert (K : In k (keys a)) by (rewrite <- E2; apply dget_In in Hb; now apply (in_map fst) in Hb).
    destruct (dget k a) as [x|] eqn:Ex; [|now apply dget_None in Ex]. destruct (E3 k x Ex) as (y & Ey & Sxy & Eb). rewrite Hb in Eb. injection Eb as ->.
    exists x. split; [reflexivity|]. split; [apply mixed_shape|]. pose proof (get_state_plain v t a Wv G k x (dget_In _ _ _ Ex)) as [P1 P2]. pose proof (get_state_nodes v t a k x Wv G Ex) as Q.
    destruct x as [x|c]; [|split; [split; [exact P1|reflexivity]|exact Q]]. destruct y as [y|c]; [|destruct Sxy]. cbn [with_value value].
    pose proof (get_state_plain w r s W Gs k _ (dget_In _ _ _ Ey)) as [_ P3]. pose proof (get_state_nodes w r s k _ W Gs Ey) as Q3. unfold node_value in *. rewrite Nn in *.
    destruct (GN x y Q Q3 P2 P3) as [R1 R2]. split; [split; [exact Logic.I|exact R2]|exact R1]. }
  destruct (adopt v t a n Wv V N L G F) as (v2 & U & A1 & A2 & A3 & A4 & A5 & A6 & A7 & A8 & A9 & A10).
  rewrite over_same in A5 by (try apply wf_NoDup; auto).
  assert (RT : forall x, reaches v2 t x <-> reaches v t x) by (intros x; unfold reaches; split; intros [q Hq]; exists q; [rewrite <- A10|rewrite A10]; exact Hq).
  assert (Ur : forall x o, reaches v r x -> get_obj v x = Some o -> get_obj v2 x = Some o). { intros x o Hx Ho. apply A9; [exact Ho|]. intros H. exact (Ap x Hx H). }
  destruct (beside v v2 r Wv A1 Vvr Nvr Lvr A8 A7 Ur) as (B1 & B2 & B3 & B4 & B5 & B6).
  exists v2, n. split. { unfold soft_update. rewrite G, Es, Gs. cbn [rbind]. rewrite E1. exact U. }
  split; [|split; [exact E2|split; [|split]]].
  - constructor; auto; [constructor; auto; congruence|congruence| |].
    + intros s' E'. assert (s' = s) by congruence. subst s'. apply TrainLoop_proofs.alike_trans with (b := a); [|exact Shs].
      apply shaped_sym. apply alike_of; [now apply wf_NoDup|exact E2|]. intros k x y Hx Hy. destruct (E3 k x Hx) as (z & _ & _ & Q). rewrite Hy in Q. injection Q as ->. apply mixed_shape.
    + intros x Hr Ht. apply B6 in Hr. apply RT in Ht. exact (Ap x Hr Ht).
  - intros k x Hx. destruct (E3 k x Hx) as (y & Hy & _ & Hn). eauto.
  - split; [exact A7|]. split; [exact A8|]. split; [intros x o Ho _ Ht; now apply A9|]. split; [intros x o _ Hx; now apply B6|exact RT].
  - intros x o Ho. destruct (graph_exists v t Wv V) as (d & Ls & Hg). destruct (in_dec Nat.eq_dec x Ls) as [I|I].
    + apply (graph_reaches v t d Ls Wv V Hg) in I. apply RT in I. exact (reaches_valid _ _ _ I).
    + exists o. apply A9; [exact Ho|]. intros H. apply I. now apply (graph_reaches v t d Ls Wv V Hg).
Qed.

Lemma nodes_given w w1 mix : w_nodes w1 = w_nodes w -> gives_nodes w mix -> gives_nodes w1 mix.
Proof. intros E H x y. unfold gives_nodes, node_value in *. rewrite E. apply H. Qed.
(** the loop *)
Lemma track_ok mix r w l log wz res : history steady r w l log wz res -> forall v t a, gives_nodes w mix -> follows w r v t a ->
  exists v' a', track mix l v r t = (v', res) /\ follows wz r v' t a' /\ keys a' = keys a /\ get_module_def wz r = get_module_def w r /\ w_nodes wz = w_nodes w /\
    (forall k x, dget k a = Some x -> exists ys, Forall2 (fun (e : pyval * world) b => exists sx, get_state (snd e) r = Ok sx /\ dget k sx = Some b) log ys /\ dget k a' = Some (mean mix x ys)) /\
    spares v r t v'.
Proof.
  induction 1 as [w|w f l w1 e Hf E St|w f l w1 score log w' res Hf E St H IH]; intros v t a GN FO; cbn [track].
  - exists v, a. split; [reflexivity|]. split; [exact FO|]. split; [reflexivity|]. split; [reflexivity|]. split; [reflexivity|]. split; [|apply spares_refl].
    intros k x Hx. exists []. split; [constructor|exact Hx].
  - destruct (epoch_follows f w r v t a w1 _ Hf FO E St) as (v1 & E1 & FO1 & Sp & _). rewrite E1. exists v1, a. split; [reflexivity|]. split; [exact FO1|]. split; [reflexivity|].
    split; [apply St|]. split.
    { rewrite <- (lk_nodes _ _ _ _ (fo_like _ _ _ _ _ FO1)), <- (lk_nodes _ _ _ _ (fo_like _ _ _ _ _ FO)). apply Sp. }
    split; [|exact Sp]. intros k x Hx. exists []. split; [constructor|exact Hx].
  - destruct (epoch_follows f w r v t a w1 _ Hf FO E St) as (v1 & E1 & FO1 & Sp & K1). rewrite E1.
    assert (Nn : w_nodes w1 = w_nodes w). { rewrite <- (lk_nodes _ _ _ _ (fo_like _ _ _ _ _ FO1)), <- (lk_nodes _ _ _ _ (fo_like _ _ _ _ _ FO)). apply Sp. }
    destruct (soft_follows mix w1 r v1 t a (nodes_given _ _ _ Nn GN) FO1) as (v2 & n & E2 & FO2 & Kn & Hn & Sp2 & K2). rewrite E2.
    destruct (IH v2 t n (nodes_given _ _ _ Nn GN) FO2) as (v' & a' & E3 & FO3 & Ka & D3 & N3 & Ha & Sp3).
    exists v', a'. split; [exact E3|]. split; [exact FO3|]. split; [congruence|]. split; [rewrite D3; apply St|]. split; [congruence|]. split.
    + intros k x Hx. destruct (Hn k x Hx) as (s & y & Gs & Hy & Hny). destruct (Ha k _ Hny) as (ys & F & Q). exists (y :: ys). split; [|exact Q].
      constructor; [cbn [snd]; eauto|exact F].
    + eapply spares_trans; [eapply spares_trans; [exact Sp|exact Sp2|exact K1]|exact Sp3|]. intros x o Ho. destruct (K1 x o Ho) as [o1 Ho1]. eauto.
Qed.

Lemma clone_follows w r : wf_world w -> valid w r -> names_ok w r -> live w r ->
  exists t v s, clone w r = Ok (t, v) /\ get_state w r = Ok s /\ follows w r v t s /\ all_unchanged w v /\ w_trace v = w_trace w /\ (forall x, reaches v t x -> get_obj w x = None).
Proof.
  intros W V N L. destruct (get_state_total w r W V) as (s & Gs & _). destruct (get_module_def_total w r W V) as (d & Gd).
  destruct (parts_like (mkPure (One s) d) w r w (w_trace w) W V N L) as (v & M & LK & U & T & Nn & F); auto; [split; [exact Gd|exact Gs]|].
  assert (ST : set_trace w (w_trace w) = w) by (destruct w; reflexivity). rewrite ST in M.
  exists (List.length (w_heap w)), v, s. split. { unfold clone, module_partition. rewrite Gd, Gs. exact M. }
  split; [exact Gs|]. split; [|auto].
  pose proof (unchanged_like w r w r v (like_refl w r W V N L) (lk_wf' _ _ _ _ LK) U Nn T) as LR.
  constructor; try apply LK; auto.
  - rewrite (lk_state _ _ _ _ LK). exact Gs.
  - intros s' E. assert (s' = s) by congruence. subst s'. apply shaped_refl.
  - intros x Hr Ht. apply F in Ht. apply (unchanged_reaches w v r x W U V) in Hr. destruct (reaches_valid _ _ _ Hr) as [o Ho]. congruence.
Qed.

Lemma like_reads w r v m : like w r v m -> reads_like w r v m.
Proof. intros L. split; [intros q; now apply like_look|]. split; [intros q q'; now apply like_alias|]. split; apply L. Qed.

Lemma target_ok mix w r l log wz res : wf_world w -> valid w r -> names_ok w r -> live w r -> gives_nodes w mix -> history steady r w l log wz res ->
  exists t w0 w' avg wl, clone w r = Ok (t, w0) /\ track mix l w0 r t = (w', res) /\
    reads_like wz r w' r /\ separate w' r t /\
    averaged mix w r log avg /\ update_state w r (UStates (One avg)) = (wl, Ok tt) /\ get_state wl r = Ok avg /\ like wl r w' t /\ get_module_def wl r = get_module_def w r /\ w_nodes wl = w_nodes w /\
    (forall x o, get_obj w x = Some o -> ~ reaches w r x -> get_obj w' x = Some o) /\ w_trace w' = w_trace w.
Proof.
  intros W V N L GN H. destruct (clone_follows w r W V N L) as (t & v & s & C & Gs & FO & U & T & Nw).
  destruct (track_ok mix r w l log wz res H v t s GN FO) as (v' & a' & E & FO' & K & D & Nz & Hm & Sp).
  assert (Ws : wf_state s) by (destruct (get_state_total w r W V) as (x & Ex & Hx); congruence).
  pose proof (fo_like _ _ _ _ _ FO') as LK'.
  assert (Sh : shaped s a').
  { apply alike_of; [now apply wf_NoDup|exact K|]. intros k x y Hx Hy. destruct (Hm k x Hx) as (ys & _ & Q). rewrite Hy in Q. injection Q as ->.
    clear. revert x. induction ys as [|y ys IH]; intros x; cbn; [apply same_shape_refl|]. specialize (IH (with_value x (mix (value x) (value y)))). unfold mean in IH. destruct x; cbn in *; exact IH. }
  assert (LT : like w r w r) by now apply like_refl.
  destruct (load v' t w r a' s) as (wl & E2 & LK2 & _); auto.
  { constructor; try apply FO'; try apply LK'; auto. }
  { rewrite (lk_nodes _ _ _ _ LK'). now symmetry. }
  { rewrite (fo_def _ _ _ _ _ FO'). now symmetry. }
  { apply FO'. }
  exists t, v, v', a', wl. split; [exact C|]. split; [exact E|]. split; [now apply like_reads|]. split; [apply FO'|]. split; [exists s; auto|]. split; [exact E2|].
  split; [rewrite (lk_state _ _ _ _ LK2); apply FO'|]. split.
  { pose proof LK2 as [? ? ? ? ? ? ? ? Q1 Q2 Q3]. constructor; auto; congruence. }
  split; [rewrite (lk_def _ _ _ _ LK2), (fo_def _ _ _ _ _ FO'); exact D|]. split; [rewrite (lk_nodes _ _ _ _ LK2), (lk_nodes _ _ _ _ LK'); exact Nz|].
  destruct Sp as (T' & _ & F & _). split; [|congruence].
  intros x o Ho Hx. apply F; [now apply U|intros R; apply Hx; now apply (unchanged_reaches w v r x W U V)|intros R; apply Nw in R; congruence].
Qed.

(** copying the values *)
Lemma mean_last a l b : same_shape a b -> Forall (fun y => same_shape a y) l -> mean (fun _ y => y) a (l ++ [b]) = b.
Proof.
  intros S F. unfold mean. rewrite fold_left_app. cbn. set (acc := fold_left _ l a).
  assert (Q : same_shape acc b). { unfold acc. clear acc. revert a S F. induction l as [|y l IH]; intros a S F; cbn; [exact S|]. inversion F; subst. apply IH; [destruct a, b; cbn in *; auto|]. eapply Forall_impl; [|exact H2]. intros z Hz. destruct a, z; cbn in *; auto. }
  destruct acc as [x|c], b as [y|d]; cbn in *; try tauto. destruct Q as [Q1 Q2]. destruct d; cbn in *. now subst.
Qed.

Lemma Forall2_in_r {A B} (R : A -> B -> Prop) l m : Forall2 R l m -> forall y, In y m -> exists x, In x l /\ R x y.
Proof. induction 1 as [|a b l m H F IH]; intros y Hy; [destruct Hy|]. destruct Hy as [<-|Hy]; [exists a; split; [now left|exact H]|]. destruct (IH y Hy) as (x & Hx & Q). exists x. split; [now right|exact Q]. Qed.
Lemma Forall2_last {A B} (R : A -> B -> Prop) l x m : Forall2 R (l ++ [x]) m -> exists m' y, m = m' ++ [y] /\ Forall2 R l m' /\ R x y.
Proof.
  intros H. apply Forall2_app_inv_l in H as (m' & m2 & H1 & H2 & ->). inversion H2 as [|? y ? ? H3 H4]; subst. inversion H4; subst. eauto.
Qed.
Lemma copied_ok w r l log score wb wz res : wf_world w -> valid w r -> names_ok w r -> live w r -> history steady r w l (log ++ [(score, wb)]) wz res ->
  exists t w0 w', clone w r = Ok (t, w0) /\ track (fun _ y => y) l w0 r t = (w', res) /\ reads_like wz r w' r /\ reads_like wb r w' t /\ separate w' r t.
Proof.
  intros W V N L H. destruct (history_ok _ _ _ _ _ _ H W V N L) as (Wz & Vz & Lz & Nz & (Sz1 & Sz2 & Sz3) & F).
  destruct (target_ok (fun _ y => y) w r l (log ++ [(score, wb)]) wz res W V N L) as (t & w0 & w' & avg & wl & C & E & R & Sp & (s & Gs & K & Av) & Up & Gl & LK & Dl & Nl & _); [intros x y _ Q _ P; auto|exact H|].
  exists t, w0, w'. split; [exact C|]. split; [exact E|]. split; [exact R|]. split; [|exact Sp].
  rewrite Forall_forall in F. destruct (F (score, wb)) as (Lb & Nb & (Sb1 & Sb2 & Sb3)); [apply in_or_app; right; now left|]. cbn [snd] in *.
  assert (Ws : wf_state s) by (destruct (get_state_total w r W V) as (x & Ex & Hx); congruence).
  destruct (get_state_total wz r Wz Vz) as (sz & Gz & _). destruct (get_state_total wb r (lk_wf _ _ _ _ Lb) (lk_valid _ _ _ _ Lb)) as (sb & Gb & Wb).
  assert (Shb : shaped s sb) by (eapply TrainLoop_proofs.alike_trans; [exact (Sz3 _ _ Gs Gz)|exact (shaped_sym _ _ (Sb3 _ _ Gb Gz))]).
  assert (EA : avg = sb).
  { apply dict_ext; [rewrite K; now apply wf_NoDup|rewrite K; symmetry; now apply TrainLoop_proofs.alike_keys|]. intros k. destruct (dget k s) as [a|] eqn:Ea.
    - destruct (Av k a Ea) as (ys & FF & ->). apply Forall2_last in FF as (ys' & b & -> & F1 & (sb' & Gb' & Hb)). cbn [snd] in Gb'. assert (sb' = sb) by congruence. subst sb'.
      rewrite Hb. f_equal. apply mean_last.
      + destruct (TrainLoop_proofs.alike_get _ _ Shb k a Ea) as (b' & Hb' & Q). congruence.
      + apply Forall_forall. intros y Hy. destruct (Forall2_in_r _ _ _ F1 y Hy) as (e & He & (se & Ge & Hse)). destruct (F e) as (_ & _ & (_ & _ & Se)); [apply in_or_app; now left|].
        assert (She : shaped s se) by (eapply TrainLoop_proofs.alike_trans; [exact (Sz3 _ _ Gs Gz)|exact (shaped_sym _ _ (Se _ _ Ge Gz))]).
        destruct (TrainLoop_proofs.alike_get _ _ She k a Ea) as (b' & Hb' & Q). congruence.
    - assert (Q : ~ In k (keys s)) by now apply dget_None. transitivity (@None attr); [apply dget_None; now rewrite K|symmetry; apply dget_None; now rewrite (TrainLoop_proofs.alike_keys _ _ Shb)]. }
  subst avg. apply like_reads. pose proof LK as [? ? ? ? ? ? ? ? Q1 Q2 Q3]. constructor; auto; try apply Lb; try congruence.
Qed.
