(** Resume_proofs: training that is interrupted. *)
From Coq Require Import Lia.
From Verif Require Import PyBase PyBaseFacts ValuesM Spec_Eq ValuesFacts FiltersM StateM Spec_State State_proofs ModuleM PureM Spec_Module Spec_Prog
  Graph_facts Dfs_proofs Bisim_proofs Clone_proofs Update_proofs Leaf_proofs History_proofs Scan_proofs Container_proofs ScanDeco_proofs TransformM Transform_proofs Spec_Functional Functional_proofs
  GradFunM Spec_GradFun GradFun_proofs JitCacheM TrainLoopM Spec_TrainLoop TrainLoop_proofs Spec_Checkpoint Checkpoint_proofs ResumeM Spec_Resume.
Local Open Scope string_scope.
Local Open Scope list_scope.

Notation shaped := (Forall2 (fun x y : string * attr => fst x = fst y /\ same_shape (snd x) (snd y))).
Lemma same_shape_sym a b : same_shape a b -> same_shape b a.
Proof. destruct a, b; cbn; try tauto. intros [H1 H2]. split; congruence. Qed.
Lemma same_shape_refl a : same_shape a a.
Proof. destruct a; cbn; auto. Qed.
Lemma shaped_sym s u : shaped s u -> shaped u s.
Proof. induction 1 as [|x y l k [H1 H2] _ IH]; constructor; auto. split; [congruence|now apply same_shape_sym]. Qed.
Lemma shaped_refl s : shaped s s.
Proof. induction s; constructor; auto. split; auto using same_shape_refl. Qed.
Lemma alike_shaped nt s u : alike_dict nt s u -> shaped s u.
Proof.
  induction 1 as [|x y l k [H1 H2] _ IH]; constructor; auto. split; [exact H1|]. destruct H2; cbn; auto.
Qed.

(** what training keeps *)
Lemma trained_keeps D sgd wrt r : structural wrt -> differentiates D -> forall l w w', In "jax.Array" (w_nodes w) -> trained D sgd wrt anything r w l w' -> like w r w r ->
  like w' r w' r /\ get_module_def w' r = get_module_def w r /\ w_nodes w' = w_nodes w /\
  forall s s', get_state w r = Ok s -> get_state w' r = Ok s' -> shaped s s'.
Proof.
  intros HS HD l w w' J T. induction T as [w|w f diff w1 out params w2 l w3 Hf Hdiff Vd Hrun Hst _ Hpar Vp Hup T IH]; intros LK.
  - split; [exact LK|]. split; [reflexivity|]. split; [reflexivity|]. intros s s' E E'. rewrite E in E'. injection E' as <-. apply shaped_refl.
  - destruct (step_like wrt D sgd f w r diff w1 out params w2 w r (w_trace w) HS HD J Hf Hdiff Vd Hrun Hst Hpar Vp Hup LK) as (v' & _ & LK2 & _ & Nw & (_ & Sd & Ss) & _).
    pose proof LK2 as [W2 V2 N2 L2 _ _ _ _ _ _ _].
    destruct IH as (LK3 & D3 & N3 & S3); [now rewrite Nw|now apply like_refl|]. split; [exact LK3|]. split; [congruence|]. split; [congruence|].
    intros s s' E E'. destruct (get_state_total w2 r W2 V2) as (s2 & E2 & _). eapply TrainLoop_proofs.alike_trans; [exact (Ss s s2 E E2)|exact (S3 s2 s' E2 E')].
Qed.
Lemma trained_split D sgd wrt Q r : forall a b w w', trained D sgd wrt Q r w (a ++ b) w' -> exists wm, trained D sgd wrt Q r w a wm /\ trained D sgd wrt Q r wm b w'.
Proof.
  induction a as [|f a IH]; intros b w w' T; cbn [app] in T.
  - exists w. split; [constructor|exact T].
  - inversion T as [|? ? diff w1 out params w2 ? ? H1 H2 H3 H4 H5 H6 H7 H8 H9 H10]; subst. destruct (IH b w2 w' H10) as (wm & T1 & T2). exists wm. split; [|exact T2]. econstructor; eauto.
Qed.

(** loading *)
Lemma load w r v m s sv : like w r w r -> wf_world v -> valid v m -> names_ok v m -> live v m -> w_nodes v = w_nodes w ->
  get_module_def v m = get_module_def w r -> get_state w r = Ok s -> get_state v m = Ok sv -> shaped sv s ->
  exists v1, update_state v m (UStates (One s)) = (v1, Ok tt) /\ like w r v1 m /\ apart v m v1.
Proof.
  intros [W V N L _ _ _ _ _ _ _] Wv Vv Nv Lv Nt Ed Gs Gv Sh.
  assert (Ws : wf_state s) by (destruct (get_state_total w r W V) as (x & E & H); congruence).
  assert (Wsv : wf_state sv) by (destruct (get_state_total v m Wv Vv) as (x & E & H); congruence).
  assert (F : fits v sv s).
  { split; [now apply wf_NoDup|]. intros k b Hb. destruct (TrainLoop_proofs.alike_back _ _ Sh k b Hb) as (a & Ha & S). exists a. split; [exact Ha|]. split; [exact S|].
    split; [apply (get_state_plain w r s W Gs k); now apply dget_In|]. destruct (get_state_nodes w r s k b W Gs Hb) as (ty & Q1 & Q2). exists ty. split; [now rewrite Nt|exact Q2]. }
  destruct (adopt v m sv s Wv Vv Nv Lv Gv F) as (v1 & E & A1 & A2 & A3 & A4 & A5 & A6 & A7 & A8 & A9 & A10).
  rewrite over_same in A5 by (try apply wf_NoDup; auto; eapply TrainLoop_proofs.alike_keys; eauto).
  exists v1. split; [exact E|]. split; [constructor; auto; congruence|]. split; [exact A7|]. auto.
Qed.

(** a model made in another process *)
Lemma again w0 c p w1 r v m : wf_world w0 -> In "Module" c -> ok_prog p -> construct w0 c p = (w1, r, Ok tt) -> made_again (w_nodes w0) c p v m ->
  exists s sv, get_state w1 r = Ok s /\ get_state v m = Ok sv /\ shaped sv s /\ get_module_def v m = get_module_def w1 r /\
    wf_world v /\ valid v m /\ names_ok v m /\ live v m /\ w_nodes v = w_nodes w1.
Proof.
  intros W Hc Hp C (w0' & p' & W' & N & Hp' & HS & C' & Nm).
  destruct (two_constructions w0 w0' c p p' W W' (eq_sym N) Hc Hp Hp' HS) as (u1 & u1' & x & x' & d & s & s' & E & E' & _ & _ & A1 & _ & A2 & _ & A3 & A4 & A5 & D & D' & S & S' & A).
  rewrite E in C. injection C as <- <- _. rewrite E' in C'. injection C' as <- <- _. exists s, s'.
  split; [exact S|]. split; [exact S'|]. split; [apply shaped_sym; eapply alike_shaped; exact A|]. split; [congruence|]. do 4 (split; [assumption|]). congruence.
Qed.
Lemma first_like w0 c p w1 r : wf_world w0 -> In "Module" c -> ok_prog p -> same_steps (w_nodes w0) p p -> construct w0 c p = (w1, r, Ok tt) -> names_ok w1 r ->
  like w1 r w1 r /\ w_nodes w1 = w_nodes w0.
Proof.
  intros W Hc Hp HS C Nm. destruct (two_constructions w0 w0 c p p W W eq_refl Hc Hp Hp HS) as (u1 & u1' & x & x' & d & s & s' & E & E' & _ & A0 & A1 & B0 & A2 & C0 & A3 & A4 & A5 & _).
  rewrite E in C. injection C as <- <- _. split; [apply like_refl; auto|exact A4].
Qed.

Lemma go_on_like D sgd wrt w0 c p w1 r wm l wd v m t1 t2 s :
  structural wrt -> differentiates D -> In "jax.Array" (w_nodes w0) -> wf_world w0 -> In "Module" c -> ok_prog p -> construct w0 c p = (w1, r, Ok tt) ->
  w_nodes w1 = w_nodes w0 -> made_again (w_nodes w0) c p v m ->
  like wm r wm r -> get_module_def wm r = get_module_def w1 r -> w_nodes wm = w_nodes w1 ->
  (forall s s', get_state w1 r = Ok s -> get_state wm r = Ok s' -> shaped s s') -> get_state wm r = Ok s ->
  trained D sgd wrt anything r wm l wd ->
  exists v1 v2, update_state v m (UStates (One s)) = (v1, Ok tt) /\ lifted_loop wrt t1 t2 D sgd (map user_fun l) v1 m = (v2, Ok tt) /\
    like wd r v2 m /\ apart v m v2.
Proof.
  intros HS HD J W Hc Hp C N1 M LK Dm Nm Sh Gs T.
  destruct (again w0 c p w1 r v m W Hc Hp C M) as (s1 & sv & G1 & Gv & S1 & Dv & Wv & Vv & Nv & Lv & Ntv).
  destruct (load wm r v m s sv) as (v1 & E & L1 & A1); auto; try congruence.
  { eapply TrainLoop_proofs.alike_trans; [exact S1|]. now apply Sh. }
  destruct (lifted_loop_ok wrt D sgd r l HS HD wm wd v1 m t1 t2) as (v2 & E2 & L2 & A2); auto; [now rewrite Nm, N1|].
  exists v1, v2. split; [exact E|]. split; [exact E2|]. split; [exact L2|]. eapply apart_trans; eauto.
Qed.

Lemma resume_ok D sgd wrt w0 c p w1 r t1 t2 :
  structural wrt -> differentiates D -> In "jax.Array" (w_nodes w0) -> wf_world w0 -> In "Module" c -> ok_prog p -> construct w0 c p = (w1, r, Ok tt) -> w_nodes w1 = w_nodes w0 ->
  forall ps ls, Forall2 does ps ls -> Forall (fun q => made_again (w_nodes w0) c p (pr_world q) (pr_model q)) ps ->
  forall wm wd s, like wm r wm r -> get_module_def wm r = get_module_def w1 r -> w_nodes wm = w_nodes w1 ->
  (forall s s', get_state w1 r = Ok s -> get_state wm r = Ok s' -> shaped s s') -> get_state wm r = Ok s ->
  trained D sgd wrt anything r wm (List.concat ls) wd -> resume_all wrt t1 t2 D sgd s ps = get_state wd r.
Proof.
  intros HS HD J W Hc Hp C N1 ps ls F. induction F as [|q l ps ls Hq F IH]; intros M wm wd s LK Dm Nm Sh Gs T.
  - cbn [List.concat] in T. inversion T; subst. cbn [resume_all]. now symmetry.
  - cbn [List.concat] in T. apply trained_split in T. destruct T as (wn & T1 & T2). inversion M as [|? ? Mq Mps]; subst.
    destruct (go_on_like D sgd wrt w0 c p w1 r wm l wn _ _ t1 t2 s HS HD J W Hc Hp C N1 Mq LK Dm Nm Sh Gs T1) as (v1 & v2 & E1 & E2 & L2 & _).
    destruct (trained_keeps D sgd wrt r HS HD l wm wn) as (LKn & Dn & Nn & Sn); auto; [now rewrite Nm, N1|].
    destruct (get_state_total wn r (lk_wf _ _ _ _ LKn) (lk_valid _ _ _ _ LKn)) as (sn & Gn & _).
    cbn [resume_all]. unfold go_on. rewrite E1, Hq, E2, (lk_state _ _ _ _ L2), Gn. cbn [rbind]. apply IH with (wm := wn); auto; try congruence.
    intros a b Ha Hb. eapply TrainLoop_proofs.alike_trans; [exact (Sh a s Ha Gs)|exact (Sn s b Gs Hb)].
Qed.
