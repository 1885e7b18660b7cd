(** Prop_FineTune: C107, fine-tuning a part of a model. *)
From Coq Require Import Lia.
From Verif Require Import PyBase PyBaseFacts ValuesM Spec_Eq ValuesFacts FiltersM StateM ModuleM PureM TransformM GradFunM JitCacheM TrainLoopM FineTuneM
  Spec_Module Spec_Prog Spec_GradFun Spec_Functional Spec_TrainLoop Spec_FineTune State_proofs
  Graph_facts Dfs_proofs Bisim_proofs Clone_proofs Transform_proofs Functional_proofs GradFun_proofs Prop_Transform Prop_GradFun TrainLoop_proofs FineTune_proofs
  Ex_Module Prop_TrainLoop Prop_Path.
Local Open Scope string_scope.
Local Open Scope list_scope.

(** *** C107 *)
(** [(trainable, frozen), moduledef = model.partition(wrt, ...)], then training on
    [trainable]: the State at the end is the selected part of the model trained itself, the
    other part of that model is [frozen], as at the start, and no existing Module has changed.
    For forward passes that leave the State alone. *)
Theorem C107_tune_partial :
  forall (wrt : filt) (D : grad_op) (sgd : pyval -> pyval -> pyval) r w losses wd v trainable frozen d t,
  structural wrt -> differentiates D -> wf_world w -> r < List.length (w_heap w) -> names_ok w r -> live w r -> In "jax.Array" (w_nodes w) ->
  trained D sgd wrt (quiet r) r w losses wd ->
  module_partition w r [wrt; FEllipsis] = Ok (mkPure (Many [trainable; frozen]) d) -> wf_world v -> w_nodes v = w_nodes w ->
  exists v' trainable', tune_loop t D sgd d frozen (map user_fun losses) v trainable = (v', Ok trainable') /\
    module_partition wd r [wrt; FEllipsis] = Ok (mkPure (Many [trainable'; frozen]) d) /\
    all_unchanged v v' /\ w_trace v' = w_trace v.
Proof.
  intros wrt D sgd r w losses wd v a b d t HS HD W V N L J T Hp Wv Nv.
  exact (tune_loop_ok wrt D sgd r losses HS HD w wd v a b d t J T W V N L Wv Nv Hp).
Qed.
Print Assumptions C107_tune_partial.

(** Training the model in place with nnx.grad and nnx.jit instead gives the same two
    States. *)
Theorem C107_agree_partial :
  forall (wrt : filt) (D : grad_op) (sgd : pyval -> pyval -> pyval) r w losses wd trainable frozen d t1 t2 t3,
  structural wrt -> differentiates D -> wf_world w -> r < List.length (w_heap w) -> names_ok w r -> live w r -> In "jax.Array" (w_nodes w) ->
  trained D sgd wrt (quiet r) r w losses wd ->
  module_partition w r [wrt; FEllipsis] = Ok (mkPure (Many [trainable; frozen]) d) ->
  exists w1 w2 trainable',
    lifted_loop wrt t1 t2 D sgd (map user_fun losses) w r = (w1, Ok tt) /\
    tune_loop t3 D sgd d frozen (map user_fun losses) w trainable = (w2, Ok trainable') /\
    module_partition w1 r [wrt; FEllipsis] = Ok (mkPure (Many [trainable'; frozen]) d).
Proof.
  intros wrt D sgd r w losses wd a b d t1 t2 t3 HS HD W V N L J T Hp.
  assert (T' : trained D sgd wrt anything r w losses wd) by (eapply trained_weaken; [|exact T]; intros ? ? _; exact Logic.I).
  destruct (C96_lifted _ D sgd r w losses wd t1 t2 HS HD W V N L J T') as (w1 & E1 & _ & _ & S1 & D1 & _).
  destruct (C107_tune_partial wrt D sgd r w losses wd w a b d t3 HS HD W V N L J T Hp W eq_refl) as (w2 & a' & E2 & P2 & _).
  exists w1, w2, a'. split; [exact E1|]. split; [exact E2|]. unfold module_partition in *. now rewrite S1, D1.
Qed.
Print Assumptions C107_agree_partial.

(** Whatever the forward passes do to the model they get, attributes and submodules they add
    or take away included: the State at the end is the selected part of the model after steps
    that move the selected entries along the derivatives and keep nothing else, and the other
    part of that model is still [frozen]. *)
Theorem C107_any :
  forall (wrt : filt) (D : grad_op) (sgd : pyval -> pyval -> pyval) r w losses wd v trainable frozen d t,
  structural wrt -> differentiates D -> wf_world w -> r < List.length (w_heap w) -> names_ok w r -> live w r -> In "jax.Array" (w_nodes w) ->
  stepped D sgd wrt r w losses wd ->
  module_partition w r [wrt; FEllipsis] = Ok (mkPure (Many [trainable; frozen]) d) -> wf_world v -> w_nodes v = w_nodes w ->
  exists v' trainable', tune_loop t D sgd d frozen (map user_fun losses) v trainable = (v', Ok trainable') /\
    module_partition wd r [wrt; FEllipsis] = Ok (mkPure (Many [trainable'; frozen]) d) /\
    all_unchanged v v' /\ w_trace v' = w_trace v.
Proof.
  intros wrt D sgd r w losses wd v a b d t HS HD W V N L J T Hp Wv Nv.
  destruct (tune_any wrt D sgd r losses [] HS HD w wd v a b d t J T W V N L Wv Nv Hp) as (v' & a' & E & P & U & Tv & _).
  rewrite app_nil_r in E. exists v', a'. split; [exact E|auto].
Qed.
Print Assumptions C107_any.
(** Such steps can go on as long as the forward passes return: the update never fails. *)
Theorem C107_goes_on :
  forall (wrt : filt) (D : grad_op) (sgd : pyval -> pyval -> pyval) r w losses wd f diff w1 out,
  structural wrt -> differentiates D -> wf_world w -> r < List.length (w_heap w) -> names_ok w r -> live w r -> In "jax.Array" (w_nodes w) ->
  (exists trainable frozen d, module_partition w r [wrt; FEllipsis] = Ok (mkPure (Many [trainable; frozen]) d)) ->
  stepped D sgd wrt r w losses wd -> ok_prog f -> module_filter wd r wrt [] = Ok (One diff) -> variables diff -> run f wd [r] = (w1, Ok out) ->
  exists w2, stepped D sgd wrt r w (losses ++ [f]) w2.
Proof.
  intros wrt D sgd r w losses wd f diff w1 out HS HD W V N L J (a & b & d & Hp) T Hf Hdiff Vd Hrun.
  destruct (tune_any wrt D sgd r losses [] HS HD w wd w a b d (0, 0) J T W V N L W eq_refl Hp) as (v' & a' & _ & P & _ & _ & Wd & Vd' & Nd & Ld & Nw & Wv & Nv).
  pose proof HS as (pr & Hpr & BC). rewrite <- Nw in J.
  destruct (step_alone wrt pr D sgd f wd r diff w1 out v' a' b d (0, 0) Hpr BC (not_ellipsis _ _ _ _ Hp) HD J Hf Hdiff Vd Hrun Wd Vd' Nd Ld Wv) as (_ & _ & w2 & _ & Eu & _); [congruence|exact P|].
  exists w2. clear -T Hf Hdiff Vd Hrun Eu. induction T as [w|w g dg wg og w2' l w3 A B C E F G IH]; cbn [app].
  - eapply st_step; eauto. apply st_done.
  - eapply st_step; eauto.
Qed.
Print Assumptions C107_goes_on.
(** When a forward pass raises, the loop raises that, and no existing Module has changed. *)
Theorem C107_raises :
  forall (wrt : filt) (D : grad_op) (sgd : pyval -> pyval -> pyval) r w losses wd f rest w1 e v trainable frozen d t,
  structural wrt -> differentiates D -> wf_world w -> r < List.length (w_heap w) -> names_ok w r -> live w r -> In "jax.Array" (w_nodes w) ->
  stepped D sgd wrt r w losses wd -> ok_prog f -> run f wd [r] = (w1, Err e) ->
  module_partition w r [wrt; FEllipsis] = Ok (mkPure (Many [trainable; frozen]) d) -> wf_world v -> w_nodes v = w_nodes w ->
  exists v', tune_loop t D sgd d frozen (map user_fun (losses ++ f :: rest)) v trainable = (v', Err e) /\
    all_unchanged v v' /\ w_trace v' = w_trace v.
Proof.
  intros wrt D sgd r w losses wd f rest w1 e v a b d t HS HD W V N L J T Hf Hrun Hp Wv Nv.
  destruct (tune_any wrt D sgd r losses (f :: rest) HS HD w wd v a b d t J T W V N L Wv Nv Hp) as (v' & a' & E & P & U & Tv & Wd & Vd & Nd & Ld & Nw & Wv' & Nv').
  pose proof HS as (pr & Hpr & BC). rewrite (module_pred _ _ _ _ Hpr (not_ellipsis _ _ _ _ Hp)) in P. pose proof (partition_parts _ wd r _ Wd Vd P) as PA.
  destruct (part_loss_ok f wd r v' a' b d t w1 (Err e) Hf Wd Vd Nd Ld Wv' ltac:(congruence) PA Hrun) as (v2 & U2 & _ & _ & T2 & El).
  exists v2. rewrite E. cbn [map tune_loop]. unfold tune_step. rewrite El. split; [reflexivity|]. split; [intros x o Ho; apply U2, U, Ho|congruence].
Qed.
Print Assumptions C107_raises.
(** In such steps an entry that the filter does not select stays, whatever the forward passes
    write. *)
Theorem C107_any_frozen :
  forall (wrt : filt) pred (D : grad_op) (sgd : pyval -> pyval -> pyval) r w losses wd k a,
  structural wrt -> to_predicate wrt = Ok pred -> wf_world w -> r < List.length (w_heap w) -> names_ok w r -> live w r ->
  stepped D sgd wrt r w losses wd -> has_entry w r k a -> pred k a = false -> has_entry wd r k a.
Proof.
  intros wrt pred D sgd r w losses wd k a HS Hp W V N L T He Hk. pose proof HS as (pr & Hpr & BC). rewrite Hp in Hpr. injection Hpr as <-.
  exact (stepped_frozen wrt pred D sgd r k losses Hp BC w wd a T W V N L He Hk).
Qed.
Print Assumptions C107_any_frozen.

(** A part that the filter does not select and the forward passes do not write is the same
    after any number of steps, whatever they do to the rest (training in place). *)
Theorem C107_frozen :
  forall (wrt : filt) pred (D : grad_op) (sgd : pyval -> pyval -> pyval) r w losses wd t1 t2 k a,
  structural wrt -> to_predicate wrt = Ok pred -> differentiates D -> wf_world w -> r < List.length (w_heap w) -> names_ok w r -> live w r -> In "jax.Array" (w_nodes w) ->
  trained D sgd wrt (keeps r k) r w losses wd ->
  has_entry w r k a -> pred k a = false ->
  exists w', lifted_loop wrt t1 t2 D sgd (map user_fun losses) w r = (w', Ok tt) /\ has_entry w' r k a.
Proof.
  intros wrt pred D sgd r w losses wd t1 t2 k a HS Hp HD W V N L J T He Hk. pose proof HS as (pr & Hpr & BC). rewrite Hp in Hpr. injection Hpr as <-.
  assert (T' : trained D sgd wrt anything r w losses wd) by (eapply trained_weaken; [|exact T]; intros ? ? _; exact Logic.I).
  destruct (C96_lifted _ D sgd r w losses wd t1 t2 HS HD W V N L J T') as (w1 & E1 & _ & _ & S1 & _).
  destruct (frozen_ok wrt pred D sgd r k losses Hp BC HD w wd a J T W V N L He Hk) as (s & G & H).
  exists w1. split; [exact E1|]. exists s. split; [congruence|exact H].
Qed.
Print Assumptions C107_frozen.

(** And a part that it does select moves along the derivative, in each step: from the value
    the forward pass left, by the derivative at the value before. *)
Theorem C107_moves :
  forall (wrt : filt) pred (D : grad_op) (sgd : pyval -> pyval -> pyval) r w f wd w1 out t1 t2 k a a1,
  structural wrt -> to_predicate wrt = Ok pred -> differentiates D -> wf_world w -> r < List.length (w_heap w) -> names_ok w r -> live w r -> In "jax.Array" (w_nodes w) ->
  trained D sgd wrt anything r w [f] wd -> run f w [r] = (w1, Ok out) ->
  has_entry w r k a -> pred k a = true -> has_entry w1 r k a1 ->
  exists w' selected, lifted_loop wrt t1 t2 D sgd (map user_fun [f]) w r = (w', Ok tt) /\
    module_filter w r wrt [] = Ok (One selected) /\
    has_entry w' r k (with_value a1 (sgd (value a1) (D (loss_with false f w r) selected k a))).
Proof.
  intros wrt pred D sgd r w f wd w1 out t1 t2 k a a1 HS Hp HD W V N L J T Hrun (s & Gs & Hk) Hs (s1 & Gs1 & Hk1).
  destruct (C96_lifted _ D sgd r w _ wd t1 t2 HS HD W V N L J T) as (w' & E1 & _ & _ & S1 & _).
  inversion T as [|? ? diff w1' out' params w2 ? ? Hf Hdiff Vd Hrun' Hst _ Hpar Vp Hup T2]; subst. inversion T2; subst.
  rewrite Hrun in Hrun'. injection Hrun' as <- <-. pose proof HS as (pr & Hpr & BC). rewrite Hp in Hpr. injection Hpr as <-.
  destruct (step_state wrt pred D sgd f w r diff w1 out params wd Hp BC HD J Hf Hdiff Vd Hrun Hst Hpar Vp Hup W V N L)
    as (s' & s1' & s2 & Gs' & Gs1' & Gs2 & Ws & Ws1 & Ws2 & Ediff & Epar & O1 & O2 & _).
  rewrite Gs in Gs'. injection Gs' as <-. rewrite Gs1 in Gs1'. injection Gs1' as <-.
  exists w', diff. split; [exact E1|]. split; [exact Hdiff|]. exists s2. split; [congruence|].
  assert (H1 : dget k diff = Some a) by (rewrite Ediff; apply (filter_get s pred); [now apply wf_NoDup|auto]).
  assert (H2 : dget k params = Some a1).
  { rewrite Epar. apply (filter_get s1 pred); [now apply wf_NoDup|]. split; [exact Hk1|].
    destruct Hst as (_ & _ & Al). specialize (Al _ _ Gs Gs1). destruct (alike_get _ _ Al _ _ Hk) as (b & Hb & Sh). assert (b = a1) by congruence. subst b.
    rewrite (shape_chosen pred k a a1 BC Sh); [exact Hs|]. left. exact (Vd k a H1). }
  assert (H3 : dget k (chosen pred s2) = Some (with_value a1 (sgd (value a1) (D (loss_with false f w r) diff k a)))).
  { rewrite O1. unfold moved. clear -H1 H2. induction params as [|[j b] l IH]; [discriminate|]. cbn [map fst snd]. cbn in H2 |- *.
    destruct (String.eqb_spec k j) as [->|Ne]; [injection H2 as ->; now rewrite H1|now apply IH]. }
  apply (filter_get s2 pred) in H3 as [H3 _]; [exact H3|now apply wf_NoDup].
Qed.
Print Assumptions C107_moves.

(** *** Cases *)
(** The classifier of examples/09, its head selected. *)
Definition ex_head : filt := FAll [FType "Param"; FPred (fun k _ => starts_with "head/" k)].
Lemma ex_head_structural : structural ex_head.
Proof. eexists. split; [reflexivity|]. intros k c d E _. unfold isinstance. cbn. now rewrite E. Qed.
(** backbone.kernel * head.kernel + head.bias + x *)
Definition ex_tune (x : nat) : prog pyval :=
  Do (CGet 0 "backbone") (fun _ => Do (CGet 0 "head") (fun _ =>
  Do (CGet 1 "kernel") (fun a => Do (CGet 2 "kernel") (fun b => Do (CGet 2 "bias") (fun c =>
  Finish (Ok (PyObj Array_cls (num a * num b + num c + x)))))))).
Lemma ex_tune_ok x : ok_prog (ex_tune x).
Proof. unfold ex_tune. repeat (apply ok_do; [exact Logic.I|intros ? _]). constructor. Qed.
Lemma quiet_step wrt w f w1 w2 diff params l w3 out :
  ok_prog f -> module_filter w 0 wrt [] = Ok (One diff) ->
  run f w [0] = (w1, Ok out) -> module_filter w1 0 wrt [] = Ok (One params) ->
  forallb (fun ka => match snd ka with ACont _ => true | _ => false end) diff = true ->
  forallb (fun ka => match snd ka with ACont _ => true | _ => false end) params = true ->
  names_okb w1 = true -> get_module_def w1 0 = get_module_def w 0 -> get_state w1 0 = get_state w 0 ->
  update_state w1 0 (UStates (One (moved ex_sgd (quotient (loss_with false f w 0) diff) diff params))) = (w2, Ok tt) ->
  trained quotient ex_sgd wrt (quiet 0) 0 w2 l w3 -> trained quotient ex_sgd wrt (quiet 0) 0 w (f :: l) w3.
Proof.
  intros Hf Hd Hr Hp Bd Bp Hn Hdef Hq Hu T.
  assert (V : forall x, forallb (fun ka : string * attr => match snd ka with ACont _ => true | _ => false end) x = true -> variables x).
  { intros x Hx k a Ha. apply dget_In in Ha. rewrite forallb_forall in Hx. specialize (Hx _ Ha). cbn in Hx. destruct a; [discriminate|eauto]. }
  eapply tr_step; eauto.
  split; [now apply names_okb_ok|]. split; [exact Hdef|]. intros a b Ha Hb. rewrite Hq, Ha in Hb. injection Hb as <-.
  clear. induction a as [|[k x] l IH]; constructor; [split; [reflexivity|destruct x; cbn; auto]|exact IH].
Qed.
Lemma ex_tune_trained : exists wd, trained quotient ex_sgd ex_head (quiet 0) 0 ex_classifier [ex_tune 7; ex_tune 9] wd.
Proof.
  eexists. eapply quiet_step; [apply ex_tune_ok|vm_compute; reflexivity|vm_compute; reflexivity|vm_compute; reflexivity|reflexivity|reflexivity|vm_compute; reflexivity|vm_compute; reflexivity|vm_compute; reflexivity|vm_compute; reflexivity|].
  eapply quiet_step; [apply ex_tune_ok|vm_compute; reflexivity|vm_compute; reflexivity|vm_compute; reflexivity|reflexivity|reflexivity|vm_compute; reflexivity|vm_compute; reflexivity|vm_compute; reflexivity|vm_compute; reflexivity|].
  apply tr_done.
Qed.
Example C107_hyps :
  structural ex_head /\ differentiates quotient /\ wf_world ex_classifier /\ names_ok ex_classifier 0 /\ live ex_classifier 0 /\ In "jax.Array" (w_nodes ex_classifier) /\
  (exists wd, trained quotient ex_sgd ex_head (quiet 0) 0 ex_classifier [ex_tune 7; ex_tune 9] wd) /\
  (exists wd, trained quotient ex_sgd ex_head (keeps 0 "backbone/kernel") 0 ex_classifier [ex_tune 7; ex_tune 9] wd) /\
  (exists p, to_predicate ex_head = Ok p /\ p "backbone/kernel" (param 11) = false /\ p "head/kernel" (param 21) = true) /\
  has_entry ex_classifier 0 "backbone/kernel" (param 11) /\ has_entry ex_classifier 0 "head/kernel" (param 21) /\
  exists a b d, module_partition ex_classifier 0 [ex_head; FEllipsis] = Ok (mkPure (Many [a; b]) d) /\
    keys a = ["head/bias"; "head/kernel"] /\ keys b = ["backbone/bias"; "backbone/calls"; "backbone/kernel"; "backbone_scale"].
Proof.
  split; [exact ex_head_structural|]. split; [exact quotient_ok|]. split; [apply wf_worldb_ok; vm_compute; reflexivity|]. split; [apply names_okb_ok; vm_compute; reflexivity|].
  split; [apply liveb_ok; vm_compute; reflexivity|]. split; [vm_compute; auto|]. split; [exact ex_tune_trained|]. split.
  { destruct ex_tune_trained as [wd T]. exists wd. eapply trained_weaken; [|exact T]. intros x y Q s s1 H1 H2. unfold quiet in Q. congruence. }
  split; [eexists; split; [reflexivity|]; split; vm_compute; reflexivity|].
  split; [eexists; split; vm_compute; reflexivity|]. split; [eexists; split; vm_compute; reflexivity|].
  eexists _, _, _. split; [vm_compute; reflexivity|]. split; reflexivity.
Qed.
(** The derivatives of the head are 11 and 1 in both steps. *)
Example C107_example :
  (exists w', lifted_loop ex_head (0, 1) (0, 2) quotient ex_sgd (map user_fun [ex_tune 7; ex_tune 9]) ex_classifier 0 = (w', Ok tt) /\
     get_state w' 0 = Ok [("backbone/bias", param 12); ("backbone/calls", stat 13); ("backbone/kernel", param 11); ("backbone_scale", param 9); ("head/bias", param 24); ("head/kernel", param 43)]) /\
  (exists a b d, module_partition ex_classifier 0 [ex_head; FEllipsis] = Ok (mkPure (Many [a; b]) d) /\
     exists w', tune_loop (0, 1) quotient ex_sgd d b (map user_fun [ex_tune 7; ex_tune 9]) ex_classifier a = (w', Ok [("head/bias", param 24); ("head/kernel", param 43)])).
Proof.
  split.
  - eexists. split; vm_compute; reflexivity.
  - eexists _, _, _. split; [vm_compute; reflexivity|]. eexists. vm_compute. reflexivity.
Qed.

(** A forward pass that counts its calls, and one that raises. *)
Example C107_any_example :
  (exists wd, stepped quotient ex_sgd (FType "Param") 0 ex_mlp [ex_batch 7; ex_batch 9] wd /\ get_state wd 0 <> get_state ex_mlp 0 /\ look wd 0 ["count"] = SValue (arr 0)) /\
  (exists w1 out, run (ex_batch 7) ex_mlp [0] = (w1, Ok out) /\ look w1 0 ["count"] = SValue (arr 1)) /\
  (exists w1 e, run (Do (CGet 0 "nothing") (fun a => Finish (match a with ARaised e => Err e | _ => Ok PyNone end))) ex_mlp [0] = (w1, Err e)) /\
  exists a b d, module_partition ex_mlp 0 [FType "Param"; FEllipsis] = Ok (mkPure (Many [a; b]) d) /\ b = [("count", arr 0)].
Proof.
  split.
  - eexists. split.
    + eapply st_step; [apply ex_batch_ok|vm_compute; reflexivity| |vm_compute; reflexivity|vm_compute; reflexivity|].
      { intros k a Ha. apply dget_In in Ha. cbn in Ha. repeat (destruct Ha as [[= <- <-]|Ha]; [eauto|]); contradiction. }
      eapply st_step; [apply ex_batch_ok|vm_compute; reflexivity| |vm_compute; reflexivity|vm_compute; reflexivity|apply st_done].
      intros k a Ha. apply dget_In in Ha. cbn in Ha. repeat (destruct Ha as [[= <- <-]|Ha]; [eauto|]); contradiction.
    + split; [vm_compute; discriminate|vm_compute; reflexivity].
  - split; [eexists _, _; split; vm_compute; reflexivity|]. split; [eexists _, _; vm_compute; reflexivity|].
    eexists _, _, _. split; [vm_compute; reflexivity|reflexivity].
Qed.

(** *** Where it fails *)
(** What the forward pass writes is lost in the loop on the trainable part: the calls are
    counted when the model is trained in place, and not here. *)
Theorem C107_writes_refuted :
  (exists w', lifted_loop (FType "Param") (0, 1) (0, 2) quotient ex_sgd (map user_fun [ex_batch 7; ex_batch 9]) ex_mlp 0 = (w', Ok tt) /\ look w' 0 ["count"] = SValue (arr 2)) /\
  exists a b d, module_partition ex_mlp 0 [FType "Param"; FEllipsis] = Ok (mkPure (Many [a; b]) d) /\ b = [("count", arr 0)] /\
    exists w' a' m w2, tune_loop (0, 1) quotient ex_sgd d b (map user_fun [ex_batch 7; ex_batch 9]) ex_mlp a = (w', Ok a') /\
      pure_merge w' (mkPure (Many [a'; b]) d) = Ok (m, w2) /\ look w2 m ["count"] = SValue (arr 0).
Proof.
  split.
  - eexists. split; vm_compute; reflexivity.
  - eexists _, _, _. split; [vm_compute; reflexivity|]. split; [reflexivity|]. eexists _, _, _, _. split; [vm_compute; reflexivity|]. split; vm_compute; reflexivity.
Qed.
Print Assumptions C107_writes_refuted.

(** A layer that is reached by two names has one path, the first in the order of the names.
    A filter that leaves out the other one does not freeze it. *)
Definition ex_two_names : world := mkWorld
  [ mkMobj (Mod_cls "Classifier") 1 false (0, 0) [("backbone", sub 1); ("aux", sub 1); ("head", sub 2)];
    mkMobj (Mod_cls "Linear") 2 false (0, 0) [("kernel", param 11)];
    mkMobj (Mod_cls "Linear") 3 false (0, 0) [("kernel", param 21); ("bias", param 22)] ] 3 (0, 0) default_node_types.
Definition ex_but_backbone : filt := FAll [FType "Param"; FNot (FPred (fun k _ => starts_with "backbone/" k))].
Theorem C107_shared_refuted :
  structural ex_but_backbone /\ look ex_two_names 0 ["backbone"; "kernel"] = SValue (param 11) /\
  exists w', lifted_loop ex_but_backbone (0, 1) (0, 2) quotient ex_sgd (map user_fun [ex_tune 7]) ex_two_names 0 = (w', Ok tt) /\
    look w' 0 ["backbone"; "kernel"] = SValue (param 32).
Proof.
  split; [eexists; split; [reflexivity|]; intros k c d E _; unfold isinstance; cbn; now rewrite E|]. split; [reflexivity|].
  eexists. split; vm_compute; reflexivity.
Qed.
Print Assumptions C107_shared_refuted.
