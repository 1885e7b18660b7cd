(** Prop_SplitLoop: C108, training on two States that filters select. *)
From Coq Require Import Lia.
From Verif Require Import PyBase PyBaseFacts ValuesM Spec_Eq ValuesFacts FiltersM StateM ModuleM PureM TransformM GradFunM JitCacheM TrainLoopM FineTuneM SplitLoopM
  Spec_Module Spec_Prog Spec_GradFun Spec_Functional Spec_TrainLoop Spec_FineTune Spec_SplitLoop State_proofs
  Graph_facts Dfs_proofs Bisim_proofs Clone_proofs Transform_proofs Functional_proofs GradFun_proofs Prop_Transform Prop_GradFun TrainLoop_proofs FineTune_proofs SplitLoop_proofs Revalue_proofs
  Ex_Module Prop_TrainLoop Prop_Path Prop_FineTune.
Local Open Scope string_scope.
Local Open Scope list_scope.

(** *** C108 *)
(** [(params, rest), moduledef = model.partition(wrt, second)], then a loop of training steps
    that carries [params] and [updates.filter(aux)], then [moduledef.merge(params, rest)]:
    this is the model trained itself, with the same sharing.  The two States at the end are
    its parts, and no existing Module has changed.  [second] may be any filter for which
    [partition] succeeds. *)
Theorem C108_loop :
  forall (wrt second aux : filt) (D : grad_op) (sgd : pyval -> pyval -> pyval) r w losses wd v params rest d t,
  structural wrt -> (exists q, to_predicate aux = Ok q) -> differentiates D ->
  wf_world w -> r < List.length (w_heap w) -> names_ok w r -> live w r -> In "jax.Array" (w_nodes w) ->
  trained D sgd wrt (split_by wrt aux r) r w losses wd ->
  module_partition w r [wrt; second] = Ok (mkPure (Many [params; rest]) d) -> wf_world v -> w_nodes v = w_nodes w ->
  exists v' params' rest', aux_loop aux t D sgd d (map user_fun losses) v params rest = (v', Ok (params', rest')) /\
    module_partition wd r [wrt; FEllipsis] = Ok (mkPure (Many [params'; rest']) d) /\
    all_unchanged v v' /\ w_trace v' = w_trace v /\
    exists m v2, pure_merge v' (mkPure (Many [params'; rest']) d) = Ok (m, v2) /\
      (forall p, look v2 m p = look wd r p) /\ (forall p q, follow v2 m p = follow v2 m q <-> follow wd r p = follow wd r q) /\
      all_unchanged v' v2 /\ (forall x, reaches v2 m x -> get_obj v' x = None).
Proof.
  intros wrt second aux D sgd r w losses wd v a b d t HS (q & Hq) HD W V N L J T Hp Wv Nv. apply (second_is_rest w r wrt second _ W V) in Hp.
  destruct (aux_loop_ok wrt aux q D sgd r losses HS Hq HD w wd v a b d t J T W V N L Wv Nv Hp) as (v' & a' & b' & E & P & U & Tv & W' & V' & N' & L' & Wv' & Nv').
  exists v', a', b'. split; [exact E|]. split; [exact P|]. split; [exact U|]. split; [exact Tv|].
  pose proof (partition_parts _ wd r _ W' V' P) as PA.
  destruct (parts_like _ wd r v' (w_trace v') W' V' N' L' PA Wv' Nv') as (v2 & M & LK & U2 & _ & _ & Fr).
  assert (Es : set_trace v' (w_trace v') = v') by (destruct v'; reflexivity). rewrite Es in M.
  eexists _, v2. split; [exact M|]. split; [intros p; now apply like_look|]. split; [intros p x; now apply like_alias|]. auto.
Qed.
Print Assumptions C108_loop.

(** The loop on the States and training in place with nnx.jit and nnx.grad agree. *)
Theorem C108_agree :
  forall (wrt second aux : filt) (D : grad_op) (sgd : pyval -> pyval -> pyval) r w losses wd params rest d t1 t2 t3,
  structural wrt -> (exists q, to_predicate aux = Ok q) -> differentiates D ->
  wf_world w -> r < List.length (w_heap w) -> names_ok w r -> live w r -> In "jax.Array" (w_nodes w) ->
  trained D sgd wrt (split_by wrt aux r) r w losses wd ->
  module_partition w r [wrt; second] = Ok (mkPure (Many [params; rest]) d) ->
  exists w1 w2 params' rest' m v2,
    lifted_loop wrt t1 t2 D sgd (map user_fun losses) w r = (w1, Ok tt) /\
    aux_loop aux t3 D sgd d (map user_fun losses) w params rest = (w2, Ok (params', rest')) /\
    pure_merge w2 (mkPure (Many [params'; rest']) d) = Ok (m, v2) /\ forall p, look v2 m p = look w1 r p.
Proof.
  intros wrt second aux D sgd r w losses wd a b d t1 t2 t3 HS Hq HD W V N L J T Hp.
  assert (T' : trained D sgd wrt anything r w losses wd) by (eapply trained_weaken; [|exact T]; intros ? ? _; exact Logic.I).
  destruct (C96_lifted _ D sgd r w losses wd t1 t2 HS HD W V N L J T') as (w1 & E1 & Lk & _).
  destruct (C108_loop wrt second aux D sgd r w losses wd w a b d t3 HS Hq HD W V N L J T Hp W eq_refl) as (w2 & a' & b' & E2 & _ & _ & _ & m & v2 & M & Lk2 & _).
  exists w1, w2, a', b', m, v2. split; [exact E1|]. split; [exact E2|]. split; [exact M|]. intros p. now rewrite Lk, Lk2.
Qed.
Print Assumptions C108_agree.

(** A layer that two parts of the model share stays in sync: after any number of steps both
    see the same layer, whether the model was trained in place or through its States. *)
Theorem C108_in_sync :
  forall (wrt second aux : filt) (D : grad_op) (sgd : pyval -> pyval -> pyval) r w losses wd params rest d t1 t2 t3 p q x,
  structural wrt -> (exists q, to_predicate aux = Ok q) -> differentiates D ->
  wf_world w -> r < List.length (w_heap w) -> names_ok w r -> live w r -> In "jax.Array" (w_nodes w) ->
  trained D sgd wrt (split_by wrt aux r) r w losses wd ->
  module_partition w r [wrt; second] = Ok (mkPure (Many [params; rest]) d) ->
  follow w r p = Some x -> follow w r q = Some x ->
  exists w1 w2 params' rest' m v2,
    lifted_loop wrt t1 t2 D sgd (map user_fun losses) w r = (w1, Ok tt) /\
    aux_loop aux t3 D sgd d (map user_fun losses) w params rest = (w2, Ok (params', rest')) /\
    pure_merge w2 (mkPure (Many [params'; rest']) d) = Ok (m, v2) /\
    follow w1 r p = Some x /\ follow w1 r q = Some x /\
    exists y, follow v2 m p = Some y /\ follow v2 m q = Some y.
Proof.
  intros wrt second aux D sgd r w losses wd a b d t1 t2 t3 p q x HS Hq HD W V N L J T Hp F1 F2.
  assert (T' : trained D sgd wrt anything r w losses wd) by (eapply trained_weaken; [|exact T]; intros ? ? _; exact Logic.I).
  destruct (lifted_loop_ok wrt D sgd r losses HS HD w wd w r t1 t2 J T' (like_refl w r W V N L)) as (w1 & E1 & LK & _ & _ & Fo).
  destruct (C108_loop wrt second aux D sgd r w losses wd w a b d t3 HS Hq HD W V N L J T Hp W eq_refl) as (w2 & a' & b' & E2 & _ & _ & _ & m & v2 & M & Lk2 & Al2 & _).
  exists w1, w2, a', b', m, v2. split; [exact E1|]. split; [exact E2|]. split; [exact M|].
  assert (G1 : follow w1 r p = Some x) by (now rewrite Fo). assert (G2 : follow w1 r q = Some x) by (now rewrite Fo).
  split; [exact G1|]. split; [exact G2|].
  assert (G3 : follow wd r p = follow wd r q) by (apply (like_alias _ _ _ _ p q LK); congruence).
  assert (G4 : follow v2 m p = follow v2 m q) by (now apply Al2).
  destruct (follow_valid w1 p r x G1) as [o Ho].
  assert (Q : look v2 m p = SModule (m_cls o) (m_init o)).
  { rewrite Lk2, <- (like_look _ _ _ _ p LK). apply look_module. exists x, o. split; [exact G1|]. auto. }
  apply look_module in Q as (y & o' & Hy & _). exists y. split; congruence.
Qed.
Print Assumptions C108_in_sync.

(** *** Cases *)
(** The model of the README with its layer used twice: two Params, and a count. *)
Definition ex_readme : world := mkWorld
  [ mkMobj (Mod_cls "Model") 1 false (0, 0) [("block1", sub 1); ("block2", sub 2); ("count", stat 0)];
    mkMobj (Mod_cls "Block") 2 false (0, 0) [("linear", sub 3); ("scale", param 5)];
    mkMobj (Mod_cls "Block") 3 false (0, 0) [("linear", sub 3)];
    mkMobj (Mod_cls "Linear") 4 false (0, 0) [("w", param 3)] ]
  4 (0, 0) default_node_types.
(** [count += 1]; block1.linear.w * block1.scale + 2 * block2.linear.w + x *)
Definition ex_shared_loss (x : nat) : prog pyval :=
  Do (CGet 0 "count") (fun n => Do (CSet 0 "count" (arr (S (num n)))) (fun _ =>
  Do (CGet 0 "block1") (fun _ => Do (CGet 0 "block2") (fun _ =>
  Do (CGet 1 "linear") (fun _ => Do (CGet 2 "linear") (fun _ =>
  Do (CGet 3 "w") (fun a => Do (CGet 1 "scale") (fun b => Do (CGet 4 "w") (fun c =>
  Finish (Ok (PyObj Array_cls (num a * num b + 2 * num c + x)))))))))))).
Lemma ex_shared_loss_ok x : ok_prog (ex_shared_loss x).
Proof. unfold ex_shared_loss. repeat (apply ok_do; [first [exact Logic.I | split; [exact Logic.I|reflexivity]]|intros ? _]). constructor. Qed.
Lemma split_step wrt pw aux pa w f w1 w2 diff params l w3 out :
  to_predicate wrt = Ok pw -> to_predicate aux = Ok pa ->
  ok_prog f -> module_filter w 0 wrt [] = Ok (One diff) ->
  run f w [0] = (w1, Ok out) -> module_filter w1 0 wrt [] = Ok (One params) ->
  forallb (fun ka => match snd ka with ACont _ => true | _ => false end) diff = true ->
  forallb (fun ka => match snd ka with ACont _ => true | _ => false end) params = true ->
  names_okb w1 = true -> get_module_def w1 0 = get_module_def w 0 ->
  (exists s s1, get_state w 0 = Ok s /\ get_state w1 0 = Ok s1 /\ Forall2 (fun x y => fst x = fst y /\ same_shape (snd x) (snd y)) s s1 /\
     diff = params /\ forallb (fun ka => Bool.eqb (pa (fst ka) (snd ka)) (negb (pw (fst ka) (snd ka)))) s1 = true) ->
  update_state w1 0 (UStates (One (moved ex_sgd (quotient (loss_with false f w 0) diff) diff params))) = (w2, Ok tt) ->
  trained quotient ex_sgd wrt (split_by wrt aux 0) 0 w2 l w3 -> trained quotient ex_sgd wrt (split_by wrt aux 0) 0 w (f :: l) w3.
Proof.
  intros Hpw Hpa Hf Hd Hr Hp Bd Bp Hn Hdef (s & s1 & G & G1 & F & Eq & B) Hu T.
  assert (V : forall x, forallb (fun ka : string * attr => match snd ka with ACont _ => true | _ => false end) x = true -> variables x).
  { intros x Hx k a Ha. apply dget_In in Ha. rewrite forallb_forall in Hx. specialize (Hx _ Ha). cbn in Hx. destruct a; [discriminate|eauto]. }
  eapply tr_step; eauto.
  - split; [now apply names_okb_ok|]. split; [exact Hdef|]. intros a b Ha Hb. congruence.
  - split; [congruence|]. intros p q z k a Hp' Hq' Hz Ha. rewrite G1 in Hz. injection Hz as <-. assert (p = pw) by congruence. assert (q = pa) by congruence. subst p q.
    rewrite forallb_forall in B. apply dget_In in Ha. specialize (B _ Ha). cbn in B. now apply Bool.eqb_prop in B.
Qed.
Ltac split_steps := eapply split_step; [reflexivity|reflexivity|apply ex_shared_loss_ok|vm_compute; reflexivity|vm_compute; reflexivity|vm_compute; reflexivity|reflexivity|reflexivity|vm_compute; reflexivity|vm_compute; reflexivity|eexists _, _; split; [vm_compute; reflexivity|]; split; [vm_compute; reflexivity|]; split; [repeat constructor|]; split; vm_compute; reflexivity|vm_compute; reflexivity|].
Example C108_hyps :
  structural (FType "Param") /\ (exists q, to_predicate (FType "BatchStat") = Ok q) /\ differentiates quotient /\
  wf_world ex_readme /\ names_ok ex_readme 0 /\ live ex_readme 0 /\ In "jax.Array" (w_nodes ex_readme) /\
  (exists wd, trained quotient ex_sgd (FType "Param") (split_by (FType "Param") (FType "BatchStat") 0) 0 ex_readme [ex_shared_loss 7; ex_shared_loss 9] wd) /\
  (exists a b d, module_partition ex_readme 0 [FType "Param"; FType "BatchStat"] = Ok (mkPure (Many [a; b]) d) /\ keys a = ["block1/linear/w"; "block1/scale"] /\ b = [("count", stat 0)]) /\
  follow ex_readme 0 ["block1"; "linear"] = Some 3 /\ follow ex_readme 0 ["block2"; "linear"] = Some 3.
Proof.
  split; [exact param_structural|]. split; [eexists; reflexivity|]. split; [exact quotient_ok|]. split; [apply wf_worldb_ok; vm_compute; reflexivity|]. split; [apply names_okb_ok; vm_compute; reflexivity|].
  split; [apply liveb_ok; vm_compute; reflexivity|]. split; [vm_compute; auto|]. split; [eexists; split_steps; split_steps; apply tr_done|].
  split; [eexists _, _, _; split; [vm_compute; reflexivity|]; split; reflexivity|]. split; reflexivity.
Qed.
(** Derivatives 5+2 and 3, then 8+2 and 10; the count goes up, in both loops. *)
Example C108_example :
  (exists w', lifted_loop (FType "Param") (0, 1) (0, 2) quotient ex_sgd (map user_fun [ex_shared_loss 7; ex_shared_loss 9]) ex_readme 0 = (w', Ok tt) /\
     get_state w' 0 = Ok [("block1/linear/w", param 20); ("block1/scale", param 18); ("count", stat 2)] /\ look w' 0 ["block2"; "linear"; "w"] = SValue (param 20)) /\
  exists a b d, module_partition ex_readme 0 [FType "Param"; FType "BatchStat"] = Ok (mkPure (Many [a; b]) d) /\
    exists w' a' b' m v2, aux_loop (FType "BatchStat") (0, 1) quotient ex_sgd d (map user_fun [ex_shared_loss 7; ex_shared_loss 9]) ex_readme a b = (w', Ok (a', b')) /\
      a' = [("block1/linear/w", param 20); ("block1/scale", param 18)] /\ b' = [("count", stat 2)] /\
      pure_merge w' (mkPure (Many [a'; b']) d) = Ok (m, v2) /\ look v2 m ["block2"; "linear"; "w"] = SValue (param 20) /\ look v2 m ["count"] = SValue (stat 2).
Proof.
  split.
  - eexists. split; [vm_compute; reflexivity|]. split; vm_compute; reflexivity.
  - eexists _, _, _. split; [vm_compute; reflexivity|]. eexists _, _, _, _, _. split; [vm_compute; reflexivity|]. split; [reflexivity|]. split; [reflexivity|].
    split; [vm_compute; reflexivity|]. split; vm_compute; reflexivity.
Qed.
(** Only [block1.scale] trained, everything else carried, [aux = Not(wrt)]: what the loop of
    C107_writes_refuted lost is kept. *)
Definition ex_scale : filt := FPred (fun k _ => String.eqb k "block1/scale").
Example C108_fine_tune :
  structural ex_scale /\
  (exists wd, trained quotient ex_sgd ex_scale (split_by ex_scale (FNot ex_scale) 0) 0 ex_readme [ex_shared_loss 7; ex_shared_loss 9] wd) /\
  exists a b d, module_partition ex_readme 0 [ex_scale; FEllipsis] = Ok (mkPure (Many [a; b]) d) /\
    exists w', aux_loop (FNot ex_scale) (0, 1) quotient ex_sgd d (map user_fun [ex_shared_loss 7; ex_shared_loss 9]) ex_readme a b =
      (w', Ok ([("block1/scale", param 11)], [("block1/linear/w", param 3); ("count", stat 2)])).
Proof.
  split; [eexists; split; [reflexivity|]; reflexivity|]. split; [eexists; split_steps; split_steps; apply tr_done|].
  eexists _, _, _. split; [vm_compute; reflexivity|]. eexists. vm_compute. reflexivity.
Qed.
