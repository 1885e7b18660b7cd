(** Prop_GradFun: C95, what nnx.grad differentiates. *)
From Coq Require Import Lia.
From Verif Require Import PyBase PyBaseFacts ValuesM Spec_Eq ValuesFacts FiltersM StateM ModuleM TransformM GradFunM Spec_Module Spec_Prog Spec_GradFun
  Graph_facts Dfs_proofs Bisim_proofs Clone_proofs Transform_proofs GradFun_proofs Prop_Transform Ex_Module.
Local Open Scope string_scope.
Local Open Scope list_scope.

(** *** C95 *)
(** [nnx.grad(f, wrt)(m)] gives for every selected entry what [jax.grad] makes of one
    function: the loss of [m] after values have been put in place of the selected ones,
    everything else as it is.  It does so at the present values.  The module is left as
    by the direct call. *)
Theorem C95_grad :
  forall (D : grad_op) (f : prog pyval) w r wrt t has_aux wd out,
  differentiates D -> ok_prog f -> wf_world w -> r < List.length (w_heap w) -> names_ok w r -> live w r -> In "jax.Array" (w_nodes w) ->
  (exists pred, to_predicate wrt = Ok pred) ->
  user_fun f w r = (wd, Ok out) -> nodes_only w wd r -> names_ok wd r ->
  (has_aux = true -> exists loss aux, out = PyTuple [loss; aux]) ->
  exists w' diff grads, module_filter w r wrt [] = Ok (One diff) /\
    grad_call_fn true has_aux wrt t D (user_fun f) w r =
      (w', Ok (grads, match has_aux, out with true, PyTuple [_; aux] => Some aux | _, _ => None end)) /\
    keys grads = keys diff /\
    (forall k a, dget k diff = Some a -> dget k grads = Some (with_value a (D (loss_with has_aux f w r) diff k a))) /\
    (forall p, look w' r p = look wd r p) /\ (forall p, follow w' r p = follow wd r p) /\
    (forall x o, get_obj w x = Some o -> ~ reaches w r x -> get_obj w' x = Some o) /\ w_trace w' = w_trace w.
Proof.
  intros D f w r wrt t ha wd out HD Hf W V N L J [pred Hp] Hrun HN Hnod Haux.
  destruct (grad_call_fn_open D f w r wrt pred t true ha W V Hp) as (diff & nondiff & p & P1 & P2 & P3 & E0). rewrite E0.
  assert (Ha : exists aux, aux_of true ha out = Ok aux /\ aux = match ha, out with true, PyTuple [_; aux] => Some aux | _, _ => None end).
  { destruct ha; [destruct (Haux eq_refl) as (loss & aux & ->)|]; eexists; split; reflexivity. }
  destruct Ha as (aux & Ha & Eaux).
  destruct (grad_same f w r wrt t (D (grad_fn true ha t (user_fun f) w nondiff (p_def p)) diff) ha wd out aux pred Hf W V N L Hp Hrun Ha HN Hnod)
    as (w' & diff' & Hfl & E & Wf & T & Nn & B & F).
  rewrite P3 in Hfl. injection Hfl as <-.
  destruct (get_obj_ex _ _ V) as [o Ho]. assert (Hrr : reaches w r r) by (eapply reaches_refl; eauto).
  rewrite (grad_tree_ext _ (D (loss_with ha f w r) diff)) in E by (eapply grad_op_loss; eauto).
  exists w', diff, (grad_tree (D (loss_with ha f w r) diff) diff). split; [exact P3|]. rewrite <- Eaux. split; [exact E|]. split; [apply grad_tree_keys|].
  split; [intros k a Hk; apply grad_tree_get; exact Hk|].
  split; [intros q; exact (bisim_look _ _ _ q B r r (conj eq_refl Hrr))|].
  split. { intros q. pose proof (bisim_follow_iff _ _ _ q B r r (conj eq_refl Hrr)) as G.
    destruct (follow w' r q), (follow wd r q); try contradiction; [destruct G as [-> _]|]; reflexivity. }
  auto.
Qed.
Print Assumptions C95_grad.

(** The same with stateful=False, for every function; then nothing changes. *)
Theorem C95_stateless :
  forall (D : grad_op) (f : prog pyval) w r wrt t has_aux wd out,
  differentiates D -> ok_prog f -> wf_world w -> r < List.length (w_heap w) -> names_ok w r -> live w r -> In "jax.Array" (w_nodes w) ->
  (exists pred, to_predicate wrt = Ok pred) ->
  user_fun f w r = (wd, Ok out) ->
  (has_aux = true -> exists loss aux, out = PyTuple [loss; aux]) ->
  exists w' diff grads, module_filter w r wrt [] = Ok (One diff) /\
    grad_call_fn false has_aux wrt t D (user_fun f) w r =
      (w', Ok (grads, match has_aux, out with true, PyTuple [_; aux] => Some aux | _, _ => None end)) /\
    keys grads = keys diff /\
    (forall k a, dget k diff = Some a -> dget k grads = Some (with_value a (D (loss_with has_aux f w r) diff k a))) /\
    all_unchanged w w' /\ w_trace w' = w_trace w.
Proof.
  intros D f w r wrt t ha wd out HD Hf W V N L J [pred Hp] Hrun Haux.
  destruct (grad_call_fn_open D f w r wrt pred t false ha W V Hp) as (diff & nondiff & p & P1 & P2 & P3 & E0). rewrite E0.
  assert (Ha : exists aux, aux_of false ha out = Ok aux /\ aux = match ha, out with true, PyTuple [_; aux] => Some aux | _, _ => None end).
  { destruct ha; [destruct (Haux eq_refl) as (loss & aux & ->)|]; eexists; split; reflexivity. }
  destruct Ha as (aux & Ha & Eaux).
  destruct (grad_stateless f w r wrt t (D (grad_fn false ha t (user_fun f) w nondiff (p_def p)) diff) ha wd out aux pred Hf W V N L Hp Hrun Ha)
    as (w' & diff' & Hfl & E & U & T).
  rewrite P3 in Hfl. injection Hfl as <-.
  rewrite (grad_tree_ext _ (D (loss_with ha f w r) diff)) in E by (eapply grad_op_loss; eauto).
  exists w', diff, (grad_tree (D (loss_with ha f w r) diff) diff). split; [exact P3|]. rewrite <- Eaux. split; [exact E|]. split; [apply grad_tree_keys|].
  split; [intros k a Hk; apply grad_tree_get; exact Hk|]. auto.
Qed.
Print Assumptions C95_stateless.

(** Where the module lives does not matter: modules with the same definition and the
    same state, in whatever worlds and under whatever traces, have the same gradients
    and auxiliary values. *)
Theorem C95_same_gradient :
  forall (D : grad_op) (f : prog pyval) w r w' r' wrt t t' has_aux wd out grads aux grads' aux' v v',
  differentiates D -> ok_prog f -> wf_world w -> r < List.length (w_heap w) -> names_ok w r -> live w r -> In "jax.Array" (w_nodes w) ->
  wf_world w' -> r' < List.length (w_heap w') -> names_ok w' r' -> live w' r' -> w_nodes w' = w_nodes w ->
  get_module_def w' r' = get_module_def w r -> get_state w' r' = get_state w r ->
  user_fun f w r = (wd, Ok out) ->
  grad_call_fn false has_aux wrt t D (user_fun f) w r = (v, Ok (grads, aux)) ->
  grad_call_fn false has_aux wrt t' D (user_fun f) w' r' = (v', Ok (grads', aux')) ->
  grads' = grads.
Proof.
  intros D f w r w' r' wrt t t' ha wd out grads aux grads' aux' v v' HD Hf W V N L J W' V' N' L' Nn Ed Es Hrun E E'.
  destruct (to_predicate wrt) as [pred|e] eqn:Hp; [|unfold grad_call_fn in E; rewrite Hp in E; discriminate].
  destruct (grad_call_fn_open D f w r wrt pred t false ha W V Hp) as (diff & nondiff & p & P1 & P2 & P3 & E0). rewrite E0 in E.
  destruct (grad_call_fn_open D f w' r' wrt pred t' false ha W' V' Hp) as (diff' & nondiff' & p' & P1' & P2' & P3' & E0'). rewrite E0' in E'.
  assert (EP : module_partition w' r' [FPred pred; FEllipsis] = module_partition w r [FPred pred; FEllipsis]) by (unfold module_partition; rewrite Ed, Es; reflexivity).
  rewrite EP, P1 in P1'. injection P1' as <-. rewrite P2 in P2'. injection P2' as <- <-.
  assert (X : forall q g u x y z, grad_call false ha wrt q g (user_fun f) u x = (y, Ok z) ->
     module_partition u x [FPred pred; FEllipsis] = Ok p -> fst z = grad_tree g diff).
  { intros q g u x y z H Hm. unfold grad_call in H. rewrite Hp in H. cbn [rbind] in H. rewrite Hm, P2 in H.
    destruct (merge _ _ _) as [[m u1]|e]; [|discriminate]. destruct (user_fun f u1 m) as [u2 [o|e]]; [|discriminate].
    destruct (if ha then _ else _) as [a|e]; [|discriminate]. injection H as _ <-. reflexivity. }
  pose proof (X _ _ _ _ _ _ E P1) as G. assert (P1'' : module_partition w' r' [FPred pred; FEllipsis] = Ok p) by congruence.
  pose proof (X _ _ _ _ _ _ E' P1'') as G'. cbn [fst] in G, G'. subst grads grads'.
  apply grad_tree_ext. intros k a. rewrite (grad_op_loss D f w r pred p diff nondiff w t false ha HD Hf W V N L J P1 P2 W eq_refl).
  rewrite (grad_op_loss D f w r pred p diff nondiff w' t' false ha HD Hf W V N L J P1 P2 W' Nn). reflexivity.
Qed.
Print Assumptions C95_same_gradient.

(** *** A case
    The derivative taken as a difference quotient with step 1 on numbered arrays. *)
Definition bump (k : string) (d : state) : state :=
  map (fun ka => if String.eqb (fst ka) k
                 then (fst ka, match snd ka with
                               | ACont c => match c_val c with PyObj t n => ACont (mkCont (c_cls c) (c_meta c) (PyObj t (S n))) | _ => snd ka end
                               | ARaw (PyObj t n) => if smem "jax.Array" t then ARaw (PyObj t (S n)) else snd ka
                               | a => a end)
                 else ka) d.
Definition all_arrays (d : state) : bool :=
  forallb (fun ka => match snd ka with ARaw (PyObj t _) => smem "jax.Array" t | ARaw _ => false | ACont _ => true end) d.
Definition quotient : grad_op := fun l diff k _ =>
  if all_arrays diff then
    match l (bump k diff), l diff with
    | Some (PyObj _ x), Some (PyObj _ y) => PyObj Array_cls (x - y)
    | _, _ => PyNone
    end
  else PyNone.
Lemma point_bump k diff : all_arrays diff = true -> point diff (bump k diff).
Proof.
  unfold all_arrays. induction diff as [|[j a] diff IH]; cbn; [constructor|]. intros H. apply andb_prop in H as [H1 H2]. constructor; [|apply IH; exact H2].
  cbn in *. destruct (String.eqb j k); cbn; (split; [reflexivity|]); destruct a as [v|c]; cbn.
  - destruct v as [|b|z|s|l|q|t n]; cbn in *; try discriminate. rewrite H1. cbn. now apply smem_In.
  - destruct c as [x y z]. cbn. destruct z; cbn; auto.
  - destruct v; cbn in *; try discriminate. now apply smem_In.
  - auto.
Qed.
Lemma point_same diff : all_arrays diff = true -> point diff diff.
Proof.
  unfold all_arrays. induction diff as [|[j a] diff IH]; cbn; [constructor|]. intros H. apply andb_prop in H as [H1 H2]. constructor; [|apply IH; exact H2].
  cbn in *. split; [reflexivity|]. destruct a as [v|c]; cbn; [|auto]. destruct v; cbn in *; try discriminate. now apply smem_In.
Qed.
Lemma quotient_ok : differentiates quotient.
Proof.
  intros l1 l2 diff H k a. unfold quotient. destruct (all_arrays diff) eqn:A; [|reflexivity].
  rewrite (H (bump k diff)) by (now apply point_bump). rewrite (H diff) by (now apply point_same). reflexivity.
Qed.

(** The loss inp.w * w + inp.norm.mean + 2 * out.norm.mean, where both norms are one
    Module; it also writes a new mean. *)
Definition num (a : ans) : nat := match a with AValue (ARaw (PyObj _ n)) => n | AValue (ACont c) => match c_val c with PyObj _ n => n | _ => 0 end | _ => 0 end.
Definition ex_product : prog pyval :=
  Do (CGet 0 "inp") (fun _ => Do (CGet 1 "w") (fun a => Do (CGet 0 "w") (fun b =>
  Do (CGet 1 "norm") (fun _ => Do (CGet 2 "mean") (fun c =>
  Do (CGet 0 "out") (fun _ => Do (CGet 3 "norm") (fun _ => Do (CGet 4 "mean") (fun d =>
  Do (CSet 2 "mean" (arr 77)) (fun _ =>
  Finish (Ok (PyTuple [PyObj Array_cls (num a * num b + num c + 2 * num d); PyStr "aux"]))))))))))).
Example C95_example_hyps :
  differentiates quotient /\ ok_prog ex_product /\ In "jax.Array" (w_nodes ex_cyc) /\
  exists wd, user_fun ex_product ex_cyc 0 = (wd, Ok (PyTuple [PyObj Array_cls 152; PyStr "aux"])) /\ wd = ex_loss_world /\
    nodes_only ex_cyc wd 0 /\ names_ok wd 0.
Proof.
  split; [exact quotient_ok|]. split.
  { unfold ex_product. repeat (apply ok_do; [first [exact Logic.I | split; [exact Logic.I|reflexivity]]|intros ? _]). constructor. }
  split; [vm_compute; auto|]. eexists. split; [vm_compute; reflexivity|]. split; [vm_compute; reflexivity|].
  split; [exact ex_loss_nodes|]. apply names_okb_ok. vm_compute. reflexivity.
Qed.
(** The weights get each other's values; the shared mean counts three times. *)
Example C95_example :
  (exists w', grad_call_fn true true (FType "Param") (0, 7) quotient (user_fun ex_product) ex_cyc 0 =
     (w', Ok ([("inp/w", param 10); ("out/w", param 0); ("w", param 11)], Some (PyStr "aux")))) /\
  (exists w', grad_call_fn true true (FType "BatchStat") (0, 7) quotient (user_fun ex_product) ex_cyc 0 =
     (w', Ok ([("inp/norm/mean", stat 3)], Some (PyStr "aux"))) /\ look w' 0 ["out"; "norm"; "mean"] = SValue (stat 77)).
Proof. split; eexists; [|split]; vm_compute; reflexivity. Qed.
