(** Prop_Decor: C77, decorators applied to decorated functions. *)
From Coq Require Import ZArith Lia.
From Verif Require Import PyBase PyBaseFacts ValuesM Spec_Eq FiltersM StateM ModuleM ContextM TransformM JitArgsM GradArgsM DecorM Spec_Module Spec_Prog Spec_Decor.
From Verif Require Import Decor_proofs Ex_Module Prop_GradArgs.
Local Open Scope string_scope.
Local Open Scope list_scope.

(** *** C77 *)
(** Whatever the transforms do: a stack of decorators with at most one nnx.jit and
    at most one nnx.grad, whose [stateful] agree, and any number of nnx.remat and
    nnx.scan in any order, does what the transforms do one after the other. *)
Theorem C77_composes_partial :
  forall F JO GO RO SO (B : behaviours F JO GO RO SO) ds f,
  at_most_one is_jit ds -> at_most_one is_grad ds -> flags_equal ds ->
  call_of (decorated B ds (plain_fun None f)) = meaning B ds f.
Proof. intros F JO GO RO SO B ds f HJ HG HF. now apply composes. Qed.
Print Assumptions C77_composes_partial.

(** The full claim, without the premises, is false.  An nnx.jit above another
    nnx.jit is the inner one: its options and everything in between have no
    effect; the same for nnx.grad. *)
Theorem C77_jit_above_jit :
  forall F JO GO RO SO (B : behaviours F JO GO RO SO) o stateful between o' stateful' below p,
  call_of (decorated B (DJit o stateful :: between ++ DJit o' stateful' :: below) p) = call_of (decorated B (DJit o' stateful' :: below) p).
Proof.
  intros F JO GO RO SO B o st between o' st' below p. change (DJit o st :: between ++ DJit o' st' :: below) with ([DJit o st] ++ between ++ DJit o' st' :: below).
  rewrite !dec_app. apply jit_jit.
Qed.
Print Assumptions C77_jit_above_jit.
Theorem C77_grad_above_grad :
  forall F JO GO RO SO (B : behaviours F JO GO RO SO) o stateful between o' stateful' below p,
  call_of (decorated B (DGrad o stateful :: between ++ DGrad o' stateful' :: below) p) = call_of (decorated B (DGrad o' stateful' :: below) p).
Proof.
  intros F JO GO RO SO B o st between o' st' below p. change (DGrad o st :: between ++ DGrad o' st' :: below) with ([DGrad o st] ++ between ++ DGrad o' st' :: below).
  rewrite !dec_app. apply grad_grad.
Qed.
Print Assumptions C77_grad_above_grad.
(** Only the [stateful] of the innermost nnx.jit or nnx.grad counts; an attribute
    [stateful] of the function itself replaces them all. *)
Theorem C77_stateful_ignored :
  forall F JO GO RO SO (B : behaviours F JO GO RO SO) above above' d below p,
  Forall2 same_options above above' -> flag d <> None ->
  call_of (decorated B (above ++ d :: below) p) = call_of (decorated B (above' ++ d :: below) p).
Proof.
  intros F JO GO RO SO B above above' d below p H Hd. rewrite !dec_app. f_equal.
  assert (exists b, v_stateful (vars_of (decorated B (d :: below) p)) = Some b) as [b Hb].
  { cbn [decorated fold_right]. fold (decorated B below p). destruct d as [o st|o st|o|o]; cbn in Hd; try congruence; cbn [decorate nnx_jit nnx_grad vars_of vars_update v_stateful];
      destruct (v_stateful (vars_of (decorated B below p))); cbn [over]; eauto. }
  eapply flags_ignored; eauto.
Qed.
Print Assumptions C77_stateful_ignored.
Theorem C77_function_attribute :
  forall F JO GO RO SO (B : behaviours F JO GO RO SO) ds ds' b f,
  Forall2 same_options ds ds' -> call_of (decorated B ds (plain_fun (Some b) f)) = call_of (decorated B ds' (plain_fun (Some b) f)).
Proof. intros F JO GO RO SO B ds ds' b f H. f_equal. eapply flags_ignored; [exact H|reflexivity]. Qed.
Print Assumptions C77_function_attribute.

(** What that means for the module: [nnx.jit(nnx.grad(f), stateful=False)] updates
    the module, and [nnx.jit(nnx.grad(nnx.jit(f)))] returns the loss, not the
    gradients. *)
Definition ex_step : nnx_function := fun args kwargs w r =>
  user_fun (Do (CGet 0 "inp") (fun _ => Do (CGet 1 "norm") (fun _ => Do (CSet 2 "mean" (arr 77)) (fun _ => Finish (Ok (GVal (PyObj Array_cls 3))))))) w r.
Definition ex_layers : behaviours nnx_function (list string * trace_state) (filt * bool * trace_state) False False :=
  nnx_layers ex_info (fun _ _ => PyObj Array_cls 500).
Theorem C77_stateful_refuted :
  exists (o : list string * trace_state) (g : filt * bool * trace_state),
  let ds := [DJit o false; DGrad g true] in
  exists w1 w2 x, meaning ex_layers ds ex_step [] [] ex_cyc 0 = (w1, Ok x) /\ call_of (decorated ex_layers ds (plain_fun None ex_step)) [] [] ex_cyc 0 = (w2, Ok x) /\
    look ex_cyc 0 ["inp"; "norm"; "mean"] <> SValue (stat 77) /\
    look w1 0 ["inp"; "norm"; "mean"] = look ex_cyc 0 ["inp"; "norm"; "mean"] /\ look w2 0 ["inp"; "norm"; "mean"] = SValue (stat 77).
Proof.
  exists ([], (7, 7)), (FType "Param", false, (7, 8)). do 3 eexists. split; [vm_compute; reflexivity|]. split; [vm_compute; reflexivity|].
  split; [vm_compute; discriminate|]. split; vm_compute; reflexivity.
Qed.
Print Assumptions C77_stateful_refuted.
Theorem C77_gradients_refuted :
  exists (o o' : list string * trace_state) (g : filt * bool * trace_state),
  let ds := [DJit o true; DGrad g true; DJit o' true] in
  exists w1 w2 l, meaning ex_layers ds ex_step [] [] ex_cyc 0 = (w1, Ok (GDict l)) /\ map fst l = ["inp/w"; "out/w"; "w"] /\
    call_of (decorated ex_layers ds (plain_fun None ex_step)) [] [] ex_cyc 0 = (w2, Ok (GVal (PyObj Array_cls 3))).
Proof.
  exists ([], (7, 7)), ([], (7, 9)), (FType "Param", false, (7, 8)). do 3 eexists. split; [vm_compute; reflexivity|]. split; vm_compute; reflexivity.
Qed.
Print Assumptions C77_gradients_refuted.

(** One decorator is the transform of C71 or C76 with the options given: the static
    names, the trace, the filter and has_aux.  Keyword arguments reach a jitted
    function and are refused by grad. *)
Theorem C77_one_jit :
  forall ai lg names t st f args kwargs w r,
  call_of (decorated (nnx_layers ai lg) [DJit (names, t) st] (plain_fun None f)) args kwargs w r =
    (fst (fst (jit_call_args names st t f w (ARaw (PyMod r)) args kwargs [])), snd (jit_call_args names st t f w (ARaw (PyMod r)) args kwargs [])).
Proof.
  intros ai lg names t st f args kwargs w r. change (jit_layer (names, t) st st f args kwargs w r = (fst (fst (jit_call_args names st t f w (ARaw (PyMod r)) args kwargs [])), snd (jit_call_args names st t f w (ARaw (PyMod r)) args kwargs []))).
  unfold jit_layer. rewrite Bool.eqb_reflx. cbn [fst snd]. destruct (jit_call_args _ _ _ _ _ _ _ _ _) as [[w' n] res]. reflexivity.
Qed.
Print Assumptions C77_one_jit.
Theorem C77_one_grad :
  forall ai lg wrt has_aux t st f args w r,
  call_of (decorated (nnx_layers ai lg) [DGrad (wrt, has_aux, t) st] (plain_fun None f)) args [] w r =
    (fst (grad_args st has_aux false false ai wrt t lg (fun a => f a []) w (ARaw (PyMod r)) args),
     rmap grads_arg (snd (grad_args st has_aux false false ai wrt t lg (fun a => f a []) w (ARaw (PyMod r)) args))).
Proof.
  intros ai lg wrt ha t st f args w r. cbn. unfold grad_layer. rewrite Bool.eqb_reflx. now destruct (grad_args _ _ _ _ _ _ _ _ _ _ _ _) as [w' [res|e]].
Qed.
Print Assumptions C77_one_grad.
Theorem C77_grad_keywords :
  forall ai lg o st f args kwargs w r, kwargs <> [] ->
  call_of (decorated (nnx_layers ai lg) [DGrad o st] (plain_fun None f)) args kwargs w r = (w, Err TypeError).
Proof. intros ai lg o st f args [|k kwargs] w r H; [congruence|reflexivity]. Qed.
Print Assumptions C77_grad_keywords.

(** Example: a stack that composes. *)
Example C77_example :
  let ds := [DJit ([] : list string, (7, 7) : trace_state) true; DGrad (FType "Param", false, (7, 8) : trace_state) true] in
  at_most_one (SO := False) (RO := False) is_jit ds /\ at_most_one (SO := False) (RO := False) is_grad ds /\ flags_equal (SO := False) (RO := False) ds /\
  exists w l, call_of (decorated ex_layers ds (plain_fun None ex_step)) [] [] ex_cyc 0 = (w, Ok (GDict l)) /\
    map fst l = ["inp/w"; "out/w"; "w"] /\ look w 0 ["inp"; "norm"; "mean"] = SValue (stat 77).
Proof.
  split; [|split; [|split]].
  - intros [|a [|b l1]] d l2 d' l3 E Hd Hd'; cbn in E.
    + injection E as <- E. destruct l2 as [|x [|y l2]]; cbn in E; try discriminate. injection E as <- _. exact Hd'.
    + injection E as _ <- E. destruct Hd.
    + destruct l1; discriminate.
  - intros [|a [|b l1]] d l2 d' l3 E Hd Hd'; cbn in E.
    + injection E as <- E. destruct Hd.
    + injection E as _ <- E. destruct l2; discriminate.
    + destruct l1; discriminate.
  - intros d d' b b' [<-|[<-|[]]] [<-|[<-|[]]] [= <-] [= <-]; reflexivity.
  - do 2 eexists. split; [vm_compute; reflexivity|]. split; vm_compute; reflexivity.
Qed.
