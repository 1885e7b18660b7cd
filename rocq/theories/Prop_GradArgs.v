(** Prop_GradArgs: C76, the arguments and results of nnx.grad. *)
From Coq Require Import ZArith Lia.
From Verif Require Import PyBase PyBaseFacts ValuesM Spec_Eq FiltersM StateM ModuleM ContextM TransformM JitArgsM GradArgsM Spec_Module Spec_Prog Spec_JitArgs Spec_GradArgs.
From Verif Require Import Clone_proofs Laws_proofs Bisim_proofs Graph_facts Transform_proofs JitArgs_proofs GradArgs_proofs Ex_Module Prop_Transform Prop_JitArgs.
Local Open Scope string_scope.
Local Open Scope list_scope.

(** *** C76 *)
(** A function that returns one real number (or, with has_aux, a pair of one and
    anything) gets the arguments as they are given, whatever they are.  The
    result has one entry for each value selected by [wrt], of the same container
    class and metadata, and the auxiliary value as it was returned; the module is
    left as by a direct call.  Only the values selected by [wrt] have to be
    numbers. *)
Theorem C76_grad_arguments :
  forall has_aux h ii ai wrt t g (f : list arg -> prog arg) w r args wd out aux,
  ok_prog (f args) -> wf_world w -> r < List.length (w_heap w) -> names_ok w r -> live w r -> (exists pred, to_predicate wrt = Ok pred) ->
  wrt_ok h ii ai w r wrt ->
  user_fun (f args) w r = (wd, Ok out) -> nodes_only w wd r -> names_ok wd r -> returns has_aux h ai out aux ->
  exists w' diff grads, module_filter w r wrt [] = Ok (One diff) /\
    grad_args true has_aux h ii ai wrt t g (fun a => user_fun (f a)) w (ARaw (PyMod r)) args = (w', Ok (grads, aux)) /\
    keys grads = keys diff /\
    (forall k a, dget k diff = Some a -> exists b, dget k grads = Some b /\ same_wrapper a b) /\
    (forall p, look w' r p = look wd r p) /\ (forall p, follow w' r p = follow wd r p) /\
    (forall x o, get_obj w x = Some o -> ~ reaches w r x -> get_obj w' x = Some o) /\ w_trace w' = w_trace w.
Proof.
  intros ha h ii ai wrt t g f w r args wd out aux Hf W V N L [pred P] G Hrun HN Nd R.
  destruct (gthrough true ha h ii ai wrt t g f w r args pred Hf W V N L P G) as (diff & m & w2 & wd' & res & Hfl & W2 & N2 & E & Wd & Vd & Un & St & V2 & C).
  rewrite Hrun in E. injection E as <- <-. destruct (split_returns true ha h ai out aux R) as (loss & S1 & S2).
  destruct (get_state_total wd r Wd Vd) as (u & U & _). rewrite S1, S2, U in C. cbn [negb] in C.
  destruct (transfer w wd (set_trace w2 (w_trace w)) r u W V N L Wd Nd HN) as (w' & F & W' & T & N' & B & Fr); auto using set_trace_wf.
  rewrite F in C. cbn in C. destruct (get_obj_ex _ _ V) as [o Ho]. assert (Hrr : reaches w r r) by (eapply reaches_refl; eauto).
  exists w', diff, (grad_tree g diff). split; [exact Hfl|]. split; [exact C|]. split; [apply grad_tree_keys|].
  split. { intros k a Hk. eexists. split; [apply grad_tree_get; exact Hk|]. destruct a; cbn; auto. }
  split; [intros p; exact (bisim_look _ _ _ p B r r (conj eq_refl Hrr))|].
  split. { intros p. pose proof (bisim_follow_iff _ _ _ p B r r (conj eq_refl Hrr)) as K.
    destruct (follow w' r p), (follow wd r p); try contradiction; [destruct K as [-> _]|]; reflexivity. }
  auto.
Qed.
Print Assumptions C76_grad_arguments.

(** With stateful=False the result is the same and nothing changes. *)
Theorem C76_stateless :
  forall has_aux h ii ai wrt t g (f : list arg -> prog arg) w r args wd out aux,
  ok_prog (f args) -> wf_world w -> r < List.length (w_heap w) -> names_ok w r -> live w r -> (exists pred, to_predicate wrt = Ok pred) ->
  wrt_ok h ii ai w r wrt -> user_fun (f args) w r = (wd, Ok out) -> returns has_aux h ai out aux ->
  exists w' diff grads, module_filter w r wrt [] = Ok (One diff) /\
    grad_args false has_aux h ii ai wrt t g (fun a => user_fun (f a)) w (ARaw (PyMod r)) args = (w', Ok (grads, aux)) /\
    keys grads = keys diff /\
    (forall k a, dget k diff = Some a -> exists b, dget k grads = Some b /\ same_wrapper a b) /\
    all_unchanged w w' /\ w_trace w' = w_trace w.
Proof.
  intros ha h ii ai wrt t g f w r args wd out aux Hf W V N L [pred P] G Hrun R.
  destruct (gthrough false ha h ii ai wrt t g f w r args pred Hf W V N L P G) as (diff & m & w2 & wd' & res & Hfl & W2 & N2 & E & Wd & Vd & Un & St & V2 & C).
  rewrite Hrun in E. injection E as <- <-. destruct (split_returns false ha h ai out aux R) as (loss & S1 & S2). rewrite S1, S2 in C. cbn [negb] in C.
  exists (set_trace w2 (w_trace w)), diff, (grad_tree g diff). split; [exact Hfl|]. split; [exact C|]. split; [apply grad_tree_keys|].
  split; [|auto]. intros k a Hk. eexists. split; [apply grad_tree_get; exact Hk|]. destruct a; cbn; auto.
Qed.
Print Assumptions C76_stateless.

(** An exception of the function comes out; a function that returns something else
    than a real number (or a pair of one and anything) raises TypeError or
    ValueError.  No object that existed has changed. *)
Theorem C76_exception :
  forall stateful has_aux h ii ai wrt t g (f : list arg -> prog arg) w r args wd e,
  ok_prog (f args) -> wf_world w -> r < List.length (w_heap w) -> names_ok w r -> live w r -> (exists pred, to_predicate wrt = Ok pred) ->
  wrt_ok h ii ai w r wrt -> user_fun (f args) w r = (wd, Err e) ->
  exists w', grad_args stateful has_aux h ii ai wrt t g (fun a => user_fun (f a)) w (ARaw (PyMod r)) args = (w', Err e) /\
    all_unchanged w w' /\ w_trace w' = w_trace w.
Proof.
  intros st ha h ii ai wrt t g f w r args wd e Hf W V N L [pred P] G Hrun.
  destruct (gthrough st ha h ii ai wrt t g f w r args pred Hf W V N L P G) as (diff & m & w2 & wd' & res & Hfl & W2 & N2 & E & Wd & Vd & Un & St & V2 & C).
  rewrite Hrun in E. injection E as <- <-. exists (set_trace w2 (w_trace w)). split; [exact C|]. split; [exact Un|reflexivity].
Qed.
Print Assumptions C76_exception.
Theorem C76_bad_result :
  forall stateful has_aux h ii ai wrt t g (f : list arg -> prog arg) w r args wd out,
  ok_prog (f args) -> wf_world w -> r < List.length (w_heap w) -> names_ok w r -> live w r -> (exists pred, to_predicate wrt = Ok pred) ->
  wrt_ok h ii ai w r wrt -> user_fun (f args) w r = (wd, Ok out) -> (forall aux, ~ returns has_aux h ai out aux) ->
  (has_aux = true -> ~ big_array ai out) ->
  exists w' e, grad_args stateful has_aux h ii ai wrt t g (fun a => user_fun (f a)) w (ARaw (PyMod r)) args = (w', Err e) /\
    (e = TypeError \/ has_aux = true /\ stateful = true /\ e = ValueError) /\
    (has_aux = true -> stateful = true -> forall n, items out n -> n <> 2 -> e = ValueError) /\
    all_unchanged w w' /\ w_trace w' = w_trace w.
Proof.
  intros st ha h ii ai wrt t g f w r args wd out Hf W V N L [pred P] G Hrun B Big.
  destruct (gthrough st ha h ii ai wrt t g f w r args pred Hf W V N L P G) as (diff & m & w2 & wd' & res & Hfl & W2 & N2 & E & Wd & Vd & Un & St & V2 & C).
  rewrite Hrun in E. injection E as <- <-. exists (set_trace w2 (w_trace w)).
  destruct (split_bad st ha h ai out Big) as [(e & S1 & S2)|(loss & aux & S1 & S2)].
  - intros (aux & K). exact (B aux K).
  - rewrite S1 in C. exists e. split; [exact C|]. split; [|split; [|split; [exact Un|reflexivity]]].
    + unfold split_out in S1. destruct ha; [|discriminate]. destruct S2 as [->| ->]; [now left|right]. split; [reflexivity|]. split; [|reflexivity].
      destruct (unpack_arg st ai out) as [x|e] eqn:U; [discriminate|]. injection S1 as ->. now apply unpack_value in U.
    + intros -> -> n Hl N3. exact (split_items ai out n Hl N3 _ S1).
  - rewrite S1, S2 in C. cbn [negb] in C. exists TypeError. split; [exact C|]. split; [now left|]. split; [|split; [exact Un|reflexivity]].
    intros -> -> n Hl N3. exfalso. exact (split_items_ok ai out n Hl N3 _ S1).
Qed.
Print Assumptions C76_bad_result.

(** If a value selected by [wrt] is no number that may be differentiated, the call
    is refused with TypeError, whatever the function is; integers need allow_int. *)
Theorem C76_refused :
  forall stateful has_aux h ii ai wrt t g (fn : gradded) w r args,
  wf_world w -> r < List.length (w_heap w) -> (exists pred, to_predicate wrt = Ok pred) -> ~ wrt_ok h ii ai w r wrt ->
  grad_args stateful has_aux h ii ai wrt t g fn w (ARaw (PyMod r)) args = (w, Err TypeError).
Proof.
  intros st ha h ii ai wrt t g fn w r args W V [pred P] B.
  destruct (grad_parts w r wrt pred W V P) as (diff & nondiff & p & Hp & Es & Hfl). unfold grad_args. rewrite P, Hp, Es.
  destruct (forallb (diff_ok h ii ai) (state_leaves diff)) eqn:E; [|reflexivity]. exfalso. apply B.
  apply (wrt_ok_spec h ii ai w r wrt diff Hfl (filter_nodup w r wrt diff W V Hfl)). exact E.
Qed.
Print Assumptions C76_refused.
(** Anything else than a Module as first argument raises TypeError; what is no
    filter raises when the decorator is applied. *)
Theorem C76_not_a_module :
  forall stateful has_aux h ii ai wrt t g (fn : gradded) w m args, (forall r, m <> ARaw (PyMod r)) ->
  grad_args stateful has_aux h ii ai wrt t g fn w m args = (w, Err (match to_predicate wrt with Ok _ => TypeError | Err e => e end)).
Proof.
  intros st ha h ii ai wrt t g fn w m args M. unfold grad_args. destruct (to_predicate wrt); [|reflexivity].
  destruct m as [[]|]; try reflexivity. now destruct (M r).
Qed.
Print Assumptions C76_not_a_module.

(** Example: the arguments are a string, the module itself and a Context; the
    auxiliary value is a dict of strings. *)
Definition ex_info : array_info := mkInfo (fun v => match v with PyObj _ 9 => KInteger | _ => KReal end) (fun v => match v with PyObj _ 3 => true | _ => false end).
Definition ex_gargs : list arg := [GVal (PyStr "fast"); GVal (PyMod 0); GCtx (mkCtx [("dropout", 0)] [] (0, 0))].
Definition ex_gfun (args : list arg) : prog arg :=
  Do (CGet 0 "inp") (fun _ => Do (CGet 1 "norm") (fun _ => Do (CSet 2 "mean" (arr 77)) (fun _ =>
  Finish (Ok (GTuple [GVal (PyObj Array_cls 3); GDict [("mode", nth 0 args (GVal PyNone))]]))))).
Example C76_example :
  ok_prog (ex_gfun ex_gargs) /\ wrt_ok false false ex_info ex_cyc 0 (FType "Param") /\
  user_fun (ex_gfun ex_gargs) ex_cyc 0 = (ex_loss_world, Ok (GTuple [GVal (PyObj Array_cls 3); GDict [("mode", GVal (PyStr "fast"))]])) /\
  returns true false ex_info (GTuple [GVal (PyObj Array_cls 3); GDict [("mode", GVal (PyStr "fast"))]]) (Some (GDict [("mode", GVal (PyStr "fast"))])) /\
  (exists w' grads, grad_args true true false false ex_info (FType "Param") (0, 7) (fun _ _ => PyObj Array_cls 500) (fun a => user_fun (ex_gfun a)) ex_cyc (ARaw (PyMod 0)) ex_gargs =
    (w', Ok (grads, Some (GDict [("mode", GVal (PyStr "fast"))]))) /\ keys grads = ["inp/w"; "out/w"; "w"] /\ look w' 0 ["out"; "norm"; "mean"] = SValue (stat 77)) /\
  (* the pair taken as the loss *)
  (forall aux, ~ returns false false ex_info (GTuple [GVal (PyObj Array_cls 3); GDict [("mode", GVal (PyStr "fast"))]]) aux) /\
  (exists w', grad_args true false false false ex_info (FType "Param") (0, 7) (fun _ _ => PyObj Array_cls 500) (fun a => user_fun (ex_gfun a)) ex_cyc (ARaw (PyMod 0)) ex_gargs =
    (w', Err TypeError)) /\
  (* holomorphic *)
  ~ wrt_ok true false ex_info ex_cyc 0 (FType "Param").
Proof.
  assert (F : exists s, module_filter ex_cyc 0 (FType "Param") [] = Ok (One s) /\ forallb (diff_ok false false ex_info) (state_leaves s) = true /\
             forallb (diff_ok true false ex_info) (state_leaves s) = false) by (eexists; split; [vm_compute; reflexivity|split; vm_compute; reflexivity]).
  destruct F as (s & F & F1 & F2).
  assert (W : wf_world ex_cyc) by (apply wf_worldb_ok; vm_compute; reflexivity). assert (V : 0 < List.length (w_heap ex_cyc)) by (vm_compute; lia).
  pose proof (filter_nodup ex_cyc 0 _ s W V F) as ND.
  split. { unfold ex_gfun. repeat (apply ok_do; [first [exact Logic.I | split; [exact Logic.I|reflexivity]]|intros ? _]). constructor. }
  split; [now apply (wrt_ok_spec _ _ _ _ _ _ s F ND)|]. split; [vm_compute; reflexivity|]. split.
  { apply (ret_pair _ _ _ _ (GVal (PyObj Array_cls 3))); [reflexivity|constructor|]. apply loss_ok_spec. reflexivity. }
  split; [eexists _, _; split; [vm_compute; reflexivity|split; vm_compute; reflexivity]|]. split.
  { intros aux K. inversion K as [_ K1|]; [|discriminate]. apply loss_ok_spec in K1. discriminate. }
  split; [eexists; vm_compute; reflexivity|]. intros K. apply (wrt_ok_spec _ _ _ _ _ _ s F ND) in K. congruence.
Qed.
