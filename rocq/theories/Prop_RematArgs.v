(** Prop_RematArgs: C74, the arguments and results of nnx.remat, and nnx.Remat. *)
From Coq Require Import ZArith Lia.
From Verif Require Import PyBase PyBaseFacts ValuesM Spec_Eq FiltersM StateM ModuleM ContextM TransformM JitArgsM SpmdM ScanM RematArgsM Spec_Module Spec_Prog Spec_JitArgs Spec_RematArgs.
From Verif Require Import Context_proofs Graph_facts Transform_proofs JitArgs_proofs RematArgs_proofs Ex_Module Prop_Transform Prop_JitArgs.
Local Open Scope string_scope.
Local Open Scope list_scope.

(** *** C74 *)
(** A function that, called directly, returns arrays and leaves arrays in the
    module, returns the same through remat and has the same effect, with any
    context.  The arguments designated by static_argnums may be anything. *)
Theorem C74_remat_arguments :
  forall a t (f : list arg -> option pctx -> prog arg) w r args ctx ss pc ss' wd out,
  ok_prog (f args pc) -> wf_world w -> r < List.length (w_heap w) -> names_ok w r -> live w r ->
  ctx_given (w_trace w) ctx ss pc ss' -> nums_ok a (List.length args) -> remat_args_ok w r a args ->
  user_fun (f args pc) w r = (wd, Ok out) -> nodes_only w wd r -> names_ok wd r -> jax_arg out -> jax_module wd r ->
  exists w', remat_args (remat_options a) t (fun x c => user_fun (f x c)) w r args ctx ss = (w', ss', Ok out) /\
    (forall p, look w' r p = look wd r p) /\ (forall p, follow w' r p = follow wd r p) /\ get_state w' r = get_state wd r /\
    w_trace w' = w_trace w /\ (forall x o, get_obj w x = Some o -> ~ reaches w r x -> get_obj w' x = Some o).
Proof.
  intros a t f w r args ctx ss pc ss' wd out Hf W V N L C H G Hrun HN Nd Ho Hm.
  destruct (C46_jit _ (f args pc) w r t wd out Hf W V N L Hrun HN Nd) as (w' & E & R). exists w'. split; [|exact R].
  rewrite (rthrough_ok a t f w r args ctx ss pc ss' Hf W V N L C (nums_in _ _ H) G wd out Hrun Nd Ho Hm), E. reflexivity.
Qed.
Print Assumptions C74_remat_arguments.

(** An exception of the function comes out, and so does a TypeError if the
    function returns something else than arrays or leaves it in the module; no
    object that existed has changed. *)
Theorem C74_exception :
  forall a t (f : list arg -> option pctx -> prog arg) w r args ctx ss pc ss' wd e,
  ok_prog (f args pc) -> wf_world w -> r < List.length (w_heap w) -> names_ok w r -> live w r ->
  ctx_given (w_trace w) ctx ss pc ss' -> nums_ok a (List.length args) -> remat_args_ok w r a args ->
  user_fun (f args pc) w r = (wd, Err e) ->
  exists w', remat_args (remat_options a) t (fun x c => user_fun (f x c)) w r args ctx ss = (w', ss', Err e) /\
    all_unchanged w w' /\ w_trace w' = w_trace w.
Proof. intros. eapply rthrough_raises; eauto. now apply nums_in. Qed.
Print Assumptions C74_exception.
Theorem C74_bad_result :
  forall a t (f : list arg -> option pctx -> prog arg) w r args ctx ss pc ss' wd out,
  ok_prog (f args pc) -> wf_world w -> r < List.length (w_heap w) -> names_ok w r -> live w r ->
  ctx_given (w_trace w) ctx ss pc ss' -> nums_ok a (List.length args) -> remat_args_ok w r a args ->
  user_fun (f args pc) w r = (wd, Ok out) -> names_ok wd r -> ~ (jax_arg out /\ jax_module wd r) ->
  exists w', remat_args (remat_options a) t (fun x c => user_fun (f x c)) w r args ctx ss = (w', ss', Err TypeError) /\
    all_unchanged w w' /\ w_trace w' = w_trace w.
Proof. intros. eapply rthrough_bad; eauto. now apply nums_in. Qed.
Print Assumptions C74_bad_result.

(** Anything else than arrays among the arguments that are not static, or in the
    Variables of the module, is refused with TypeError, whatever the function is.
    The context has been forked. *)
Theorem C74_refused :
  forall a t (fn : rematted) w r args ctx ss pc ss',
  wf_world w -> r < List.length (w_heap w) -> names_ok w r -> ctx_given (w_trace w) ctx ss pc ss' ->
  nums_ok a (List.length args) -> ~ remat_args_ok w r a args ->
  remat_args (remat_options a) t fn w r args ctx ss = (w, ss', Err TypeError).
Proof. intros. now apply remat_not_arrays with (pc := pc). Qed.
Print Assumptions C74_refused.
(** A number below [-n-2] or above [n-1], [n] being the number of arguments of the
    call, is refused with ValueError. *)
Theorem C74_out_of_range :
  forall a t (fn : rematted) w r args ctx ss pc ss' z,
  wf_world w -> r < List.length (w_heap w) -> ctx_given (w_trace w) ctx ss pc ss' -> given_num a z ->
  (z < - (Z.of_nat (List.length args) + 2) \/ Z.of_nat (List.length args) <= z)%Z ->
  remat_args (remat_options a) t fn w r args ctx ss = (w, ss', Err ValueError).
Proof. intros a t fn w r args ctx ss pc ss' z W V C Hz R. apply (remat_range a t fn w r args ctx ss pc ss' z W V C Hz). lia. Qed.
Print Assumptions C74_out_of_range.
(** The claim that every number that designates no argument is refused is false:
    [-n-1] and [-n-2] designate the keys and the State of the module, so that the
    call goes through, for every function and all arguments. *)
Theorem C74_range_refuted :
  forall t (f : list arg -> option pctx -> prog arg) w r args ctx ss pc ss' wd out z,
  (z = - (Z.of_nat (List.length args) + 1) \/ z = - (Z.of_nat (List.length args) + 2))%Z ->
  ok_prog (f args pc) -> wf_world w -> r < List.length (w_heap w) -> names_ok w r -> live w r ->
  ctx_given (w_trace w) ctx ss pc ss' -> jax_module w r -> Forall jax_arg args ->
  user_fun (f args pc) w r = (wd, Ok out) -> nodes_only w wd r -> names_ok wd r -> jax_arg out -> jax_module wd r ->
  ~ nums_ok (NumInt z) (List.length args) /\
  exists w', remat_args (remat_options (NumInt z)) t (fun x c => user_fun (f x c)) w r args ctx ss = (w', ss', Ok out) /\
    (forall p, look w' r p = look wd r p).
Proof.
  intros t f w r args ctx ss pc ss' wd out z Hz Hf W V N L C G1 G2 Hrun HN Nd Ho Hm. split.
  - intros H. destruct (H z eq_refl) as (i & Hi & K). lia.
  - destruct (C46_jit _ (f args pc) w r t wd out Hf W V N L Hrun HN Nd) as (w' & E & R & _). exists w'. split; [|exact R].
    rewrite (rthrough_ok (NumInt z) t f w r args ctx ss pc ss' Hf W V N L C) with (wd := wd) (out := out); auto.
    + now rewrite E.
    + intros z' ->. lia.
    + split; [exact G1|]. intros i x Hx _. rewrite Forall_forall in G2. apply G2. eapply nth_error_In; eauto.
Qed.
Print Assumptions C74_range_refuted.
(** A context of another trace raises TraceContextError and is not forked. *)
Theorem C74_foreign_context :
  forall nums t (fn : rematted) w r args x ss, wf_world w -> r < List.length (w_heap w) -> x_trace x <> w_trace w ->
  remat_args nums t fn w r args (Some x) ss = (w, ss, Err TraceContextError).
Proof.
  intros nums t fn w r args x ss W V T. destruct (partition_all w r W V) as (p & s & P & _). unfold remat_args. rewrite P. unfold context_partition.
  destruct (trace_ok (w_trace w) (x_trace x)) eqn:E; [|reflexivity]. apply trace_ok_iff in E. congruence.
Qed.
Print Assumptions C74_foreign_context.

(** [nnx.Remat(M)( *args)]: a new object that holds the module made by the
    constructor, which runs where the new object already exists but nothing else
    has changed. *)
Theorem C74_class :
  forall ctor cv ov w, exists w1 r,
  get_obj w r = None /\ w_trace w1 = w_trace w /\ w_nodes w1 = w_nodes w /\ all_unchanged w w1 /\
  (forall w2 m, ctor w1 = (w2, Ok m) -> get_obj w2 r = get_obj w1 r -> w_trace w2 = w_trace w ->
     exists w3, remat_new ctor cv ov w = (w3, Ok r) /\ getattr w3 r "remat_module" = Ok (RVal (PyMod m)) /\
       (forall x, x <> r -> get_obj w3 x = get_obj w2 x) /\ w_trace w3 = w_trace w /\ w_nodes w3 = w_nodes w2) /\
  (forall w2 e, ctor w1 = (w2, Err e) -> remat_new ctor cv ov w = (w2, Err e)).
Proof.
  intros ctor cv ov w. destruct (remat_start w cv ov) as (w1 & S1 & S2 & S3 & S4 & S5). exists w1, (List.length (w_heap w)).
  split; [apply nth_error_None; lia|]. do 3 (split; [assumption|]). split.
  - intros w2 m E G T. rewrite S2 in G. cbn [new_module snd] in S1. unfold remat_new. cbn [new_module]. rewrite S1, E.
    pose proof (setattr_ok w2 _ "remat_module" (ARaw (PyMod m)) _ (ARaw (PyMod m)) G) as SA. rewrite SA; [|cbn; congruence|discriminate|reflexivity].
    eexists. split; [reflexivity|]. split; [unfold getattr; rewrite (get_put_same _ _ _ _ G); reflexivity|].
    split; [intros x Hx; apply get_put_other; congruence|]. auto.
  - intros w2 e E. cbn [new_module snd] in S1. unfold remat_new. cbn [new_module]. now rewrite S1, E.
Qed.
Print Assumptions C74_class.
(** Calling the object (or a method of it) is calling the module it holds. *)
Theorem C74_class_call :
  forall a t (f : list arg -> option pctx -> prog arg) w r m args ctx ss pc ss' wd out,
  getattr w r "remat_module" = Ok (RVal (PyMod m)) ->
  ok_prog (f args pc) -> wf_world w -> m < List.length (w_heap w) -> names_ok w m -> live w m ->
  ctx_given (w_trace w) ctx ss pc ss' -> nums_ok a (List.length args) -> remat_args_ok w m a args ->
  user_fun (f args pc) w m = (wd, Ok out) -> nodes_only w wd m -> names_ok wd m -> jax_arg out -> jax_module wd m ->
  exists w', remat_call a t (fun x c => user_fun (f x c)) w r args ctx ss = (w', ss', Ok out) /\
    (forall p, look w' m p = look wd m p) /\ (forall p, follow w' m p = follow wd m p) /\ get_state w' m = get_state wd m /\
    w_trace w' = w_trace w /\ (forall x o, get_obj w x = Some o -> ~ reaches w m x -> get_obj w' x = Some o).
Proof. intros a t f w r m args ctx ss pc ss' wd out E. unfold remat_call. rewrite E. apply C74_remat_arguments. Qed.
Print Assumptions C74_class_call.

(** Example: the second of three arguments is a string, and static. *)
Definition ex_rargs : list arg := [GVal (PyObj Array_cls 77); GVal (PyStr "fast"); GKey (KSeed 4)].
Definition ex_rfun (args : list arg) (pc : option pctx) : prog arg := ex_jarg [nth 0 args (GVal PyNone); nth 2 args (GVal PyNone)] [].
Definition ex_rctx : context := mkCtx [("dropout", 0)] [("train", true)] (0, 0).
Example C74_example :
  remat_args_ok ex_cyc 0 (NumInt (-2)%Z) ex_rargs /\ nums_ok (NumInt (-2)%Z) 3 /\ ~ remat_args_ok ex_cyc 0 (NumInt 0%Z) ex_rargs /\
  exists wd out, user_fun (ex_rfun ex_rargs None) ex_cyc 0 = (wd, Ok out) /\ jax_arg out /\ look wd 0 ["out"; "norm"; "mean"] = SValue (stat 77) /\
  exists w', remat_args (remat_options (NumInt (-2)%Z)) (7, 7) (fun a c => user_fun (ex_rfun a c)) ex_cyc 0 ex_rargs (Some ex_rctx) [mkStream (KSeed 1) 4 []] =
      (w', [mkStream (KSeed 1) 5 []], Ok out) /\ look w' 0 ["out"; "norm"; "mean"] = SValue (stat 77) /\
  (* position 1, a tuple *)
  (exists w', remat_args (remat_options (NumTuple [1%Z])) (7, 7) (fun a c => user_fun (ex_rfun a c)) ex_cyc 0 ex_rargs None [] = (w', [], Ok out)) /\
  (* not static *)
  remat_args (remat_options (NumInt 0%Z)) (7, 7) (fun a c => user_fun (ex_rfun a c)) ex_cyc 0 ex_rargs None [] = (ex_cyc, [], Err TypeError) /\
  remat_args (remat_options (NumInt 3%Z)) (7, 7) (fun a c => user_fun (ex_rfun a c)) ex_cyc 0 ex_rargs None [] = (ex_cyc, [], Err ValueError).
Proof.
  assert (J : jax_module ex_cyc 0) by (apply ex_cyc_jax; now left).
  split.
  { split; [exact J|]. intros [|[|[|[|i]]]] x Hx Hs; try discriminate; injection Hx as <-.
    - intros l Hl. inversion Hl as [v x Hv| | | | | | |]; subst. inversion Hv; subst. cbn. auto.
    - exfalso. apply Hs. split; [cbn; lia|]. exists (-2)%Z. split; [reflexivity|right; reflexivity].
    - intros l Hl. inversion Hl; subst. exact Logic.I. }
  split. { intros z ->. exists 1. split; [lia|right; reflexivity]. }
  split. { intros [_ H]. specialize (H 1 (GVal (PyStr "fast")) eq_refl). refine (H _ (LVal (PyStr "fast")) _).
    - intros (_ & z & -> & [K|K]); cbn in K; lia.
    - constructor. constructor; congruence. }
  do 2 eexists. split; [vm_compute; reflexivity|]. split.
  { intros l Hl. inversion Hl as [| | | | |d a x Hin Hl2| |]; subst. destruct Hin as [<-|[<-|[]]]; inversion Hl2 as [v x Hv| | | | | | |]; subst; try exact Logic.I.
    inversion Hv; subst. exact Logic.I. }
  split; [vm_compute; reflexivity|]. eexists. split; [vm_compute; reflexivity|]. split; [vm_compute; reflexivity|].
  split; [eexists; vm_compute; reflexivity|]. split; vm_compute; reflexivity.
Qed.
(** a class *)
Example C74_class_example :
  let ctor w := let (m, w1) := new_module w ["Block"; "Module"] in
                match setattr w1 m "w" (param 5) with Ok w2 => (w2, Ok m) | Err e => (w1, Err e) end in
  exists w3 m w', remat_new ctor (PyStr "Block") PyNone ex_cyc = (w3, Ok (List.length (w_heap ex_cyc))) /\
    getattr w3 (List.length (w_heap ex_cyc)) "remat_module" = Ok (RVal (PyMod m)) /\
    remat_call (NumTuple []) (7, 7) (fun a c => user_fun (Do (CSet 0 "w" (ARaw (PyObj Array_cls 6))) (fun _ => Finish (Ok (GVal PyNone)))))
      w3 (List.length (w_heap ex_cyc)) [] None [] = (w', [], Ok (GVal PyNone)) /\
    look w' (List.length (w_heap ex_cyc)) ["remat_module"; "w"] = SValue (param 6).
Proof. do 3 eexists. split; [vm_compute; reflexivity|]. split; [vm_compute; reflexivity|]. split; vm_compute; reflexivity. Qed.
