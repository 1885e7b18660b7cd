(** Prop_JitArgs: C71, the arguments and results of nnx.jit. *)
From Coq Require Import ZArith Lia.
From Verif Require Import PyBase PyBaseFacts ValuesM Spec_Eq FiltersM StateM ModuleM ContextM TransformM JitArgsM Spec_Module Spec_Prog Spec_JitArgs.
From Verif Require Import Context_proofs Transform_proofs JitArgs_proofs Ex_Module Prop_Transform.
Local Open Scope string_scope.
Local Open Scope list_scope.

(** *** C71 *)
(** A jitted function called with arrays (and hashable static arguments), which
    called directly with the same arguments returns arrays and leaves arrays in
    the module, returns the same, and has the same effect on the module. *)
Theorem C71_jit_arguments :
  forall static t (f : list arg -> dict arg -> prog arg) w r args kwargs ss wd out,
  ok_prog (f args kwargs) -> wf_world w -> r < List.length (w_heap w) -> names_ok w r -> live w r ->
  no_context kwargs -> hashed static kwargs -> args_ok w r static args kwargs ->
  user_fun (f args kwargs) w r = (wd, Ok out) -> nodes_only w wd r -> names_ok wd r -> jax_arg out -> jax_module wd r ->
  exists w', jit_call_args static true t (fun a k => user_fun (f a k)) w (ARaw (PyMod r)) args kwargs ss = (w', ss, Ok out) /\
    (forall p, look w' r p = look wd r p) /\ (forall p, follow w' r p = follow wd r p) /\ get_state w' r = get_state wd r /\
    w_trace w' = w_trace w /\ (forall x o, get_obj w x = Some o -> ~ reaches w r x -> get_obj w' x = Some o).
Proof.
  intros static t f w r args kwargs ss wd out Hf W V N L C H G Hrun HN Nd Ho Hm.
  destruct (C46_jit _ (f args kwargs) w r t wd out Hf W V N L Hrun HN Nd) as (w' & E & R). exists w'. split; [|exact R].
  rewrite (through_ok static true t f w r args kwargs ss Hf W V N L C H G wd out Hrun (fun _ => Nd) Ho (fun _ => Hm)), E. reflexivity.
Qed.
Print Assumptions C71_jit_arguments.

(** An exception of the function comes out, and so does a TypeError if the
    function returns something else than arrays (a string, a Module, a Context)
    or, with stateful=True, leaves such a thing in a Variable.  In both cases
    nothing has been written. *)
Theorem C71_exception :
  forall static stateful t (f : list arg -> dict arg -> prog arg) w r args kwargs ss wd e,
  ok_prog (f args kwargs) -> wf_world w -> r < List.length (w_heap w) -> names_ok w r -> live w r ->
  no_context kwargs -> hashed static kwargs -> args_ok w r static args kwargs -> user_fun (f args kwargs) w r = (wd, Err e) ->
  exists w', jit_call_args static stateful t (fun a k => user_fun (f a k)) w (ARaw (PyMod r)) args kwargs ss = (w', ss, Err e) /\
    all_unchanged w w' /\ w_trace w' = w_trace w.
Proof. intros. eapply through_raises; eauto. Qed.
Print Assumptions C71_exception.
Theorem C71_bad_result :
  forall static stateful t (f : list arg -> dict arg -> prog arg) w r args kwargs ss wd out,
  ok_prog (f args kwargs) -> wf_world w -> r < List.length (w_heap w) -> names_ok w r -> live w r ->
  no_context kwargs -> hashed static kwargs -> args_ok w r static args kwargs ->
  user_fun (f args kwargs) w r = (wd, Ok out) -> (stateful = true -> names_ok wd r) ->
  ~ (jax_arg out /\ (stateful = true -> jax_module wd r)) ->
  exists w', jit_call_args static stateful t (fun a k => user_fun (f a k)) w (ARaw (PyMod r)) args kwargs ss = (w', ss, Err TypeError) /\
    all_unchanged w w' /\ w_trace w' = w_trace w.
Proof. intros. eapply through_bad; eauto. Qed.
Print Assumptions C71_bad_result.

(** Without stateful the module is unchanged and arrays are returned as by the
    direct call. *)
Theorem C71_stateless :
  forall static t (f : list arg -> dict arg -> prog arg) w r args kwargs ss wd out,
  ok_prog (f args kwargs) -> wf_world w -> r < List.length (w_heap w) -> names_ok w r -> live w r ->
  no_context kwargs -> hashed static kwargs -> args_ok w r static args kwargs ->
  user_fun (f args kwargs) w r = (wd, Ok out) -> jax_arg out ->
  exists w', jit_call_args static false t (fun a k => user_fun (f a k)) w (ARaw (PyMod r)) args kwargs ss = (w', ss, Ok out) /\
    all_unchanged w w' /\ w_trace w' = w_trace w.
Proof.
  intros static t f w r args kwargs ss wd out Hf W V N L C H G Hrun Ho.
  destruct (C46_stateless _ (f args kwargs) w r t wd (Ok out) Hf W V N L Hrun) as (w' & E & R). exists w'. split; [|exact R].
  rewrite (through_ok static false t f w r args kwargs ss Hf W V N L C H G wd out Hrun ltac:(discriminate) Ho ltac:(discriminate)), E. reflexivity.
Qed.
Print Assumptions C71_stateless.

(** Anything else than arrays among the arguments or in the Variables of the
    module is refused with TypeError, whatever the function is; a static argument
    without a hash with ValueError. *)
Theorem C71_refused :
  forall static stateful t (fn : jitted) w r args kwargs ss,
  wf_world w -> r < List.length (w_heap w) -> names_ok w r -> no_context kwargs -> hashed static kwargs -> ~ args_ok w r static args kwargs ->
  jit_call_args static stateful t fn w (ARaw (PyMod r)) args kwargs ss = (w, ss, Err TypeError).
Proof. intros. now apply refused_plain. Qed.
Print Assumptions C71_refused.
Theorem C71_no_hash :
  forall static stateful t (fn : jitted) w r args kwargs ss n a,
  wf_world w -> r < List.length (w_heap w) -> no_context kwargs -> In (n, a) kwargs -> In n static -> ~ has_hash a ->
  jit_call_args static stateful t fn w (ARaw (PyMod r)) args kwargs ss = (w, ss, Err ValueError).
Proof. intros static st t fn w r args kwargs ss n a. apply refused_hash. Qed.
Print Assumptions C71_no_hash.

(** The claim that a function may be given a context is false.  Whatever the
    function, the module, the other arguments and the static names are, a call
    with a usable Context as [ctx] raises without running the function - and yet
    the streams of the context have been forked. *)
Theorem C71_context_refuted :
  forall static stateful t (fn : jitted) w r args kwargs x ss,
  wf_world w -> r < List.length (w_heap w) -> dget "ctx" kwargs = Some (GCtx x) ->
  x_trace x = w_trace w -> (forall n i, In (n, i) (x_rngs x) -> i < List.length ss) ->
  (forall n a, In (n, a) kwargs -> n <> "ctx" -> In n static -> has_hash a) ->
  exists ss', forked x ss ss' /\ jit_call_args static stateful t fn w (ARaw (PyMod r)) args kwargs ss =
    (w, ss', Err (if in_dec string_dec "ctx" static then ValueError else TypeError)).
Proof.
  intros static st t fn w r args kwargs x ss W V C T S H. destruct (partition_total x ss (w_trace w) T S) as (pc & ss' & P).
  exists ss'. split; [eapply partition_forked; exact P|]. eapply refused_context; eauto.
Qed.
Print Assumptions C71_context_refuted.
(** A context of another trace raises TraceContextError, and is not forked. *)
Theorem C71_foreign_context :
  forall static stateful t (fn : jitted) w r args kwargs x ss,
  dget "ctx" kwargs = Some (GCtx x) -> x_trace x <> w_trace w ->
  jit_call_args static stateful t fn w (ARaw (PyMod r)) args kwargs ss = (w, ss, Err TraceContextError).
Proof.
  intros static st t fn w r args kwargs x ss C T. unfold jit_call_args. rewrite C. unfold context_partition.
  assert (trace_ok (w_trace w) (x_trace x) = false) as ->; [|reflexivity].
  unfold trace_ok. destruct (x_trace x) as [a b], (w_trace w) as [c d]. cbn. apply Bool.not_true_iff_false. rewrite Bool.andb_true_iff, !Nat.eqb_eq.
  intros [-> ->]. contradiction.
Qed.
Print Assumptions C71_foreign_context.

(** What works: [keys, ctxdef = ctx.partition()], pass the keys as an argument
    and merge inside, with [ctxdef] from the enclosing scope:
<<
    nnx.jit(lambda m, keys, *args, **kwargs: f(m, *args, ctx=ctxdef.merge(keys), **kwargs))
>>
    The call then is the direct call with the context. *)
Definition keys_arg (pc : pctx) : arg := GDict (map (fun nk => (fst nk, GKey (snd nk))) (pc_keys pc)).
Definition merge_inside (def : list (string * counts)) (flags : dict bool) (f : list arg -> dict arg -> prog arg)
  : list arg -> dict arg -> prog arg :=
  fun args kwargs =>
    match args with
    | GDict ks :: rest =>
        f rest (dset "ctx" (GPure (mkPctx (flat_map (fun na => match snd na with GKey k => [(fst na, k)] | _ => [] end) ks) def flags)) kwargs)
    | _ => Finish (Err TypeError)
    end.
Theorem C71_keys_argument :
  forall static t (f : list arg -> dict arg -> prog arg) w r args kwargs ss pc wd out,
  let direct := f args (dset "ctx" (GPure pc) kwargs) in
  ok_prog direct -> wf_world w -> r < List.length (w_heap w) -> names_ok w r -> live w r ->
  no_context kwargs -> hashed static kwargs -> args_ok w r static args kwargs ->
  user_fun direct w r = (wd, Ok out) -> nodes_only w wd r -> names_ok wd r -> jax_arg out -> jax_module wd r ->
  exists w', jit_call_args static true t (fun a k => user_fun (merge_inside (pc_counts pc) (pc_flags pc) f a k)) w (ARaw (PyMod r))
      (keys_arg pc :: args) kwargs ss = (w', ss, Ok out) /\
    (forall p, look w' r p = look wd r p) /\ (forall p, follow w' r p = follow wd r p) /\ get_state w' r = get_state wd r.
Proof.
  intros static t f w r args kwargs ss pc wd out direct Hf W V N L C H (G1 & G2 & G3) Hrun HN Nd Ho Hm.
  assert (E : merge_inside (pc_counts pc) (pc_flags pc) f (keys_arg pc :: args) kwargs = direct).
  { unfold merge_inside, keys_arg, direct. destruct pc as [ks cs fl]. cbn [pc_keys pc_counts pc_flags].
    assert (Q : flat_map (fun na : string * arg => match snd na with GKey k => [(fst na, k)] | _ => [] end) (map (fun nk : string * key => (fst nk, GKey (snd nk))) ks) = ks).
    { clear. induction ks as [|[n k] ks IH]; [reflexivity|]. cbn. now rewrite IH. }
    rewrite Q. reflexivity. }
  destruct (C71_jit_arguments static t (merge_inside (pc_counts pc) (pc_flags pc) f) w r (keys_arg pc :: args) kwargs ss wd out) as (w' & R1 & R2 & R3 & R4 & _); auto.
  - now rewrite E.
  - split; [exact G1|]. split; [|exact G3]. constructor; [|exact G2]. intros l Hl. inversion Hl as [| | | | | | |d n a x Hin Hl2]; subst.
    apply in_map_iff in Hin as ([n' k] & [= <- <-] & _). cbn in Hl2. inversion Hl2; subst. exact Logic.I.
  - now rewrite E.
  - exists w'. auto.
Qed.
Print Assumptions C71_keys_argument.

(** Anything else than a Module as first argument raises TypeError; a Context is
    not forked. *)
Theorem C71_not_a_module :
  forall static stateful t (fn : jitted) w m args kwargs ss, (forall r, m <> ARaw (PyMod r)) ->
  jit_call_args static stateful t fn w m args kwargs ss = (w, ss, Err TypeError).
Proof. intros static stateful t fn w m args kwargs ss M. destruct m as [[]|]; try reflexivity. now destruct (M r). Qed.
Print Assumptions C71_not_a_module.

(** Example: write the first argument into inp.norm.mean, return the second with
    a number. *)
Definition ex_jarg : list arg -> dict arg -> prog arg := fun args kwargs =>
  Do (CGet 0 "inp") (fun _ => Do (CGet 1 "norm") (fun _ =>
  Do (CSet 2 "mean" (match args with GVal v :: _ => ARaw v | _ => ARaw (PyInt 0) end)) (fun _ =>
  Finish (Ok (GTuple [nth 1 args (GVal PyNone); GVal (PyInt 3)]))))).
Definition ex_args : list arg := [GVal (PyObj Array_cls 77); GDict [("k", GKey (KSeed 4))]].
Definition ex_kwargs : dict arg := [("mode", GVal (PyStr "fast")); ("y", GVal PyNone)].
Lemma ex_jarg_ok args kwargs : (forall v, nth_error args 0 = Some (GVal v) -> match v with PyMod _ => False | _ => True end) -> ok_prog (ex_jarg args kwargs).
Proof.
  intros H. unfold ex_jarg. do 2 (apply ok_do; [exact Logic.I|intros ? _]). apply ok_do; [|intros; constructor].
  destruct args as [|[v| | | | | |] rest]; try (split; [exact Logic.I|reflexivity]). specialize (H v eq_refl). destruct v; try (split; [exact Logic.I|reflexivity]). contradiction.
Qed.
Example C71_example :
  ok_prog (ex_jarg ex_args ex_kwargs) /\ no_context ex_kwargs /\ hashed ["mode"] ex_kwargs /\
  Forall jax_arg ex_args /\ (forall n a, In (n, a) ex_kwargs -> ~ In n ["mode"] -> jax_arg a) /\
  exists wd out, user_fun (ex_jarg ex_args ex_kwargs) ex_cyc 0 = (wd, Ok out) /\ jax_arg out /\
    look wd 0 ["out"; "norm"; "mean"] = SValue (stat 77) /\
  exists w', jit_call_args ["mode"] true (7, 7) (fun a k => user_fun (ex_jarg a k)) ex_cyc (ARaw (PyMod 0)) ex_args ex_kwargs [] = (w', [], Ok out) /\
    look w' 0 ["out"; "norm"; "mean"] = SValue (stat 77).
Proof.
  split; [apply ex_jarg_ok; intros v [= <-]; exact Logic.I|]. split; [intros x E; discriminate|].
  split. { intros n a [[= <- <-]|[[= <- <-]|[]]] [E|[]]; try discriminate. repeat constructor. }
  assert (J : forall i, jax_arg (GVal (PyObj Array_cls i))).
  { intros i l Hl. inversion Hl as [v x Hv| | | | | | |]; subst. inversion Hv; subst. cbn. auto. }
  assert (K : jax_arg (GDict [("k", GKey (KSeed 4))])).
  { intros l Hl. inversion Hl as [| | | | | | |d n a x Hin Hl2]; subst. destruct Hin as [[= <- <-]|[]]. inversion Hl2; subst. exact Logic.I. }
  split; [repeat constructor; auto|].
  split. { intros n a [[= <- <-]|[[= <- <-]|[]]] E; [exfalso; apply E; now left|]. intros l Hl. inversion Hl as [v x Hv| | | | | | |]; subst. inversion Hv; congruence. }
  do 2 eexists. split; [vm_compute; reflexivity|]. split.
  { intros l Hl. inversion Hl as [| | | | |d a x Hin Hl2| |]; subst. destruct Hin as [<-|[<-|[]]]; [now apply K|].
    inversion Hl2 as [v x Hv| | | | | | |]; subst. inversion Hv; subst. exact Logic.I. }
  split; [vm_compute; reflexivity|]. eexists. split; vm_compute; reflexivity.
Qed.
Lemma ex_cyc_jax w : (w = ex_cyc \/ w = fst (user_fun (ex_jarg ex_args ex_kwargs) ex_cyc 0)) -> jax_module w 0.
Proof.
  intros Hw x n a v l _ (o & Ho & D & Hn & Ht) -> Hl. apply nth_error_In in Ho. apply dget_In in D. destruct Ht as (t & T1 & T2).
  destruct Hw as [-> | ->]; vm_compute in Ho, T1; repeat (destruct Ho as [<-|Ho]); try contradiction; cbn in D;
    repeat (destruct D as [D|D]; [injection D as <- <-|]); try contradiction; try discriminate Hn;
    try (cbn in T2, T1; exfalso; intuition (subst; discriminate));
    cbn in Hl; inversion Hl; subst; cbn; auto.
Qed.
(** the hypotheses of [C71_context_refuted] are met, and the stream has advanced *)
Example C71_context_example :
  let x := mkCtx [("dropout", 0)] [("train", true)] (0, 0) in
  jit_call_args [] true (7, 7) (fun a k => user_fun (ex_jarg a k)) ex_cyc (ARaw (PyMod 0)) ex_args [("ctx", GCtx x)] [mkStream (KSeed 1) 4 []] =
    (ex_cyc, [mkStream (KSeed 1) 5 []], Err TypeError) /\
  x_trace x = w_trace ex_cyc /\ (forall n i, In (n, i) (x_rngs x) -> i < 1) /\
  (* a Module as an argument, a string in the result *)
  jit_call_args [] true (7, 7) (fun a k => user_fun (ex_jarg a k)) ex_cyc (ARaw (PyMod 0)) [GVal (PyMod 1)] [] [] = (ex_cyc, [], Err TypeError) /\
  (exists w', jit_call_args [] true (7, 7) (fun a k => user_fun (Finish (Ok (GVal (PyStr "s"))))) ex_cyc (ARaw (PyMod 0)) [] [] [] = (w', [], Err TypeError)) /\
  (* a list as a static argument *)
  jit_call_args ["n"] true (7, 7) (fun a k => user_fun (ex_jarg a k)) ex_cyc (ARaw (PyMod 0)) [] [("n", GList [])] [] = (ex_cyc, [], Err ValueError).
Proof.
  split; [vm_compute; reflexivity|]. split; [reflexivity|]. split; [intros n i [[= <- <-]|[]]; lia|]. split; [vm_compute; reflexivity|].
  split; [eexists; vm_compute; reflexivity|vm_compute; reflexivity].
Qed.
