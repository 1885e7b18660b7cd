(** Property C104: Contexts passed through nested transforms. *)
From Coq Require Import ZArith Lia.
From Verif Require Import PyBase PyBaseFacts ValuesM Spec_Eq ValuesFacts FiltersM StateM ModuleM ContextM JitArgsM SpmdM ScanM RematArgsM TransformM GradFunM NestM
  Spec_Module Spec_Prog Spec_JitArgs Spec_RematArgs Spec_GradFun Spec_Mixed Spec_Scan Spec_ScanCalls Spec_Nest Spec_Context
  Graph_facts Dfs_proofs Build_proofs Bisim_proofs Skel_proofs RoundTrip_proofs Write_proofs Clone_proofs Update_proofs Prog_proofs Transform_proofs History_proofs Leaf_proofs
  JitArgs_proofs RematArgs_proofs Mixed_proofs ScanPair_proofs Nest_proofs Context_proofs Ex_Module Prop_Transform Prop_Mixed Prop_GradFun Prop_TrainLoop Prop_Nest Prop_NestScan.
Local Open Scope string_scope.
Local Open Scope nat_scope.
Local Open Scope list_scope.

(** *** C104 *)
(** A program as in C98 that holds Contexts, draws keys from them, forks and merges them, and
    passes them to functions under remat and scan, to any depth: it returns, or raises, what
    the program without jit, remat and grad does, in which a call given a Context runs the
    function on [ctx.partition().merge()].  What it returns may be computed from any of the keys
    drawn inside. *)
Theorem C104_same_keys :
  forall blake p w env f,
  ok_nprog p -> wf_world w -> (forall r, In r env -> r < List.length (w_heap w) /\ live w r) -> In "jax.Array" (w_nodes w) -> frame_ok w f -> fits blake p w env f ->
  snd (nrun blake p w env f) = snd (plain blake p w env f) /\
  forall r, In r env -> get_state (fst (nrun blake p w env f)) r = get_state (fst (plain blake p w env f)) r.
Proof.
  intros blake p w env f Hp W H J Hf F. destruct (C98_nested blake p w env f Hp W H J Hf F) as (w' & wd & res & -> & -> & _ & _ & G & _).
  split; [reflexivity|]. intros r Hr. apply (G r Hr).
Qed.
Print Assumptions C104_same_keys.

(** What a call leaves of the Contexts of its caller does not depend on what the function
    does with the Context it gets, nor on whether it returns or raises: after remat and scan
    the Context given to the call has been partitioned once, and nothing else has changed; a scan
    refused because of its arguments leaves it as it was; jit and grad leave all Contexts
    as they were. *)
Definition partitioned_once (w : world) (f : cworld) (ctx : option nat) (f' : cworld) : Prop :=
  match ctx with
  | None => f' = f
  | Some c => exists x, nth_error (cw_ctxs f) c = Some x /\ f' = set_streams f (snd (context_partition (w_trace w) x (cw_streams f)))
  end.
Theorem C104_after_remat :
  forall blake a t i ctx body k w env f r, wf_world w -> nth_error env i = Some r -> r < List.length (w_heap w) ->
  match ctx with Some c => c < List.length (cw_ctxs f) | None => True end ->
  exists w' res f', nrun blake (NRemat a t i ctx body k) w env f = nrun blake (k res) w' env f' /\ partitioned_once w f ctx f'.
Proof.
  intros blake a t i ctx body k w env f r W Hi V Hc. cbn [nrun]. rewrite Hi.
  destruct (partition_one w r W V) as (s & d & _ & _ & Hp).
  assert (G : forall x, exists w' res, remat_args (remat_options a) t (fun _ pc => to_arg (in_frame (nrun blake body) pc)) w r [] x (cw_streams f) = (w', snd (forked (w_trace w) x (cw_streams f)), res)).
  { intros x. unfold remat_args. rewrite Hp. clear Hp. unfold forked. cbv zeta.
    destruct x as [x|]; [destruct (context_partition (w_trace w) x (cw_streams f)) as [[q|e] ss]; [|eauto]|]; cbn [snd];
      repeat match goal with
      | |- context [if ?b then _ else _] => destruct b
      | |- context [match pure_merge ?a ?b with _ => _ end] => destruct (pure_merge a b) as [[m w1]|e]
      | |- context [match to_arg ?a ?b ?c with _ => _ end] => destruct (to_arg a b c) as [w2 [out|e]]
      | |- context [match module_partition ?a ?b ?c with _ => _ end] => destruct (module_partition a b c) as [q2|e]
      | |- context [match update_state ?a ?b ?c with _ => _ end] => destruct (update_state a b c) as [w3 [u|e]]
      end; eauto. }
  destruct ctx as [c|]; cbn [held].
  - destruct (nth_error (cw_ctxs f) c) as [x|] eqn:Ex; [|apply nth_error_None in Ex; lia]. cbn [option_map].
    destruct (G (Some x)) as (w' & res & ->). exists w'. eexists. eexists. split; [reflexivity|]. exists x. split; [exact Ex|].
    cbn [forked]. destruct (context_partition _ _ _) as [[q|e] ss]; reflexivity.
  - destruct (G None) as (w' & res & ->). exists w'. eexists. exists f. split; [|reflexivity]. cbn [forked snd]. destruct f; reflexivity.
Qed.
Print Assumptions C104_after_remat.
Theorem C104_after_scan :
  forall blake J o t i c xs ctx body k w env f r, nth_error env i = Some r ->
  match ctx with Some c => c < List.length (cw_ctxs f) | None => True end ->
  exists w' res f', nrun blake (NScan J o t i c xs ctx body k) w env f = nrun blake (k res) w' env f' /\
    (partitioned_once w f ctx f' \/ f' = f /\ w' = w /\ exists e, res = Err e).
Proof.
  intros blake J o t i c xs ctx body k w env f r Hi Hc. cbn [nrun]. rewrite Hi. set (fn := scan_body _).
  assert (G : forall x, exists w' res ss', scan_apply J o t fn w r c xs x (cw_streams f) = (w', ss', res) /\
    (ss' = snd (forked (w_trace w) x (cw_streams f)) \/ ss' = cw_streams f /\ w' = w /\ exists e, res = Err e)).
  { intros x. unfold scan_apply, scan_core.
    assert (Stop : forall e, exists w' res ss', (w, cw_streams f, @Err (pyval * list pyval) e) = (w', ss', res) /\
      (ss' = snd (forked (w_trace w) x (cw_streams f)) \/ ss' = cw_streams f /\ w' = w /\ exists e, res = Err e)).
    { intros e. do 3 eexists. split; [reflexivity|]. right. eauto. }
    destruct (module_partition _ _ _) as [q|e]; [|apply Stop]. destruct (split3 _) as [[[axs b] cs]|]; [|apply Stop].
    destruct (do sl <- slice_states J (o_axes o) axs; _) as [[[sl at_step] n]|e]; [|apply Stop].
    assert (S : snd (scan_ctx (w_trace w) (o_split o) x (cw_streams f)) = snd (forked (w_trace w) x (cw_streams f))).
    { destruct x as [x|]; cbn; [|reflexivity]. destruct (context_partition _ _ _) as [[pc|e] ss]; reflexivity. }
    destruct (scan_ctx _ _ _ _) as [[pc|e] ss]; cbn [snd] in S; subst ss; [|do 3 eexists; split; [reflexivity|now left]].
    destruct (scan_run _ _ _ _ _ _ _ _ _) as [w1 [[[[cs' c'] outs] last]|e]]; [|do 3 eexists; split; [reflexivity|now left]].
    destruct (do axs' <- _; _) as [[updates ys]|e]; [|do 3 eexists; split; [reflexivity|now left]].
    destruct (update_state _ _ _) as [w2 [u|e]]; do 3 eexists; (split; [reflexivity|now left]). }
  destruct ctx as [c0|]; cbn [held].
  - destruct (nth_error (cw_ctxs f) c0) as [x|] eqn:Ex; [|apply nth_error_None in Ex; lia]. cbn [option_map].
    destruct (G (Some x)) as (w' & res & ss' & -> & Hs). exists w', res. eexists. split; [reflexivity|]. destruct Hs as [->|(-> & H)].
    + left. exists x. split; [exact Ex|]. cbn [forked]. destruct (context_partition _ _ _) as [[q|e] ss]; reflexivity.
    + right. split; [destruct f; reflexivity|exact H].
  - destruct (G None) as (w' & res & ss' & -> & Hs). exists w', res, f. split; [|left; reflexivity]. destruct Hs as [->|(-> & _)]; cbn [forked snd]; destruct f; reflexivity.
Qed.
Print Assumptions C104_after_scan.
Theorem C104_after_jit_grad :
  forall blake t i body w env f r, nth_error env i = Some r ->
  (forall stateful k, exists w' res, nrun blake (NJit stateful t i body k) w env f = nrun blake (k res) w' env f) /\
  (forall stateful has_aux wrt D k, exists w' res, nrun blake (NGrad stateful has_aux wrt t D i body k) w env f = nrun blake (k res) w' env f).
Proof.
  intros blake t i body w env f r Hi. split; intros; cbn [nrun]; rewrite Hi.
  - destruct (jit_call_args _ _ _ _ _ _ _ _ _) as [[w' z] res]. eauto.
  - destruct (grad_call_fn _ _ _ _ _ _ _ _) as [w' res]. eauto.
Qed.
Print Assumptions C104_after_jit_grad.

(** *** A case
    A training step under jit makes a Context and passes it to a scan over two layers; each
    layer is called under remat, draws a key from the Context it gets, and adds noise computed
    from it to its weight.  Then one more key is drawn. *)
Fixpoint kcode (k : key) : nat :=
  match k with KArr _ => 0 | KSeed _ => 0 | KFold k d => kcode k + d | KSplit k _ i => kcode k + i end.
Definition noise (out : cout) : nat := match out with OutKey k => kcode k | _ => 0 end.
Definition ex_dbody (c : pyval) (xs : list pyval) : nprog :=
  NRemat (NumTuple []) (9, 9) 0 (Some 0)
    (NCtx (ODraw 0 "dropout") (fun out => NDo (CGet 0 "inner") (fun _ => NDo (CGet 1 "w") (fun a =>
     NDo (CSet 1 "w" (arr (num a + noise out))) (fun _ => NFin (Ok (PyObj Array_cls (numof c + num a))))))))
    (fun x => match x with Ok v => NFin (Ok (PyTuple [v; c])) | Err e => NFin (Err e) end).
Definition ex_dscan (k : result (pyval * list pyval) -> nprog) : nprog :=
  NScan digits ex_sopts (8, 8) 0 (PyObj Array_cls 1) ex_sin (Some 0) ex_dbody k.
Definition ex_dstep : nprog :=
  NJit true (7, 7) 0
    (NCtx (ONew None [] [("dropout", ArgInt 0%Z)]) (fun _ =>
     ex_dscan (fun x => NCtx (ODraw 0 "dropout") (fun out =>
       match x with Ok cy => NFin (Ok (PyTuple [fst cy; PyObj Array_cls (noise out)])) | Err e => NFin (Err e) end))))
    NFin.
(** the hash of a text is its length *)
Example C104_ex_run :
  snd (nrun String.length ex_dstep ex_stack [0] no_ctx) = Ok (PyTuple [PyObj Array_cls 6; PyObj Array_cls 1]) /\
  get_state (fst (nrun String.length ex_dstep ex_stack [0] no_ctx)) 0 = Ok [("calls", arr 0); ("inner/w", wparam 79)].
Proof. vm_compute. split; reflexivity. Qed.
Example C104_ex_same :
  snd (plain String.length ex_dstep ex_stack [0] no_ctx) = Ok (PyTuple [PyObj Array_cls 6; PyObj Array_cls 1]) /\
  get_state (fst (plain String.length ex_dstep ex_stack [0] no_ctx)) 0 = Ok [("calls", arr 0); ("inner/w", wparam 79)].
Proof. vm_compute. split; reflexivity. Qed.
Example C104_ex_ok : ok_nprog ex_dstep /\ frame_ok ex_stack no_ctx.
Proof.
  split; [|split; [reflexivity|constructor]]. apply on_jit; [|intros; constructor]. apply on_ctx; [exact Logic.I|]. intros _. apply on_scan; [apply digits_ok| |].
  - intros c xs _. apply on_remat; [|intros [v|e] _; constructor]. apply on_ctx; [exact Logic.I|]. intros out.
    repeat (apply on_do; [first [exact Logic.I|split; [exact Logic.I|reflexivity]]|intros ? _]). constructor.
  - intros x _. apply on_ctx; [exact Logic.I|]. intros out. destruct x; constructor.
Qed.
(** the conditions, in every call *)
Definition ex_dfn : scanned := scan_body (fun pc c xs => in_frame (plain String.length (ex_dbody c xs)) pc).
Ltac dcall_tac :=
  intros _; intros f0 Ef0; vm_compute in Ef0; injection Ef0 as <-; cbn [fits ex_dbody nth_error];
  match goal with |- exists r0 x0, _ /\ _ /\ names_ok ?w _ /\ _ => set (W := w) end;
  match goal with |- exists r0 x0, Some ?m = Some r0 /\ _ => eexists m, _ end;
  split; [reflexivity|]; split; [reflexivity|]; split; [apply names_okb_ok; vm_compute; reflexivity|]; split; [jaxv_tac|]; split; [intros z0 []|];
  match goal with |- context [forked ?a ?b ?c] => let v := eval vm_compute in (forked a b c) in replace (forked a b c) with v by (vm_compute; reflexivity) end;
  cbv iota; split; [intros f1 Ef1; vm_compute in Ef1; injection Ef1 as <-; vm_compute; exact Logic.I|];
  match goal with |- context [in_frame (plain ?h ?p) ?pc ?w ?m] => let v := eval vm_compute in (fst (in_frame (plain h p) pc w m)) in let u := eval vm_compute in (snd (in_frame (plain h p) pc w m)) in
    set (W2 := v); replace (in_frame (plain h p) pc w m) with (W2, u) by (vm_compute; reflexivity) end;
  split; [intros out _ _; split; [nodesn_tac|apply names_okb_ok; vm_compute; reflexivity]|];
  split; [intros out [= <-]; split; [apply arr_jax|intros _; jaxv_tac]|exact Logic.I].
Ltac dstep_tac :=
  let axs1 := fresh "axs1" in let m1 := fresh "m1" in let v1 := fresh "v1" in let E1 := fresh "E1" in let E2 := fresh "E2" in
  intros axs1 m1 v1 E1 E2; vm_compute in E1; injection E1 as <-; vm_compute in E2; injection E2 as <- <-; cbn [fst snd]; dcall_tac.
Definition ex_dctx (t : trace_state) : context := mkCtx [("dropout", 0)] [] t.
Lemma ex_dcalls : scan_calls digits ex_sopts (8, 8) ex_dfn
  (fun pc c xs v m => arrays_only (c :: xs) = true -> fits_in (fits String.length (ex_dbody c xs)) pc v m) ex_stack 0 (PyObj Array_cls 1) ex_sin
  (Some (ex_dctx (0, 0))) [mkStream (KSeed 0%Z) 0 []].
Proof.
  intros q axs b cs sl lens at_step n pc ss' E1 E2 E3 E4 E5 E6. vm_compute in E1. injection E1 as <-. cbn [p_states p_def sts_list] in *.
  destruct axs as [|a1 [|a2 axs]]; cbn [app] in E2; try discriminate; [|apply (f_equal (@List.length _)) in E2; cbn in E2; rewrite app_length in E2; cbn in E2; lia]. injection E2 as <- <- <-.
  vm_compute in E3. injection E3 as <-. cbn in E4. injection E4 as <- <-. vm_compute in E5. injection E5 as <-. cbn in E6. injection E6 as <- <-.
  unfold run_calls. cbn [scan_input seq map].
  split; [dstep_tac|]. intros w1 carry1 y E. vm_compute in E. injection E as <- <- <-. cbn [out_cs_new fst snd]. unfold in_order. cbn [o_reverse ex_sopts step_calls].
  split; [dstep_tac|]. intros w1 carry1 y E _. vm_compute in E. injection E as <- <- <-.
  split; [dstep_tac|]. intros w1 carry1 y E _. exact Logic.I.
Qed.
Definition ex_ddone : world := fst (plain String.length ex_dstep ex_stack [0] no_ctx).
Example C104_ex_fits : fits String.length ex_dstep ex_stack [0] no_ctx.
Proof.
  destruct C102_ex_module as (W & L & N & J).
  exists 0. split; [reflexivity|]. split; [exact N|]. split; [exact J|]. split.
  { intros f0 [= <-]. cbn [fits ex_dscan crun1 args_exist forallb snd new_context make_streams dict_of]. eexists 0, _. split; [reflexivity|]. split; [reflexivity|].
    split; [exact ex_dcalls|]. vm_compute. exact Logic.I. }
  match goal with |- context [in_frame (plain ?h ?p) ?pc ?w ?m] =>
    replace (in_frame (plain h p) pc w m) with (ex_ddone, @Ok pyval (PyTuple [PyObj Array_cls 6; PyObj Array_cls 1])) by (vm_compute; reflexivity) end.
  split. { intros out _ _. split; [nodesn_tac|apply names_okb_ok; vm_compute; reflexivity]. }
  split; [|exact Logic.I]. intros out [= <-]. split; [apply jax_arg_iff; vm_compute; reflexivity|intros _; jaxv_tac].
Qed.
