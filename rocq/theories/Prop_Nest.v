(** Prop_Nest: C98, functions under nnx.jit, nnx.remat and nnx.grad that call such
    functions themselves. *)
From Coq Require Import ZArith Lia.
From Verif Require Import PyBase PyBaseFacts ValuesM Spec_Eq FiltersM StateM ModuleM ContextM TransformM JitArgsM SpmdM ScanM RematArgsM GradFunM NestM.
From Verif Require Import Spec_Module Spec_Prog Spec_JitArgs Spec_RematArgs Spec_GradFun Spec_Mixed Spec_Nest.
From Verif Require Import Graph_facts Bisim_proofs Prog_proofs Transform_proofs JitArgs_proofs RematArgs_proofs Mixed_proofs Nest_proofs Ex_Module Prop_Transform Prop_Mixed Prop_GradFun Prop_TrainLoop.
Local Open Scope string_scope.
Local Open Scope nat_scope.
Local Open Scope list_scope.

(** *** C98 *)
(** A program that holds any number of modules, works on them, and calls functions under
    jit, remat, grad and scan on them, the functions doing the same again, to any depth; calls
    may raise, exceptions may be caught, transforms may be stateful or not.  It returns
    what the program without jit, remat and grad returns, and all modules it held look the same
    afterwards, with the same sharing among them.  It may hold Contexts too, draw keys from
    them, and pass them to remat and scan. *)
Theorem C98_nested :
  forall blake p w env f,
  ok_nprog p -> wf_world w -> (forall r, In r env -> r < List.length (w_heap w) /\ live w r) -> In "jax.Array" (w_nodes w) -> frame_ok w f -> fits blake p w env f ->
  exists w' wd res, nrun blake p w env f = (w', res) /\ plain blake p w env f = (wd, res) /\
    (forall r q, In r env -> look w' r q = look wd r q) /\
    (forall r r' q q', In r env -> In r' env -> (follow w' r q = follow w' r' q' <-> follow wd r q = follow wd r' q')) /\
    (forall r, In r env -> get_state w' r = get_state wd r /\ get_module_def w' r = get_module_def wd r) /\
    w_trace w' = w_trace w /\
    (forall x o, get_obj w x = Some o -> (forall r, In r env -> ~ reaches w r x) -> get_obj w' x = Some o).
Proof.
  intros blake p w env f Hp W H J Hf F.
  assert (P := pair_start w env W H).
  assert (He : Forall2 (fun x y => x = y /\ exists r, In r env /\ reaches w r x) env env).
  { assert (G : forall l, (forall r, In r l -> In r env) -> Forall2 (fun x y => x = y /\ exists r, In r env /\ reaches w r x) l l).
    { induction l as [|r l IH]; intros Hl; constructor; [|apply IH; intros; apply Hl; now right]. split; [reflexivity|]. exists r. split; [apply Hl; now left|].
      destruct (H r (Hl r (or_introl eq_refl))) as [V _]. destruct (get_obj_ex _ _ V) as [o Ho]. eapply reaches_refl; exact Ho. }
    apply G. auto. }
  destruct (nest_pair blake p Hp w w _ env env f f P He (frames_start w f Hf) J F) as (w' & wd & res & R2 & E1 & E2 & M & He2).
  exists w', wd, res. split; [exact E1|]. split; [exact E2|]. pose proof (mv_pair _ _ _ _ _ _ M) as P2. destruct P2 as [B Wf Wf' N Li Li'].
  assert (HR : forall r, In r env -> R2 r r).
  { intros r Hr. apply (mv_incl _ _ _ _ _ _ M). split; [reflexivity|]. exists r. split; [exact Hr|].
    destruct (H r Hr) as [V _]. destruct (get_obj_ex _ _ V) as [o Ho]. eapply reaches_refl; exact Ho. }
  split; [intros r q Hr; eapply bisim_look; eauto|]. split.
  { intros r r' q q' Hr Hr'. pose proof (bisim_follow_iff _ _ _ q B _ _ (HR _ Hr)) as G. pose proof (bisim_follow_iff _ _ _ q' B _ _ (HR _ Hr')) as G'.
    destruct (follow w' r q) as [a|], (follow wd r q) as [b|]; try contradiction; destruct (follow w' r' q') as [a'|], (follow wd r' q') as [b'|]; try contradiction;
      try (split; discriminate); try (split; reflexivity).
    split; intros [= <-]; f_equal; [eapply (bi_fun _ _ _ B); eauto|eapply (bi_inj _ _ _ B); eauto]. }
  split; [intros r Hr; split; [eapply bisim_get_state; eauto|eapply bisim_module_def; eauto]|].
  split; [apply (mv_tr _ _ _ _ _ _ M)|].
  intros x o Ho Hn. rewrite (mv_fr _ _ _ _ _ _ M); [exact Ho|eapply get_obj_lt; exact Ho|].
  intros y [_ (r & Hr & Hx)]. exact (Hn r Hr Hx).
Qed.
Print Assumptions C98_nested.

(** *** A case
    A training step under jit: the gradient of a loss that calls one layer under remat and
    the other under jit, each of which counts its calls; the gradient is then written into
    the model.  A second model shares the first layer. *)
Definition ex_net (x y : pyval) : world := mkWorld
  [ mkMobj (Mod_cls "MLP") 1 false (0, 0) [("linear2", sub 2); ("linear1", sub 1); ("count", arr 0)];
    mkMobj (Mod_cls "Linear") 2 false (0, 0) [("w", ACont (mkCont Param_cls [("sharding", PyNone)] x)); ("calls", arr 0)];
    mkMobj (Mod_cls "Linear") 3 false (0, 0) [("w", ACont (mkCont Param_cls [("sharding", PyNone)] y)); ("calls", arr 0)];
    mkMobj (Mod_cls "Other") 4 false (0, 0) [("peer", sub 1)] ]
  4 (0, 0) default_node_types.
Definition numof (v : pyval) : nat := match v with PyObj _ n => n | _ => 0 end.
Definition ex_layer : nprog :=
  NDo (CGet 0 "w") (fun a => NDo (CGet 0 "calls") (fun n => NDo (CSet 0 "calls" (arr (S (num n)))) (fun _ => NFin (Ok (PyObj Array_cls (num a)))))).
Definition ex_num (x : result pyval) : nat := match x with Ok (PyObj _ n) => n | _ => 0 end.
Definition ex_nloss : nprog :=
  NDo (CGet 0 "linear1") (fun _ => NRemat (NumTuple []) (8, 8) 1 None ex_layer (fun x =>
  NDo (CGet 0 "linear2") (fun _ => NJit true (9, 9) 2 ex_layer (fun y => NFin (Ok (PyObj Array_cls (ex_num x * ex_num y))))))).
Definition ex_numbered (a : attr) : bool :=
  match (match a with ARaw v => v | ACont c => c_val c end) with PyObj t _ => smem "jax.Array" t | _ => false end.
Definition quotient_a : grad_op := fun l diff k _ =>
  if forallb (fun ka => ex_numbered (snd ka)) diff then
    match l (bump k diff), l diff with
    | Some (PyObj _ x), Some (PyObj _ y) => PyObj Array_cls (x - y)
    | _, _ => PyNone
    end
  else PyNone.
Definition ex_nstep : nprog :=
  NJit true (7, 7) 0
    (NGrad true false (FType "Param") (0, 7) quotient_a 0 ex_nloss (fun g =>
       match g with
       | Ok (grads, _) => NDo (CUpdate 0 (One grads)) (fun _ => NFin (Ok (PyInt 1%Z)))
       | Err e => NFin (Err e)
       end))
    (fun x => NFin x).

Lemma numbered_array a : ex_numbered a = true -> array_attr a.
Proof.
  unfold ex_numbered, array_attr. destruct (match a with ARaw v => v | ACont c => c_val c end) as [|b|z|s|l|q|t n]; try discriminate.
  intros H l Hl. inversion Hl; subst. cbn. left. now apply smem_In.
Qed.
Lemma numbered_points k diff : forallb (fun ka => ex_numbered (snd ka)) diff = true -> array_point diff (bump k diff) /\ array_point diff diff.
Proof.
  intros H.
  assert (A : all_arrays diff = true).
  { unfold all_arrays. rewrite forallb_forall in *. intros [j a] Hi. specialize (H _ Hi). cbn in *. destruct a as [[]|]; try discriminate; auto. }
  assert (N : forallb (fun ka => ex_numbered (snd ka)) (bump k diff) = true).
  { rewrite forallb_forall in *. unfold bump. intros ja Hi. apply in_map_iff in Hi as ([j a] & <- & Hi). specialize (H _ Hi). cbn in *.
    destruct (String.eqb j k); [|exact H]. cbn. destruct a as [v|[c m v]]; unfold ex_numbered in *; cbn in *; destruct v; try discriminate; try exact H.
    rewrite H. cbn. exact H. }
  assert (G : forall d : state, forallb (fun ka => ex_numbered (snd ka)) d = true -> Forall (fun ka => array_attr (snd ka)) d).
  { intros d Hd. apply Forall_forall. intros x Hx. rewrite forallb_forall in Hd. apply numbered_array. exact (Hd x Hx). }
  split; (split; [|now apply G]); [now apply point_bump|now apply point_same].
Qed.
Lemma quotient_a_ok : values quotient_a.
Proof.
  split.
  - intros l1 l2 diff H k a. unfold quotient_a. destruct (forallb _ diff) eqn:A; [|reflexivity]. destruct (numbered_points k diff A) as [P1 P2].
    rewrite (H _ P1), (H _ P2). reflexivity.
  - intros l diff k a r. unfold quotient_a. destruct (forallb _ diff); [|discriminate]. destruct (l (bump k diff)) as [[]|]; try discriminate. destruct (l diff) as [[]|]; discriminate.
Qed.
Lemma ex_layer_ok : ok_nprog ex_layer.
Proof. apply on_do; [exact Logic.I|]. intros a _. apply on_do; [exact Logic.I|]. intros n _. apply on_do; [split; [exact Logic.I|reflexivity]|]. intros; constructor. Qed.
Lemma ex_nstep_ok : ok_nprog ex_nstep.
Proof.
  apply on_jit; [|intros; constructor]. apply on_grad; [exact quotient_a_ok| |].
  - apply on_do; [exact Logic.I|]. intros _ _. apply on_remat; [exact ex_layer_ok|]. intros x _. apply on_do; [exact Logic.I|]. intros _ _.
    apply on_jit; [exact ex_layer_ok|]. intros; constructor.
  - intros [[grads aux]|e] H; [|constructor]. apply on_do; [|intros; constructor]. constructor; [|constructor]. exact (H _ _ eq_refl).
Qed.

(** the premises, at all values of the weights *)
Definition arrays (v : pyval) : Prop := forall l, val_leaf v l -> jax_leaf (LVal l).
Ltac jaxv_tac :=
  let Ho := fresh in let D := fresh in let Hn := fresh in let Ht := fresh in let T1 := fresh in let T2 := fresh in let Hl := fresh in let t := fresh in let o := fresh in
  intros ? ? ? ? ? _ (o & Ho & D & Hn & Ht) -> Hl; apply nth_error_In in Ho; apply dget_In in D; destruct Ht as (t & T1 & T2);
  vm_compute in Ho, T1; repeat (destruct Ho as [<-|Ho]); try contradiction; cbn in D;
    repeat (destruct D as [D|D]; [injection D as <- <-|]); try contradiction; try discriminate Hn;
    try (cbn in T2, T1; exfalso; intuition (subst; discriminate));
    cbn in Hl; first [match goal with H : arrays _ |- _ => exact (H _ Hl) end|inversion Hl; subst; cbn; auto].
(** no Contexts are held; the hash is not used *)
Definition no_ctx : cworld := cstart (0, 0).
Definition no_hash (x : string) : nat := 0.
Definition ex_after1 (x y : pyval) : world := fst (plain no_hash ex_layer (ex_net x y) [1] no_ctx).
Definition ex_after2 (x y : pyval) : world := fst (plain no_hash ex_layer (ex_after1 x y) [2] no_ctx).
Lemma arr_arrays n : arrays (PyObj Array_cls n).
Proof. intros l H. inversion H; subst. cbn. auto. Qed.
Lemma arr_jax n : jax_arg (GVal (PyObj Array_cls n)).
Proof. intros l H. inversion H; subst. match goal with K : val_leaf _ _ |- _ => exact (arr_arrays _ _ K) end. Qed.
Ltac nodes2_tac :=
  split; [reflexivity|]; intros x0 [p0 Hx]; apply follow_valid in Hx as [o Ho]; pose proof (get_obj_lt _ _ _ Ho) as Hlt;
  assert (Hnode : forall w x n a o, get_obj w x = Some o -> dget n (m_vars o) = Some a -> is_submodule a = false ->
     is_node (w_nodes w) a = true -> node_attr w x n a) by (intros; apply Dfs_proofs.node_attr_iff; eauto);
  vm_compute in Hlt;
  do 4 try (destruct x0 as [|x0]; [eexists _, _; split; [vm_compute; reflexivity|]; split; [vm_compute; reflexivity|];
    split; [reflexivity|]; split; [reflexivity|]; intros n; cbn [m_vars dget];
    repeat match goal with |- context [String.eqb n ?k] => destruct (String.eqb_spec n k) as [->|?]; [try (left; reflexivity)|] end;
    try exact Logic.I|]); try lia;
  right; (split; [eapply Hnode; vm_compute; reflexivity|]); (split; [eapply Hnode; vm_compute; reflexivity|]); repeat split; apply ValuesFacts.same_meta_refl.
Lemma ex_nloss_fits x y : arrays x -> arrays y -> fits no_hash ex_nloss (ex_net x y) [0] no_ctx.
Proof.
  intros Ax Ay. unfold ex_nloss. cbn [fits exec nth_error].
  change (get_obj (ex_net x y) 0) with (Some (mkMobj (Mod_cls "MLP") 1 false (0, 0) [("linear2", sub 2); ("linear1", sub 1); ("count", arr 0)])).
  cbn [m_vars dget String.eqb Ascii.eqb Bool.eqb sub app].
  exists 1, None. split; [reflexivity|]. split; [reflexivity|]. split; [apply names_okb_ok; vm_compute; reflexivity|]. split; [jaxv_tac|]. split; [intros z []|].
  cbn [forked]. split; [intros f0 [= <-]; vm_compute; exact Logic.I|].
  assert (E1 : in_frame (plain no_hash ex_layer) None (ex_net x y) 1 = (ex_after1 x y, Ok (PyObj Array_cls (numof x)))) by (vm_compute; reflexivity). rewrite E1.
  split. { intros out _ _. split; [nodes2_tac|apply names_okb_ok; vm_compute; reflexivity]. }
  split. { intros out [= <-]. split; [apply arr_jax|intros _; jaxv_tac]. }
  cbn [next fits exec nth_error set_streams no_ctx].
  change (get_obj (ex_after1 x y) 0) with (Some (mkMobj (Mod_cls "MLP") 1 false (0, 0) [("linear2", sub 2); ("linear1", sub 1); ("count", arr 0)])).
  cbn [m_vars dget String.eqb Ascii.eqb Bool.eqb sub app].
  exists 2. split; [reflexivity|]. split; [apply names_okb_ok; vm_compute; reflexivity|]. split; [jaxv_tac|]. split; [intros f0 [= <-]; vm_compute; exact Logic.I|].
  assert (E2 : in_frame (plain no_hash ex_layer) None (ex_after1 x y) 2 = (ex_after2 x y, Ok (PyObj Array_cls (numof y)))) by (vm_compute; reflexivity). rewrite E2.
  split. { intros out _ _. split; [nodes2_tac|apply names_okb_ok; vm_compute; reflexivity]. }
  split. { intros out [= <-]. split; [apply arr_jax|intros _; jaxv_tac]. }
  exact Logic.I.
Qed.
Definition x3 := PyObj Array_cls 3.
Definition x5 := PyObj Array_cls 5.
Example C98_ex_module : wf_world (ex_net x3 x5) /\ live (ex_net x3 x5) 0 /\ live (ex_net x3 x5) 3.
Proof. split; [apply wf_worldb_ok; vm_compute; reflexivity|]. split; apply liveb_ok; vm_compute; reflexivity. Qed.
Definition ex_after3 : world := fst (plain no_hash ex_nstep (ex_net x3 x5) [0; 3] no_ctx).
Example C98_ex_fits : fits no_hash ex_nstep (ex_net x3 x5) [0; 3] no_ctx.
Proof.
  assert (A3 : arrays x3) by apply arr_arrays. assert (A5 : arrays x5) by apply arr_arrays.
  exists 0. split; [reflexivity|]. split; [apply names_okb_ok; vm_compute; reflexivity|]. split; [jaxv_tac|]. split.
  { intros f0 [= <-]. eexists 0, _. split; [reflexivity|]. split; [apply names_okb_ok; vm_compute; reflexivity|]. split; [vm_compute; reflexivity|].
    split; [eexists; reflexivity|]. split; [intros f0 [= <-]; now apply ex_nloss_fits|]. split.
    { intros d w1 [P A] E f0 Ef. inversion P as [|? [k1 a1] ? d1 [N1 M1] P1]; subst. inversion P1 as [|? [k2 a2] ? d2 [N2 M2] P2]; subst. inversion P2; subst. clear P P1 P2.
      cbn in N1, N2. subst k1 k2.
      destruct a1 as [|[c1 m1 v1]]; [contradiction|]. destruct a2 as [|[c2 m2 v2]]; [contradiction|]. cbn in M1, M2. destruct M1 as [-> ->], M2 as [-> ->].
      inversion A as [|? ? A1 A']; subst. inversion A' as [|? ? A2 _]; subst.
      assert (Eu : w1 = ex_net v1 v2) by (vm_compute in E; injection E as <-; reflexivity). subst w1. injection Ef as <-. apply ex_nloss_fits; assumption. }
    assert (Ep : in_frame (plain no_hash ex_nloss) None (ex_net x3 x5) 0 = (ex_after2 x3 x5, Ok (PyObj Array_cls 15))) by (vm_compute; reflexivity). rewrite Ep.
    split. { intros out _ _. split; [nodes2_tac|apply names_okb_ok; vm_compute; reflexivity]. }
    vm_compute. exact Logic.I. }
  assert (Eb : in_frame (plain no_hash (NGrad true false (FType "Param") (0, 7) quotient_a 0 ex_nloss (fun g =>
       match g with
       | Ok (grads, _) => NDo (CUpdate 0 (One grads)) (fun _ => NFin (Ok (PyInt 1%Z)))
       | Err e => NFin (Err e)
       end))) None (ex_net x3 x5) 0 = (ex_after3, Ok (PyInt 1%Z))) by (vm_compute; reflexivity).
  cbv beta iota. rewrite Eb. split. { intros out _ _. split; [nodes2_tac|apply names_okb_ok; vm_compute; reflexivity]. }
  split. { intros out [= <-]. split; [intros l H; inversion H; subst; cbn; match goal with K : val_leaf _ _ |- _ => inversion K; subst; exact Logic.I end|intros _; jaxv_tac]. }
  exact Logic.I.
Qed.
(** The run under the transforms: the layers have been called, each weight is now the
    derivative, the other's value, and the second model sees it in the layer it shares. *)
Example C98_ex_run :
  snd (nrun no_hash ex_nstep (ex_net x3 x5) [0; 3] no_ctx) = Ok (PyInt 1%Z) /\
  (let w := fst (nrun no_hash ex_nstep (ex_net x3 x5) [0; 3] no_ctx) in
   get_state w 0 = Ok [("count", arr 0); ("linear1/calls", arr 1); ("linear1/w", ACont (mkCont Param_cls [("sharding", PyNone)] x5));
     ("linear2/calls", arr 1); ("linear2/w", ACont (mkCont Param_cls [("sharding", PyNone)] x3))] /\
   get_state w 3 = Ok [("peer/calls", arr 1); ("peer/w", ACont (mkCont Param_cls [("sharding", PyNone)] x5))]).
Proof. vm_compute. repeat split. Qed.
