(** Prop_Mixed: C75, histories of calls made directly and through nnx.jit,
    nnx.remat and nnx.grad. *)
From Coq Require Import ZArith Lia.
From Verif Require Import PyBase PyBaseFacts ValuesM Spec_Eq FiltersM StateM ModuleM ContextM TransformM JitArgsM SpmdM ScanM RematArgsM.
From Verif Require Import Spec_Module Spec_Prog Spec_JitArgs Spec_RematArgs Spec_Mixed.
From Verif Require Import Graph_facts Bisim_proofs Prog_proofs Transform_proofs RematArgs_proofs Mixed_proofs Ex_Module Prop_Transform Prop_JitArgs Prop_RematArgs.
Local Open Scope string_scope.
Local Open Scope list_scope.

(** *** C75 *)
(** Any number of calls on a module, in any order, each made directly, through
    jit, remat or grad, stateful or not, some of them raising: the results, the
    streams, and what can be seen of the module at the end are those of the same
    calls made directly, where calls that raise in a transform and calls through
    transforms that are not stateful leave the module as it is. *)
Theorem C75_history :
  forall r l w ss wd ss' xs,
  wf_world w -> r < List.length (w_heap w) -> live w r -> plainly r w ss l wd ss' xs ->
  exists w', do_steps r l w ss = (w', ss', xs) /\
    (forall p, look w' r p = look wd r p) /\
    (forall p q, follow w' r p = follow w' r q <-> follow wd r p = follow wd r q) /\
    get_state w' r = get_state wd r /\ get_module_def w' r = get_module_def wd r /\
    w_trace w' = w_trace wd /\
    (forall x o, get_obj w x = Some o -> ~ reaches w r x -> get_obj w' x = Some o).
Proof.
  intros r l w ss wd ss' xs W V L H.
  destruct (mixed_run r l w ss wd ss' xs H w _ (pair_refl w r W V L)) as (w' & R & E & P & Hr & T & F).
  { split; [reflexivity|]. destruct (get_obj_ex _ _ V) as [o Ho]. eapply reaches_refl; exact Ho. } { reflexivity. }
  exists w'. split; [exact E|]. destruct P as [B Wf Wf' N Li Li']. split; [intros p; eapply bisim_look; eauto|].
  split; [intros p q; eapply bisim_alias; eauto|]. split; [eapply bisim_get_state; eauto|]. split; [eapply bisim_module_def; eauto|].
  split; [exact T|]. intros x o Ho Hn. apply F; [exact Ho|]. intros y [_ Hy]. contradiction.
Qed.
Print Assumptions C75_history.

(** In particular: decorating functions with jit and remat does not matter.  If
    no call raises, the program with the decorators removed gives the same. *)
Definition undecorated (s : step) : step :=
  match s with
  | Direct k | ByJit _ _ _ k | ByRemat _ _ k => Direct k
  | ByGrad st ha wrt t g f => s
  end.
Definition decorated (s : step) : Prop :=
  match s with
  | Direct _ | ByRemat _ _ _ => True
  | ByJit _ stateful _ _ => stateful = true
  | ByGrad _ _ _ _ _ _ => False
  end.
Definition returns (x : outcome) : Prop := exists v, x = Returned (Ok v).
Theorem C75_decorators :
  forall r l w ss wd ss' xs,
  wf_world w -> r < List.length (w_heap w) -> live w r -> plainly r w ss l wd ss' xs -> Forall decorated l -> Forall returns xs ->
  do_steps r (map undecorated l) w ss = (wd, ss', xs) /\
  exists w', do_steps r l w ss = (w', ss', xs) /\ (forall p, look w' r p = look wd r p) /\
    (forall p q, follow w' r p = follow w' r q <-> follow wd r p = follow wd r q) /\ get_state w' r = get_state wd r.
Proof.
  intros r l w ss wd ss' xs W V L H D X. split.
  - clear W V L. induction H as [w ss|w ss k pc ss1 w1 res l w2 ss2 xs C Hf Hrun _ IH|w ss static st t k w1 res l w2 ss2 xs Kc Kn Kh Ka Nd Hf Hrun Hk Hx _ IH
      |w ss a t k pc ss1 w1 res l w2 ss2 xs Kk C Kn Ka Nd Hf Hrun Hk Hx _ IH|w ss st ha wrt t g f pred diff w1 res x l w2 ss2 xs Hp Hd Nd Hf Hrun Hk Hg _ IH];
      [reflexivity|inversion D as [|? ? D1 D2]; inversion X as [|? ? X1 X2]; subst; specialize (IH D2 X2)..].
    + cbn [map undecorated do_steps do_step]. rewrite (ctx_given_is _ _ _ _ _ C), Hrun, IH. reflexivity.
    + destruct X1 as [v [= ->]]. cbn in D1. subst st. cbn [next] in IH. cbn [map undecorated do_steps do_step]. rewrite Kc, Hrun, IH. reflexivity.
    + destruct X1 as [v [= ->]]. cbn [next] in IH. cbn [map undecorated do_steps do_step]. rewrite (ctx_given_is _ _ _ _ _ C), Hrun, IH. reflexivity.
    + destruct D1.
  - destruct (C75_history r l w ss wd ss' xs W V L H) as (w' & A & B & C & E & _). exists w'. auto.
Qed.
Print Assumptions C75_decorators.

(** Example: a direct call that puts a new submodule under "head", then jit (it
    writes the mean and returns an array), then remat with a function that writes
    and raises, then grad of a function that writes the mean again. *)
Definition ex_k1 : call := mkCall (fun _ _ _ => Do (CNew ["Head"; "Module"]) (fun _ => Do (CSet 1 "w" (param 8)) (fun _ =>
  Do (CLink 0 "head" 1) (fun _ => Finish (Ok (GVal PyNone)))))) [] [] None.
Definition ex_k2 : call := mkCall (fun args kwargs _ => ex_jarg args kwargs) ex_args ex_kwargs None.
Definition ex_k3 : call := mkCall (fun _ _ _ => Do (CSet 0 "w" (ARaw (PyObj Array_cls 1))) (fun _ => Finish (Err UserError))) [] [] (Some ex_rctx).
Definition ex_steps : list step :=
  [Direct ex_k1; ByJit ["mode"] true (7, 7) ex_k2; ByRemat (NumTuple []) (8, 8) ex_k3;
   ByGrad true true (FType "Param") (0, 7) (fun _ _ => PyObj Array_cls 500) ex_loss].
Definition ex_m1 : world := fst (user_fun (body ex_k1 None) ex_cyc 0).
Definition ex_m2 : world := fst (user_fun (body ex_k2 None) ex_m1 0).
Definition ex_m4 : world := fst (user_fun ex_loss ex_m2 0).
Ltac nodes_tac :=
  split; [reflexivity|]; intros x [p Hx]; apply follow_valid in Hx as [o Ho]; pose proof (get_obj_lt _ _ _ Ho) as Hlt;
  assert (Hnode : forall w x n a o, get_obj w x = Some o -> dget n (m_vars o) = Some a -> is_submodule a = false ->
     is_node (w_nodes w) a = true -> node_attr w x n a) by (intros; apply Dfs_proofs.node_attr_iff; eauto);
  vm_compute in Hlt;
  do 7 try (destruct x as [|x]; [eexists _, _; split; [vm_compute; reflexivity|]; split; [vm_compute; reflexivity|];
    split; [reflexivity|]; split; [reflexivity|]; intros n; cbn [m_vars dget];
    repeat match goal with |- context [String.eqb n ?k] => destruct (String.eqb_spec n k) as [->|?]; [try (left; reflexivity)|] end;
    try exact Logic.I|]); try lia;
  right; (split; [eapply Hnode; vm_compute; reflexivity|]); (split; [eapply Hnode; vm_compute; reflexivity|]); repeat split; apply ValuesFacts.same_meta_refl.
Ltac jax_tac := 
  let Ho := fresh in let D := fresh in let Hn := fresh in let Ht := fresh in let T1 := fresh in let T2 := fresh in let Hl := fresh in let t := fresh in let o := fresh in
  intros ? ? ? ? ? _ (o & Ho & D & Hn & Ht) -> Hl; apply nth_error_In in Ho; apply dget_In in D; destruct Ht as (t & T1 & T2);
  vm_compute in Ho, T1; repeat (destruct Ho as [<-|Ho]); try contradiction; cbn in D;
    repeat (destruct D as [D|D]; [injection D as <- <-|]); try contradiction; try discriminate Hn;
    try (cbn in T2, T1; exfalso; intuition (subst; discriminate));
    cbn in Hl; inversion Hl; subst; cbn; auto.
Example C75_example :
  plainly 0 ex_cyc [mkStream (KSeed 1) 4 []] ex_steps ex_m4 [mkStream (KSeed 1) 5 []]
    [Returned (Ok (GVal PyNone)); Returned (Ok (GTuple [GDict [("k", GKey (KSeed 4))]; GVal (PyInt 3)])); Returned (Err UserError);
     Gradient (Ok ([("head/w", ACont (mkCont Param_cls [("sharding", PyNone)] (PyObj Array_cls 500)));
                    ("inp/w", ACont (mkCont Param_cls [("sharding", PyNone)] (PyObj Array_cls 500)));
                    ("out/w", ACont (mkCont Param_cls [("sharding", PyNone)] (PyObj Array_cls 500)));
                    ("w", ACont (mkCont Param_cls [("sharding", PyNone)] (PyObj Array_cls 500)))], Some (PyStr "aux")))] /\
  look ex_m4 0 ["head"; "w"] = SValue (param 8) /\ look ex_m4 0 ["w"] = SValue (param 10).
Proof.
  split; [|split; vm_compute; reflexivity].
  assert (K : jax_arg (GDict [("k", GKey (KSeed 4))])).
  { intros l Hl. inversion Hl as [| | | | | | |d n a x Hin Hl2]; subst. destruct Hin as [[= <- <-]|[]]. inversion Hl2; subst. exact Logic.I. }
  apply pl_direct with (pc := None) (ss1 := [mkStream (KSeed 1) 4 []]) (w1 := ex_m1); [split; reflexivity| |vm_compute; reflexivity|].
  { unfold body, ex_k1, k_fun. apply ok_do; [right; left; reflexivity|]. intros ? _. apply ok_do; [split; [apply wf_containerb_ok; reflexivity|reflexivity]|].
    intros ? _. apply ok_do; [exact Logic.I|]. intros; constructor. }
  apply pl_jit with (w1 := ex_m2); [reflexivity|..].
  { intros x E; discriminate. }
  { intros n a [[= <- <-]|[[= <- <-]|[]]] [E|[]]; try discriminate. repeat constructor. }
  { split; [jax_tac|]. split.
    - repeat constructor; [|exact K]. intros l Hl. inversion Hl as [v x Hv| | | | | | |]; subst. inversion Hv; subst. cbn. auto.
    - intros n a [[= <- <-]|[[= <- <-]|[]]] E; [exfalso; apply E; now left|]. intros l Hl. inversion Hl as [v x Hv| | | | | | |]; subst. inversion Hv; congruence. }
  { apply names_okb_ok; vm_compute; reflexivity. }
  { apply ex_jarg_ok. intros v [= <-]. exact Logic.I. }
  { vm_compute; reflexivity. }
  { intros out _ _. split; [nodes_tac|apply names_okb_ok; vm_compute; reflexivity]. }
  { intros out [= <-]. split; [|intros _; jax_tac]. intros l Hl. inversion Hl as [| | | | |d a x Hin Hl2| |]; subst. destruct Hin as [<-|[<-|[]]]; [now apply K|].
    inversion Hl2 as [v x Hv| | | | | | |]; subst. inversion Hv; subst. exact Logic.I. }
  cbn [next]. eapply pl_remat; [reflexivity|eexists; split; reflexivity|intros z []|..].
  { split; [jax_tac|]. intros [|i] x; discriminate. }
  { apply names_okb_ok; vm_compute; reflexivity. }
  { unfold body, ex_k3, k_fun. apply ok_do; [split; [exact Logic.I|reflexivity]|]. intros; constructor. }
  { vm_compute; reflexivity. }
  { intros out; discriminate. } { intros out; discriminate. }
  cbn [next]. eapply pl_grad with (diff := [("head/w", param 8); ("inp/w", param 11); ("out/w", param 12); ("w", param 10)]) (w1 := ex_m4) (res := Ok (PyTuple [PyInt 3%Z; PyStr "aux"])).
  { reflexivity. } { vm_compute. reflexivity. }
  { apply names_okb_ok; vm_compute; reflexivity. }
  { unfold ex_loss. repeat (apply ok_do; [first [exact Logic.I|split; [exact Logic.I|reflexivity]]|intros ? _]). constructor. }
  { vm_compute; reflexivity. }
  { intros out _ _. split; [nodes_tac|apply names_okb_ok; vm_compute; reflexivity]. }
  { do 2 eexists. split; [reflexivity|]. split; [reflexivity|]. do 2 eexists. split; reflexivity. }
  constructor.
Qed.
