(** Prop_Transform: C46-C48, nnx.jit and nnx.grad.

    The user function is any program over modules (Spec_Prog); the trace [t]
    under which jax runs it is arbitrary. *)
From Coq Require Import ZArith Lia.
From Verif Require Import PyBase PyBaseFacts ValuesM Spec_Eq FiltersM StateM ModuleM TransformM Spec_Module Spec_Prog.
From Verif Require Import Graph_facts Bisim_proofs Laws_proofs Transform_proofs Ex_Module.
Local Open Scope string_scope.
Local Open Scope list_scope.

(** *** C46 *)
(** A function that, called directly, returns [out] and changes only node
    attributes (new values, new attributes) returns the same through jit, and
    the module then looks the same along every path, with the same sharing and
    the same state.  Objects that are not below the module do not change. *)
Theorem C46_jit :
  forall A (f : prog A) w r t wd out,
  ok_prog f -> wf_world w -> r < List.length (w_heap w) -> names_ok w r -> live w r ->
  user_fun f w r = (wd, Ok out) -> nodes_only w wd r -> names_ok wd r ->
  exists w', jit_call true t (user_fun f) w r = (w', Ok out) /\
    (forall p, look w' r p = look wd r p) /\
    (forall p, follow w' r p = follow wd r p) /\
    get_state w' r = get_state wd r /\
    w_trace w' = w_trace w /\
    (forall x o, get_obj w x = Some o -> ~ reaches w r x -> get_obj w' x = Some o).
Proof.
  intros A f w r t wd out Hf Hw Hr Hno Hlive Hrun HN Hnod.
  destruct (jit_same f w r t wd out Hf Hw Hr Hno Hlive Hrun HN Hnod) as (w' & E & W & T & N & B & F).
  destruct (get_obj_ex _ _ Hr) as [o Ho]. assert (Hrr : reaches w r r) by (eapply reaches_refl; eauto).
  assert (Hwd : wf_world wd).
  { destruct (partition_all w r Hw Hr) as (p & s & Hp & Es).
    destruct (inner_run f w r [] p t [s] Hf Hw Hr Hno Hlive Hp) as (m & w1 & wd' & w2 & res & Hm & E1 & E2 & W1 & _).
    { rewrite Es. reflexivity. } congruence. }
  exists w'. split; [exact E|]. split; [intros p; exact (bisim_look _ _ _ p B r r (conj eq_refl Hrr))|].
  split. { intros p. pose proof (bisim_follow_iff _ _ _ p B r r (conj eq_refl Hrr)) as G.
    destruct (follow w' r p), (follow wd r p); try contradiction; [destruct G as [-> _]|]; reflexivity. }
  split. { eapply bisim_get_state; [exact W|exact Hwd|exact B| |cbn; auto]. destruct HN as [HN _]. congruence. }
  auto.
Qed.
Print Assumptions C46_jit.

(** An exception raised by the function comes out unchanged, and nothing has been
    written. *)
Theorem C46_exception :
  forall A (f : prog A) w r t stateful wd e,
  ok_prog f -> wf_world w -> r < List.length (w_heap w) -> names_ok w r -> live w r -> user_fun f w r = (wd, Err e) ->
  exists w', jit_call stateful t (user_fun f) w r = (w', Err e) /\ all_unchanged w w' /\ w_trace w' = w_trace w.
Proof. intros A f w r t st wd e. apply jit_raises. Qed.
Print Assumptions C46_exception.

(** With stateful=False the results are those of the direct call, for every
    function, and the module is unchanged. *)
Theorem C46_stateless :
  forall A (f : prog A) w r t wd res,
  ok_prog f -> wf_world w -> r < List.length (w_heap w) -> names_ok w r -> live w r -> user_fun f w r = (wd, res) ->
  exists w', jit_call false t (user_fun f) w r = (w', res) /\ all_unchanged w w' /\ w_trace w' = w_trace w.
Proof. intros A f w r t wd res. apply jit_stateless. Qed.
Print Assumptions C46_stateless.

Theorem C46_not_a_module :
  forall A (f : world -> nat -> world * result A) stateful t w a, is_submodule a = false ->
  jit_call_any stateful t f w a = (w, Err TypeError).
Proof. intros A f st t w a H. destruct a as [[]|]; try reflexivity. discriminate. Qed.
Print Assumptions C46_not_a_module.

(** Example: follow inp.norm, put a new value into its mean, add an array "steps"
    to the root, create a scratch module and store a value there, return whether
    out.norm is the same object. *)
Definition ex_prog : prog bool :=
  Do (CGet 0 "inp") (fun _ => Do (CGet 1 "norm") (fun _ =>
  Do (CSet 2 "mean" (arr 77)) (fun _ => Do (CSet 0 "steps" (arr 1)) (fun _ =>
  Do (CNew (Mod_cls "Scratch")) (fun _ => Do (CSet 3 "x" (param 5)) (fun _ =>
  Do (CGet 0 "out") (fun _ => Do (CGet 4 "norm") (fun _ =>
  Do (CSame 2 5) (fun a => Finish (match a with ABool b => Ok b | _ => Err UserError end)))))))))).
Definition ex_prog_world : world := fst (user_fun ex_prog ex_cyc 0).
Lemma ex_prog_ok : ok_prog ex_prog.
Proof.
  unfold ex_prog.
  repeat (apply ok_do; [first [exact Logic.I | split; [exact Logic.I|reflexivity] | split; [apply wf_containerb_ok; reflexivity|reflexivity] | cbn; auto]|intros ? _]).
  constructor.
Qed.
Lemma ex_prog_nodes : nodes_only ex_cyc ex_prog_world 0.
Proof.
  split; [reflexivity|]. intros x [p Hx]. apply follow_valid in Hx as [o Ho]. pose proof (get_obj_lt _ _ _ Ho) as Hlt.
  assert (Hnode : forall w x n a o, get_obj w x = Some o -> dget n (m_vars o) = Some a -> is_submodule a = false ->
     is_node (w_nodes w) a = true -> node_attr w x n a).
  { intros. apply Dfs_proofs.node_attr_iff. eauto. }
  cbn in Hlt. do 5 try (destruct x as [|x]; [eexists _, _; split; [vm_compute; reflexivity|]; split; [vm_compute; reflexivity|];
    split; [reflexivity|]; split; [reflexivity|]; intros n; cbn [m_vars dget];
    repeat match goal with |- context [String.eqb n ?k] => destruct (String.eqb_spec n k) as [->|?]; [try (left; reflexivity)|] end;
    try exact Logic.I|]); [| |lia].
  - eapply Hnode; vm_compute; reflexivity.
  - right. split; [eapply Hnode; vm_compute; reflexivity|]. split; [eapply Hnode; vm_compute; reflexivity|]. repeat split. apply ValuesFacts.same_meta_refl.
Qed.
Example C46_example :
  ok_prog ex_prog /\ user_fun ex_prog ex_cyc 0 = (ex_prog_world, Ok true) /\ nodes_only ex_cyc ex_prog_world 0 /\ names_ok ex_prog_world 0 /\
  look ex_prog_world 0 ["out"; "norm"; "mean"] = SValue (stat 77) /\ look ex_prog_world 0 ["steps"] = SValue (arr 1) /\
  exists w', jit_call true (7, 7) (user_fun ex_prog) ex_cyc 0 = (w', Ok true) /\ look w' 0 ["out"; "norm"; "mean"] = SValue (stat 77).
Proof.
  split; [exact ex_prog_ok|]. split; [vm_compute; reflexivity|]. split; [exact ex_prog_nodes|].
  split; [apply names_okb_ok; vm_compute; reflexivity|]. split; [vm_compute; reflexivity|]. split; [vm_compute; reflexivity|].
  eexists. split; vm_compute; reflexivity.
Qed.

(** *** C47 *)
(** The claim is false: whatever the function does, no attribute of any module
    disappears in a jitted call, *)
Theorem C47_nothing_is_removed :
  forall A (f : prog A) w r t stateful w' res,
  ok_prog f -> wf_world w -> r < List.length (w_heap w) -> names_ok w r -> live w r -> jit_call stateful t (user_fun f) w r = (w', res) ->
  forall x o n, get_obj w x = Some o -> In n (keys (m_vars o)) -> exists o', get_obj w' x = Some o' /\ In n (keys (m_vars o')).
Proof. intros A f w r t st w' res. apply jit_keeps. Qed.
Print Assumptions C47_nothing_is_removed.
(** so a function that deletes an attribute has another effect through jit. *)
Definition ex_del : prog unit := Do (CDel 0 "w") (fun a => Finish (match a with ADone => Ok tt | _ => Err UserError end)).
Theorem C47_deletion_refuted :
  exists (f : prog unit) w r t wd w' p, ok_prog f /\ wf_world w /\ r < List.length (w_heap w) /\ names_ok w r /\ live w r /\
    user_fun f w r = (wd, Ok tt) /\ jit_call true t (user_fun f) w r = (w', Ok tt) /\
    look wd r p = SNothing /\ look w' r p = SValue (param 10).
Proof.
  destruct ex_cyc_ok as (A & B & C & D).
  exists ex_del, ex_cyc, 0, (7, 7). do 2 eexists. exists ["w"].
  split; [unfold ex_del; constructor; [exact Logic.I|intros; constructor]|]. do 4 (split; [assumption|]).
  split; [vm_compute; reflexivity|]. split; [vm_compute; reflexivity|]. split; vm_compute; reflexivity.
Qed.
Print Assumptions C47_deletion_refuted.
Example C47_example : exists w', jit_call true (7, 7) (user_fun ex_del) ex_cyc 0 = (w', Ok tt).
Proof. eexists. vm_compute. reflexivity. Qed.

(** *** C48 *)
(** The gradients: exactly the keys of [m.filter(wrt)], each with the container
    class and metadata of the attribute it belongs to; the function ran with the
    effect it has when called directly on [m]; the auxiliary value is returned. *)
Definition same_wrapper (a b : attr) : Prop :=
  match a, b with
  | ARaw _, ARaw _ => True
  | ACont c, ACont d => c_cls c = c_cls d /\ c_meta c = c_meta d
  | _, _ => False
  end.
Theorem C48_grad :
  forall (f : prog pyval) w r wrt t leaf_grad has_aux wd out,
  ok_prog f -> wf_world w -> r < List.length (w_heap w) -> names_ok w r -> live w r -> (exists pred, to_predicate wrt = Ok pred) ->
  user_fun f w r = (wd, Ok out) -> nodes_only w wd r -> names_ok wd r ->
  (has_aux = true -> exists loss aux, out = PyTuple [loss; aux]) ->
  exists w' diff grads, module_filter w r wrt [] = Ok (One diff) /\
    grad_call true has_aux wrt t leaf_grad (user_fun f) w r =
      (w', Ok (grads, match has_aux, out with true, PyTuple [_; aux] => Some aux | _, _ => None end)) /\
    keys grads = keys diff /\
    (forall k a, dget k diff = Some a -> exists b, dget k grads = Some b /\ same_wrapper a b) /\
    (forall p, look w' r p = look wd r p) /\ (forall p, follow w' r p = follow wd r p) /\
    (forall x o, get_obj w x = Some o -> ~ reaches w r x -> get_obj w' x = Some o) /\ w_trace w' = w_trace w.
Proof.
  intros f w r wrt t g has_aux wd out Hf Hw Hr Hno Hlive [pred Hp] Hrun HN Hnod Haux.
  assert (Ha : exists aux, aux_of true has_aux out = Ok aux /\
     aux = match has_aux, out with true, PyTuple [_; aux] => Some aux | _, _ => None end).
  { destruct has_aux; [destruct (Haux eq_refl) as (loss & aux & ->)|]; eexists; split; reflexivity. }
  destruct Ha as (aux & Ha & Eaux).
  destruct (grad_same f w r wrt t g has_aux wd out aux pred Hf Hw Hr Hno Hlive Hp Hrun Ha HN Hnod) as (w' & diff & Hfl & E & W & T & N & B & F).
  destruct (get_obj_ex _ _ Hr) as [o Ho]. assert (Hrr : reaches w r r) by (eapply reaches_refl; eauto).
  exists w', diff, (grad_tree g diff). split; [exact Hfl|]. rewrite <- Eaux. split; [exact E|]. split; [apply grad_tree_keys|].
  split. { intros k a Hk. eexists. split; [apply grad_tree_get; exact Hk|]. destruct a; cbn; auto. }
  split; [intros p; exact (bisim_look _ _ _ p B r r (conj eq_refl Hrr))|].
  split. { intros p. pose proof (bisim_follow_iff _ _ _ p B r r (conj eq_refl Hrr)) as G.
    destruct (follow w' r p), (follow wd r p); try contradiction; [destruct G as [-> _]|]; reflexivity. }
  auto.
Qed.
Print Assumptions C48_grad.

(** stateful=False: the same gradients and auxiliary value, and nothing changes,
    for every function. *)
Theorem C48_stateless :
  forall (f : prog pyval) w r wrt t leaf_grad has_aux wd out,
  ok_prog f -> wf_world w -> r < List.length (w_heap w) -> names_ok w r -> live w r -> (exists pred, to_predicate wrt = Ok pred) ->
  user_fun f w r = (wd, Ok out) ->
  (has_aux = true -> exists loss aux, out = PyTuple [loss; aux]) ->
  exists w' diff grads, module_filter w r wrt [] = Ok (One diff) /\
    grad_call false has_aux wrt t leaf_grad (user_fun f) w r =
      (w', Ok (grads, match has_aux, out with true, PyTuple [_; aux] => Some aux | _, _ => None end)) /\
    keys grads = keys diff /\
    (forall k a, dget k diff = Some a -> exists b, dget k grads = Some b /\ same_wrapper a b) /\
    all_unchanged w w' /\ w_trace w' = w_trace w.
Proof.
  intros f w r wrt t g has_aux wd out Hf Hw Hr Hno Hlive [pred Hp] Hrun Haux.
  assert (Ha : exists aux, aux_of false has_aux out = Ok aux /\
     aux = match has_aux, out with true, PyTuple [_; aux] => Some aux | _, _ => None end).
  { destruct has_aux; [destruct (Haux eq_refl) as (loss & aux & ->)|]; eexists; split; reflexivity. }
  destruct Ha as (aux & Ha & Eaux).
  destruct (grad_stateless f w r wrt t g has_aux wd out aux pred Hf Hw Hr Hno Hlive Hp Hrun Ha) as (w' & diff & Hfl & E & F & T).
  exists w', diff, (grad_tree g diff). split; [exact Hfl|]. rewrite <- Eaux. split; [exact E|]. split; [apply grad_tree_keys|].
  split; [|auto]. intros k a Hk. eexists. split; [apply grad_tree_get; exact Hk|]. destruct a; cbn; auto.
Qed.
Print Assumptions C48_stateless.

(** has_aux, and the function does not return a pair: an exception, and nothing
    changes.  It is TypeError, except that a stateful transform gets python's
    ValueError from a tuple or a string of another length. *)
Theorem C48_bad_result :
  forall (f : prog pyval) w r wrt t leaf_grad stateful wd out,
  ok_prog f -> wf_world w -> r < List.length (w_heap w) -> names_ok w r -> live w r -> (exists pred, to_predicate wrt = Ok pred) ->
  user_fun f w r = (wd, Ok out) -> (forall loss aux, out <> PyTuple [loss; aux]) ->
  exists w' e, grad_call stateful true wrt t leaf_grad (user_fun f) w r = (w', Err e) /\ all_unchanged w w' /\ w_trace w' = w_trace w /\
    (e = TypeError \/ e = ValueError) /\
    (e = ValueError <-> stateful = true /\ ((exists l, out = PyTuple l) \/ exists s, out = PyStr s /\ String.length s <> 2)).
Proof.
  intros f w r wrt t g st wd out Hf Hw Hr Hno Hlive [pred Hp] Hrun Hno2.
  assert (He : exists e, aux_of st true out = Err e /\ (e = TypeError \/ e = ValueError) /\
     (e = ValueError <-> st = true /\ ((exists l, out = PyTuple l) \/ exists s, out = PyStr s /\ String.length s <> 2))).
  { unfold aux_of, unpack2. destruct out as [|b|z|s|l|r0|c i].
    4: { destruct st; cbn [andb]; [destruct (Nat.eqb_spec (String.length s) 2) as [E|E]; cbn [negb]|]; eexists; (split; [reflexivity|]); (split; [auto|]).
         - split; [discriminate|]. intros (_ & [[l El]|(s' & Es & Hs)]); [discriminate|]. injection Es as <-. congruence.
         - split; [|reflexivity]. intros _. split; [reflexivity|]. right. eauto.
         - split; [discriminate|]. intros (? & _). discriminate. }
    4: { assert (Hl : (match l with [a; b] => Ok (a, b) | _ => if st then Err ValueError else Err TypeError end) = if st then Err ValueError else @Err (pyval * pyval) TypeError).
         { destruct l as [|a [|b [|]]]; auto. exfalso. eapply Hno2. reflexivity. }
         rewrite Hl. destruct st; eexists; (split; [reflexivity|]); (split; [auto|]).
         - split; [|reflexivity]. intros _. split; [reflexivity|]. left. eauto.
         - split; [discriminate|]. intros (? & _). discriminate. }
    all: eexists; (split; [reflexivity|]); (split; [auto|]); split; [discriminate|]; intros (_ & [[l El]|(s' & Es & _)]); discriminate. }
  destruct He as (e & He & H1 & H2).
  destruct (grad_no_pair f w r wrt t g st wd out e pred Hf Hw Hr Hno Hlive Hp Hrun He) as (w' & E & F & T). exists w', e. auto.
Qed.
Print Assumptions C48_bad_result.

Theorem C48_exception :
  forall (f : prog pyval) w r wrt t leaf_grad stateful has_aux wd e,
  ok_prog f -> wf_world w -> r < List.length (w_heap w) -> names_ok w r -> live w r -> (exists pred, to_predicate wrt = Ok pred) ->
  user_fun f w r = (wd, Err e) ->
  exists w', grad_call stateful has_aux wrt t leaf_grad (user_fun f) w r = (w', Err e) /\ all_unchanged w w' /\ w_trace w' = w_trace w.
Proof. intros f w r wrt t g st ha wd e Hf Hw Hr Hno Hlive [pred Hp] Hrun. eapply grad_raises; eauto. Qed.
Print Assumptions C48_exception.

(** Example: a loss that updates the mean and returns an auxiliary value. *)
Definition ex_loss : prog pyval :=
  Do (CGet 0 "inp") (fun _ => Do (CGet 1 "norm") (fun _ => Do (CSet 2 "mean" (arr 77)) (fun _ =>
  Finish (Ok (PyTuple [PyInt 3%Z; PyStr "aux"]))))).
Definition ex_loss_world : world := fst (user_fun ex_loss ex_cyc 0).
Lemma ex_loss_nodes : nodes_only ex_cyc ex_loss_world 0.
Proof.
  split; [reflexivity|]. intros x [p Hx]. apply follow_valid in Hx as [o Ho]. pose proof (get_obj_lt _ _ _ Ho) as Hlt.
  assert (Hnode : forall w x n a o, get_obj w x = Some o -> dget n (m_vars o) = Some a -> is_submodule a = false ->
     is_node (w_nodes w) a = true -> node_attr w x n a).
  { intros. apply Dfs_proofs.node_attr_iff. eauto. }
  cbn in Hlt. do 5 try (destruct x as [|x]; [eexists _, _; split; [vm_compute; reflexivity|]; split; [vm_compute; reflexivity|];
    split; [reflexivity|]; split; [reflexivity|]; intros n; cbn [m_vars dget];
    repeat match goal with |- context [String.eqb n ?k] => destruct (String.eqb_spec n k) as [->|?]; [try (left; reflexivity)|] end;
    try exact Logic.I|]); [|lia].
  right. split; [eapply Hnode; vm_compute; reflexivity|]. split; [eapply Hnode; vm_compute; reflexivity|]. repeat split. apply ValuesFacts.same_meta_refl.
Qed.
Example C48_example :
  ok_prog ex_loss /\ user_fun ex_loss ex_cyc 0 = (ex_loss_world, Ok (PyTuple [PyInt 3%Z; PyStr "aux"])) /\
  nodes_only ex_cyc ex_loss_world 0 /\ names_ok ex_loss_world 0 /\ (exists pred, to_predicate (FType "Param") = Ok pred) /\
  (exists w', grad_call true true (FType "Param") (0, 7) (fun _ _ => PyObj Array_cls 500) (user_fun (Finish (Ok (PyTuple [])))) ex_cyc 0 = (w', Err ValueError)) /\
  exists w' grads, grad_call true true (FType "Param") (0, 7) (fun _ _ => PyObj Array_cls 500) (user_fun ex_loss) ex_cyc 0 =
    (w', Ok (grads, Some (PyStr "aux"))) /\ keys grads = ["inp/w"; "out/w"; "w"] /\ look w' 0 ["out"; "norm"; "mean"] = SValue (stat 77).
Proof.
  split. { unfold ex_loss. repeat (apply ok_do; [first [exact Logic.I | split; [exact Logic.I|reflexivity]]|intros ? _]). constructor. }
  split; [vm_compute; reflexivity|]. split; [exact ex_loss_nodes|].
  split; [apply names_okb_ok; vm_compute; reflexivity|]. split; [eexists; reflexivity|].
  split; [eexists; vm_compute; reflexivity|].
  eexists _, _. split; [vm_compute; reflexivity|]. split; vm_compute; reflexivity.
Qed.
