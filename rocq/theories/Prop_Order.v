(** Prop_Order: C116, several calls of update_state. *)
From Coq Require Import Permutation Lia.
From Verif Require Import PyBase PyBaseFacts ValuesM Spec_Eq ValuesFacts FiltersM StateM ModuleM
  Spec_Module Spec_Prog Spec_GradFun Spec_TrainLoop Spec_Address Graph_facts Dfs_proofs Address_proofs Ex_Module Prop_TrainLoop Prop_Address Spec_Order Order_proofs.
Local Open Scope string_scope.
Local Open Scope list_scope.

(** *** C116 *)
(** Calls on any Modules, which may share parts or be parts of each other, by any names: if
    no attribute gets two values, all orders of the calls have the same effect. *)
Theorem C116_order :
  forall w calls calls', wf_world w -> Forall (ready w) calls -> all_disjoint w calls -> Permutation calls calls' ->
  exists w1 w2, update_all w calls = (w1, Ok tt) /\ update_all w calls' = (w2, Ok tt) /\ same_everywhere w1 w2 /\ w_trace w1 = w_trace w2.
Proof. exact any_order. Qed.
Print Assumptions C116_order.
(** That effect: every attribute that gets a value has it, all others are as before. *)
Theorem C116_effect :
  forall w calls, wf_world w -> Forall (ready w) calls -> all_disjoint w calls ->
  exists w', update_all w calls = (w', Ok tt) /\ (forall x q, follow w' x q = follow w x q) /\
    (forall c x n a res, In c calls -> gives w c x n a -> stored w x n a res -> look w' x [n] = SValue res) /\
    (forall x n, (forall c a, In c calls -> ~ gives w c x n a) -> look w' x [n] = look w x [n]).
Proof. exact calls_effect. Qed.
Print Assumptions C116_effect.
(** It does not matter how the values are distributed over calls and Modules: a model can be
    loaded at once or layer by layer. *)
Theorem C116_same :
  forall w calls calls', wf_world w -> Forall (ready w) calls -> all_disjoint w calls -> Forall (ready w) calls' -> all_disjoint w calls' ->
  (forall x n a, (exists c, In c calls /\ gives w c x n a) <-> (exists c, In c calls' /\ gives w c x n a)) ->
  exists w1 w2, update_all w calls = (w1, Ok tt) /\ update_all w calls' = (w2, Ok tt) /\ same_everywhere w1 w2 /\ w_trace w1 = w_trace w2.
Proof. exact calls_same. Qed.
Print Assumptions C116_same.
(** [module.update_state((s1, ..., sn))] is one call per State, in any order. *)
Theorem C116_split :
  forall w r ss ss', wf_world w -> ready w (r, List.concat ss) -> Permutation ss ss' ->
  exists w1 w2, update_state w r (UStates (Many ss)) = (w1, Ok tt) /\ update_all w (map (pair r) ss') = (w2, Ok tt) /\ same_everywhere w1 w2 /\ w_trace w1 = w_trace w2.
Proof.
  intros w r ss ss' W R P. destruct (split_calls w r ss W R) as (w1 & w2 & U1 & U2 & (S1 & S2 & S3 & S4) & T). destruct (ready_parts w r ss R) as (Rs & Ds & _).
  destruct (any_order w (map (pair r) ss) (map (pair r) ss') W Rs Ds (Permutation_map (pair r) P)) as (w2' & w3 & U2' & U3 & (S1' & S2' & S3' & S4') & T').
  assert (w2' = w2) by congruence. subst w2'. exists w1, w3. split; [exact U1|]. split; [exact U3|]. split; [|congruence].
  split; [intros; rewrite S1; apply S1'|]. split; [intros; rewrite S2; apply S2'|]. split; [intros; rewrite S3; apply S3'|intros; rewrite S4; apply S4'].
Qed.
Print Assumptions C116_split.
(** A call that gives values, of the same kinds, to all attributes of an earlier call undoes
    it, also when the two are calls on different Modules. *)
Theorem C116_last :
  forall w c c', wf_world w -> ready w c -> ready w c' ->
  (forall x n a, gives w c x n a -> exists a', gives w c' x n a' /\ same_shape a a') ->
  exists w1 w2, update_all w [c; c'] = (w1, Ok tt) /\ update_all w [c'] = (w2, Ok tt) /\ same_everywhere w1 w2 /\ w_trace w1 = w_trace w2.
Proof. exact last_call. Qed.
Print Assumptions C116_last.

(** *** Cases *)
(** The model, a layer of it and the norm that its layers share; each by other names. *)
Definition ex_a : nat * state := (0, [("inp/norm/parent/inp/w", param 51); ("scale", arr 5)]).
Definition ex_b : nat * state := (2, [("norm/mean", stat 7); ("w", param 8)]).
Definition ex_c : nat * state := (3, [("parent/w", param 1)]).
Ltac names := intros k x n Hk Hn; apply named_target in Hn; cbn in Hk;
  repeat match type of Hk with _ \/ _ => destruct Hk as [<-|Hk] end; try (now destruct Hk); vm_compute in Hn; injection Hn as <- <-; reflexivity.
Ltac ready := split; [vm_compute; lia|]; split; [apply names_okb_ok; vm_compute; reflexivity|]; split; [apply liveb_ok; vm_compute; reflexivity|]; split; [cbn [fst snd]; fits|names].
Ltac apart := intros x n a a' (k & Hk & Hn) (k' & Hk' & Hn'); apply dget_In_keys in Hk, Hk'; apply named_target in Hn, Hn'; cbn in Hk, Hk';
  repeat match type of Hk with _ \/ _ => destruct Hk as [<-|Hk] end; try (now destruct Hk);
  repeat match type of Hk' with _ \/ _ => destruct Hk' as [<-|Hk'] end; try (now destruct Hk'); vm_compute in Hn, Hn'; congruence.
Example C116_hyps : wf_world ex_cyc /\ Forall (ready ex_cyc) [ex_a; ex_b; ex_c] /\ all_disjoint ex_cyc [ex_a; ex_b; ex_c].
Proof.
  split; [apply ex_cyc_ok|]. split.
  - unfold ex_a, ex_b, ex_c. constructor; [ready|]. constructor; [ready|]. constructor; [ready|constructor].
  - unfold ex_a, ex_b, ex_c, all_disjoint. constructor; [constructor; [apart|constructor; [apart|constructor]]|]. constructor; [constructor; [apart|constructor]|]. constructor; constructor.
Qed.
Example C116_example :
  exists w', update_all ex_cyc [ex_c; ex_a; ex_b] = (w', Ok tt) /\
    get_state w' 0 = Ok [("inp/norm/mean", stat 7); ("inp/w", param 51); ("out/buf", arr 13); ("out/w", param 8); ("scale", arr 5); ("w", param 1)].
Proof. eexists. split; vm_compute; reflexivity. Qed.
Example C116_split_hyps : ready ex_cyc (0, List.concat [[("out/norm/mean", stat 7)]; [("w", param 1); ("inp/w", param 2)]]).
Proof. cbn [List.concat app]. ready. Qed.
Example C116_last_hyps : ready ex_cyc (0, [("out/norm/mean", stat 7)]) /\ ready ex_cyc (1, [("norm/mean", stat 9); ("w", param 3)]) /\
  forall x n a, gives ex_cyc (0, [("out/norm/mean", stat 7)]) x n a -> exists a', gives ex_cyc (1, [("norm/mean", stat 9); ("w", param 3)]) x n a' /\ same_shape a a'.
Proof.
  split; [ready|]. split; [ready|]. intros x n a (k & Hk & Hn). cbn [fst snd dget] in Hk, Hn. destruct (String.eqb_spec k "out/norm/mean") as [Ek|]; [|discriminate]. injection Hk as <-. rewrite Ek in Hn. apply named_target in Hn. vm_compute in Hn. injection Hn as <- <-.
  exists (stat 9). split; [|vm_compute; auto]. exists "norm/mean". split; [reflexivity|]. apply named_target. vm_compute. reflexivity.
Qed.

(** *** Where it fails *)
(** Two States that give one attribute values of different kinds: in one call the array takes
    the place, in two calls it goes into the Variable that the first one made. *)
Theorem C116_kinds_refuted :
  exists w r s1 s2 w1 w2, ready w (r, s1) /\ ready w (r, s2) /\
    update_state w r (UStates (Many [s1; s2])) = (w1, Ok tt) /\ update_all w [(r, s1); (r, s2)] = (w2, Ok tt) /\
    look w1 r ["extra"] = SValue (arr 6) /\ exists c, look w2 r ["extra"] = SValue (ACont c) /\ ARaw (c_val c) = arr 6.
Proof.
  exists ex_cyc, 0, [("extra", param 5)], [("extra", arr 6)]. eexists _, _. split; [ready|]. split; [ready|]. split; [vm_compute; reflexivity|]. split; [vm_compute; reflexivity|]. split; [vm_compute; reflexivity|].
  eexists. split; vm_compute; reflexivity.
Qed.
Print Assumptions C116_kinds_refuted.
