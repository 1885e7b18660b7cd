(** Prop_Ptree: C38 (flattening) and C41 (serialization) of Pytree values. *)
From Coq Require Import ZArith.
From Verif Require Import PyBase PyBaseFacts ValuesM Spec_Eq PytreeM PtreeM Spec_Ptree Ptree_proofs.
Local Open Scope string_scope.
Local Open Scope list_scope.

(** *** C38 *)
(** Flattening succeeds, unflattening gives the value back up to the order of its
    fields, and flattening that again gives the same leaves and the same treedef. *)
Theorem C38_roundtrip :
  forall t, wf_tree t ->
  exists ls d t', flatten t = Ok (ls, d) /\ unflatten d ls = Ok (t', []) /\ same_tree t t' /\ wf_tree t' /\
                  flatten t' = Ok (ls, d).
Proof.
  intros t W. destruct (wf_round t W) as (ls & d & F & L & R).
  assert (K : Forall2 same_kind ls ls).
  { clear - L. induction L; constructor; auto. split; [assumption|]. split; reflexivity. }
  destruct (R ls [] K) as (t' & U & F' & _ & _ & W' & S). rewrite app_nil_r in U. exists ls, d, t'.
  split; [exact F|]. split; [exact U|]. split; [now apply S|]. split; assumption.
Qed.
Print Assumptions C38_roundtrip.
(** With other leaves of the same kinds: the result has exactly these leaves, in this
    order, and the same treedef (so [tree_map] keeps the structure). *)
Theorem C38_other_leaves :
  forall t ls d ls', wf_tree t -> flatten t = Ok (ls, d) -> Forall2 same_kind ls ls' ->
  exists t', unflatten d ls' = Ok (t', []) /\ flatten t' = Ok (ls', d) /\ wf_tree t'.
Proof.
  intros t ls d ls' W F K. destruct (wf_round t W) as (ls0 & d0 & F0 & L & R). rewrite F in F0. injection F0 as <- <-.
  destruct (R ls' [] K) as (t' & U & F' & _ & _ & W' & _). rewrite app_nil_r in U. eauto.
Qed.
Print Assumptions C38_other_leaves.
(** Too few leaves are refused with ValueError. *)
Theorem C38_too_few :
  forall t ls d ls', wf_tree t -> flatten t = Ok (ls, d) -> List.length ls' < List.length ls -> unflatten d ls' = Err ValueError.
Proof.
  intros t ls d ls' W F L. destruct (C38_roundtrip t W) as (ls0 & d0 & t' & F0 & U & _). rewrite F in F0. injection F0 as <- <-.
  exact (unflatten_too_few d ls t' ls' U L).
Qed.
Print Assumptions C38_too_few.
(** Values that differ in the order of their fields flatten to the same leaves and the
    same treedef. *)
Theorem C38_canonical :
  forall t u, same_tree t u -> wf_tree t -> wf_tree u -> flatten t = flatten u.
Proof. exact flatten_same. Qed.
Print Assumptions C38_canonical.
(** In particular the order in which a constructor assigns the fields does not matter. *)
Theorem C38_assignment_order :
  forall k d e, wf_tree (TObj k d) -> wf_tree (TObj k e) -> (forall n, dget n d = dget n e) ->
  flatten (TObj k d) = flatten (TObj k e).
Proof.
  intros k d e W1 W2 E. apply flatten_same; auto. constructor.
  - intros n. now rewrite E.
  - intros n x y G1 G2 _. congruence.
  - intros n x y G1 G2 _. rewrite E, G2 in G1. injection G1 as <-. constructor.
Qed.
Print Assumptions C38_assignment_order.

(** Deleting a field (which nothing forbids, C39_delete_refuted) leaves an object that
    no jax function takes: flattening it raises KeyError, and AttributeError if it is
    the list of field names that was deleted. *)
Theorem C38_deleted_field :
  forall k d n, wf_tree (TObj k d) -> In n (keys d) ->
  flatten (TObj k (ddel n d)) = Err (if String.eqb n F_SORTED then AttributeError else KeyError).
Proof. exact flatten_deleted. Qed.
Print Assumptions C38_deleted_field.

(** The kind of a leaf matters: an array field given a number comes back as a static
    field, with another treedef. *)
Definition ex_P : pclass := mkPcls ["P"; "Pytree"; "object"] false None.
Definition arr (i : nat) : ptree := TVal (PyObj ["jax.Array"; "object"] i).
Definition ex_in : ptree :=
  TObj ex_P [("w", arr 3); (F_SORTED, TNames [F_SORTED; "w"])].
Definition ex_t : ptree :=
  TObj ex_P [("z", TBox Node_cls [] (TVal (PyInt 1%Z))); ("a", ex_in); (F_SORTED, TNames [F_SORTED; "a"; "name"; "z"]);
             ("name", TVal (PyStr "p"))].
Theorem C38_kind_refuted :
  exists t ls d ls' t' ls'' d'', wf_tree t /\ flatten t = Ok (ls, d) /\ Forall leaf ls' /\ List.length ls' = List.length ls /\
    unflatten d ls' = Ok (t', []) /\ flatten t' = Ok (ls'', d'') /\ ls'' <> ls' /\ d'' <> d.
Proof.
  exists ex_in, [arr 3]. eexists _, [TVal (PyInt 0%Z)], _, _, _. split.
  { constructor; [vm_compute; repeat constructor; cbn; intuition discriminate|reflexivity|].
    intros n x H NE. cbn in H. destruct (String.eqb n "w"); [injection H as <-; constructor|].
    apply String.eqb_neq in NE. rewrite NE in H. discriminate. }
  split; [reflexivity|]. split; [repeat constructor; discriminate|]. split; [reflexivity|]. split; [reflexivity|].
  split; [reflexivity|]. split; discriminate.
Qed.
Print Assumptions C38_kind_refuted.

Lemma ex_t_wf : wf_tree ex_t.
Proof.
  constructor; [vm_compute; repeat constructor; cbn; intuition discriminate|reflexivity|].
  intros n x H NE. cbn in H. destruct (String.eqb n "z"); [injection H as <-|].
  { apply wft_box; [|reflexivity|constructor]. repeat split; cbn; try discriminate; try tauto. constructor. }
  destruct (String.eqb n "a"); [injection H as <-|].
  { constructor; [vm_compute; repeat constructor; cbn; intuition discriminate|reflexivity|].
    intros n' x H NE'. cbn in H. destruct (String.eqb n' "w"); [injection H as <-; constructor|].
    apply String.eqb_neq in NE'. rewrite NE' in H. discriminate. }
  apply String.eqb_neq in NE. rewrite NE in H. destruct (String.eqb n "name"); [injection H as <-; constructor|discriminate].
Qed.
Example C38_nonvacuous :
  wf_tree ex_t /\
  flatten ex_t = Ok ([arr 3; TVal (PyInt 1%Z)],
    DObj ex_P [("a", DObj ex_P [("w", DLeaf)] [(F_SORTED, TNames [F_SORTED; "w"])]); ("z", DBox Node_cls [] DLeaf)]
         [(F_SORTED, TNames [F_SORTED; "a"; "name"; "z"]); ("name", TVal (PyStr "p"))]).
Proof. split; [exact ex_t_wf|reflexivity]. Qed.
(** Static values in a dict: no leaves, kept in the treedef; of a subclass of Static: a leaf. *)
Example C38_static_nonvacuous :
  let sub := TBox ("Tag" :: Static_cls) [] (TVal (PyInt 2%Z)) in
  let t := TDict [("b", sub); ("a", TBox Static_cls [] (TVal (PyStr "x"))); ("c", arr 1)] in
  wf_tree t /\ flatten t = Ok ([sub; arr 1], DDict [("a", DStatic (TVal (PyStr "x"))); ("b", DLeaf); ("c", DLeaf)]).
Proof.
  split; [|reflexivity]. constructor; [repeat constructor; cbn; intuition discriminate|]. intros n x H. cbn in H.
  destruct (String.eqb n "b"); [injection H as <-; apply wft_leafbox; [reflexivity|discriminate]|].
  destruct (String.eqb n "a"); [injection H as <-; now apply wft_static|]. destruct (String.eqb n "c"); [injection H as <-; constructor|discriminate].
Qed.
Example C38_deleted_nonvacuous : flatten (TObj ex_P [("w", arr 3); (F_SORTED, TNames [F_SORTED; "b"; "w"])]) = Err KeyError.
Proof. reflexivity. Qed.

(** *** C41 *)
Theorem C41_roundtrip :
  forall t, restorable t -> exists t', from_sd t (to_sd t) = Ok t' /\ same_tree t t'.
Proof. exact from_to_sd. Qed.
Print Assumptions C41_roundtrip.
(** A missing field or an unknown one is refused; the error is ValueError unless
    restoring one of the fields fails first. *)
Theorem C41_mismatch :
  forall k d st, NoDup (keys d) -> NoDup (keys st) ->
  (exists n, (exists v, dget n d = Some v /\ is_node_t v = true) /\ ~ In n (keys st)) \/
  (exists n, In n (keys st) /\ ~ exists v, dget n d = Some v /\ is_node_t v = true) ->
  (forall t', from_sd (TObj k d) (TDict st) <> Ok t') /\
  ((forall n v s, dget n d = Some v -> is_node_t v = true -> dget n st = Some s -> exists x, from_sd v s = Ok x) ->
   from_sd (TObj k d) (TDict st) = Err ValueError).
Proof. exact from_sd_mismatch. Qed.
Print Assumptions C41_mismatch.
(** A container in the state dict is accepted only where the field is one of the
    same class and metadata. *)
Theorem C41_other_container :
  forall k d n c m x c' m' y, k_fields k = None -> NoDup (keys d) ->
  dget n d = Some (TBox c m x) -> is_node_t (TBox c m x) = true -> (forall n' v, dget n' d = Some v -> n' <> n -> is_node_t v = false) ->
  NoDup (keys m) -> NoDup (keys m') -> c <> c' \/ ~ same_meta m m' ->
  from_sd (TObj k d) (TDict [(n, TBox c' m' y)]) = Err ValueError.
Proof.
  intros k d n c m x c' m' y K ND G N O M M' D. rewrite from_sd_obj.
  assert (R : forall d, NoDup (keys d) -> (forall n' v, dget n' d = Some v -> n' <> n -> is_node_t v = false) ->
    (forall v, dget n d = Some v -> v = TBox c m x) ->
    restore_list d [(n, TBox c' m' y)] = if dmem n d then Ok ([(n, TBox c' m' y)], []) else Ok ([], [(n, TBox c' m' y)])).
  { assert (R0 : forall e st, (forall n' v, dget n' e = Some v -> is_node_t v = false) -> NoDup (keys e) -> restore_list e st = Ok ([], st)).
    { induction e as [|[n' v] e IH]; intros st H E; [reflexivity|]. inversion E as [|? ? E1 E2]; subst. cbn [restore_list].
      rewrite (H n' v) by (cbn; now rewrite String.eqb_refl). apply IH; [|exact E2]. intros n2 v2 H2. apply (H n2). cbn.
      destruct (String.eqb_spec n2 n') as [->|]; [|exact H2]. exfalso. apply E1. eapply dget_In_keys; eauto. }
    clear - N R0. induction d as [|[n' v] e IH]; intros E H1 H2; [reflexivity|]. inversion E as [|? ? E1 E2]; subst. cbn [restore_list].
    unfold dmem. cbn [dget]. destruct (String.eqb_spec n n') as [<-|NE].
    - rewrite (H2 v) by (cbn; now rewrite String.eqb_refl). rewrite N. cbn [from_sd rbind ddel]. rewrite String.eqb_refl.
      cbn [from_sd rbind]. rewrite R0; [reflexivity| |exact E2]. intros n2 v2 G2. assert (n2 <> n) by (intros ->; apply E1; eapply dget_In_keys; eauto).
      apply (H1 n2); [|assumption]. cbn. destruct (String.eqb_spec n2 n); [contradiction|exact G2].
    - rewrite (H1 n' v) by (cbn; rewrite ?String.eqb_refl; auto). fold (dmem n e). apply IH; [exact E2| |].
      + intros n2 v2 G2 X. assert (n2 <> n') by (intros ->; apply E1; eapply dget_In_keys; eauto).
        apply (H1 n2); [|assumption]. cbn. destruct (String.eqb_spec n2 n'); [contradiction|exact G2].
      + intros v2 G2. apply H2. cbn. destruct (String.eqb_spec n n'); [contradiction|exact G2]. }
  rewrite R; [|exact ND|exact O|intros v E; congruence]. unfold dmem. rewrite G. cbn [rbind fst snd]. unfold treplace. rewrite K. cbn [tset_all]. unfold tset. rewrite G.
  destruct (cls_eqb c c' && dict_eqb m m') eqn:B; [|reflexivity]. apply andb_prop in B as [B1 B2]. apply ValuesFacts.cls_eqb_eq in B1.
  apply (ValuesFacts.dict_eqb_spec m m' M M') in B2. tauto.
Qed.
Print Assumptions C41_other_container.
Example C41_other_container_example :
  let d := [("w", TBox ["Param"; "Variable"; "Node"; "Container"; "object"] [("sharding", PyNone)] (arr 3)); ("n", TVal (PyInt 1%Z))] in
  exists k, k_fields k = None /\ is_node_t (TBox ["Param"; "Variable"; "Node"; "Container"; "object"] [("sharding", PyNone)] (arr 3)) = true /\
    (forall n' v, dget n' d = Some v -> n' <> "w" -> is_node_t v = false).
Proof.
  exists ex_P. split; [reflexivity|]. split; [reflexivity|]. intros n' v. cbn. destruct (String.eqb_spec n' "w"); [contradiction|].
  destruct (String.eqb n' "n"); [intros [= <-] _; reflexivity|discriminate].
Qed.
(** A Pytree inside a container is not restored: the container comes back holding a
    plain dict. *)
Definition ex_boxed : ptree :=
  TObj ex_P [("m", TBox ["TreeNode"; "NodeBase"; "Container"; "object"] [] ex_in); (F_SORTED, TNames [F_SORTED; "m"])].
Theorem C41_boxed_pytree_refuted :
  exists t t', wf_tree t /\ from_sd t (to_sd t) = Ok t' /\ ~ same_tree t t'.
Proof.
  exists ex_boxed. eexists. split.
  { constructor; [vm_compute; repeat constructor; cbn; intuition discriminate|reflexivity|].
    intros n x H NE. cbn in H. destruct (String.eqb n "m"); [injection H as <-|apply String.eqb_neq in NE; rewrite NE in H; discriminate].
    apply wft_box; [repeat split; cbn; try discriminate; try tauto; constructor|reflexivity|].
    constructor; [vm_compute; repeat constructor; cbn; intuition discriminate|reflexivity|].
    intros n' x H NE'. cbn in H. destruct (String.eqb n' "w"); [injection H as <-; constructor|].
    apply String.eqb_neq in NE'. rewrite NE' in H. discriminate. }
  split; [vm_compute; reflexivity|]. intros S. inversion S as [| | |? ? ? K S1 S2]; subst.
  specialize (S2 "m" _ _ eq_refl eq_refl eq_refl). inversion S2 as [|? ? ? ? ? S3| |]; subst. inversion S3.
Qed.
Print Assumptions C41_boxed_pytree_refuted.

Example C41_nonvacuous :
  restorable ex_t /\
  to_sd ex_t = TDict [("z", TVal (PyInt 1%Z)); ("a", TDict [("w", arr 3)])] /\
  from_sd ex_t (to_sd ex_t) = Ok ex_t /\
  from_sd ex_t (TDict [("z", TVal (PyInt 1%Z))]) = Err ValueError.
Proof.
  split; [|split; [reflexivity|split; [vm_compute; reflexivity|vm_compute; reflexivity]]].
  constructor; [vm_compute; repeat constructor; cbn; intuition discriminate|reflexivity| | |discriminate].
  - intros n c m x H _. cbn in H. destruct (String.eqb n "z"); [injection H as <- <- <-|].
    + split; [repeat split; cbn; try discriminate; try tauto; constructor|constructor].
    + destruct (String.eqb n "a"); [discriminate|]. destruct (String.eqb n F_SORTED); [discriminate|]. destruct (String.eqb n "name"); discriminate.
  - intros n x H NX BX. cbn in H. destruct (String.eqb n "z"); [injection H as <-; discriminate|].
    destruct (String.eqb n "a"); [injection H as <-|].
    + constructor; [vm_compute; repeat constructor; cbn; intuition discriminate|reflexivity| | |discriminate].
      * intros n' c m x H _. cbn in H. destruct (String.eqb n' "w"); [discriminate|]. destruct (String.eqb n' F_SORTED); discriminate.
      * intros n' x H NX' _. cbn in H. destruct (String.eqb n' "w"); [injection H as <-; constructor|].
        destruct (String.eqb n' F_SORTED); [injection H as <-; discriminate|discriminate].
    + destruct (String.eqb n F_SORTED); [injection H as <-; discriminate|].
      destruct (String.eqb n "name"); [injection H as <-; discriminate|discriminate].
Qed.
(** a dataclass whose fields have container functions *)
Definition ex_D : pclass := mkPcls ["D"; "Pytree"; "object"] false (Some [("w", Some (mkCfn Variable_cls [])); ("b", None)]).
Definition ex_d : ptree :=
  TObj ex_D [(F_SORTED, TNames [F_SORTED; "b"; "w"]); ("w", TBox Variable_cls [("sharding", PyNone)] (arr 1)); ("b", arr 2)].
Example C41_dataclass_nonvacuous : restorable ex_d /\ from_sd ex_d (to_sd ex_d) = Ok ex_d.
Proof.
  split; [|vm_compute; reflexivity].
  constructor; [vm_compute; repeat constructor; cbn; intuition discriminate|reflexivity| | |].
  - intros n c m x H _. cbn in H. destruct (String.eqb n F_SORTED); [discriminate|]. destruct (String.eqb n "w"); [injection H as <- <- <-|].
    + split; [|constructor]. repeat split; cbn; try discriminate; try tauto; try (repeat constructor; cbn; tauto); eauto.
      intuition discriminate.
    + destruct (String.eqb n "b"); discriminate.
  - intros n x H NX BX. cbn in H. destruct (String.eqb n F_SORTED); [injection H as <-; discriminate|].
    destruct (String.eqb n "w"); [injection H as <-; discriminate|]. destruct (String.eqb n "b"); [injection H as <-; constructor|discriminate].
  - intros fs [= <-]. split; [repeat constructor; cbn; intuition discriminate|]. split; [cbn; intuition discriminate|]. split.
    + intros n. cbn. intuition congruence.
    + intros n f [E|[E|[]]]; injection E as <- <-.
      * eexists. split; [reflexivity|]. cbn. exists [("sharding", PyNone)], (arr 1). repeat split.
      * eexists. split; reflexivity.
Qed.
