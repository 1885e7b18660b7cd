(** Prop_Pytree: C39 and C40, about Pytree objects in a heap.  Programs may assign
    attributes, construct, copy and replace Pytrees, raise and catch; they do not use
    the library's own names (those starting with [_pytree__]). *)
From Coq Require Import ZArith.
From Verif Require Import PyBase PyBaseFacts ValuesM Spec_Eq Spec_Container PytreeM Spec_Pytree Pytree_proofs.
Local Open Scope string_scope.
Local Open Scope list_scope.

(** *** C39 *)
Theorem C39_immutable :
  forall p h h' res, user_prog p -> user_heap h -> prun p h = (h', res) ->
  forall r o, nth_error h r = Some o -> sealed o -> immutable o -> nth_error h' r = Some o.
Proof.
  intros p h h' res UP U E r o O S I.
  assert (L : r < List.length h) by (apply nth_error_Some; congruence).
  destruct (proj2 (prun_keeps p UP h h' res U E) r o L O) as (o' & O' & K).
  assert (o' = o) by (apply K; auto). congruence.
Qed.
Print Assumptions C39_immutable.

(** Mutable classes: values may change, the fields may not, and the object stays
    sealed. *)
Theorem C39_fields_fixed :
  forall p h h' res, user_prog p -> user_heap h -> prun p h = (h', res) ->
  forall r o, nth_error h r = Some o -> sealed o ->
  exists o', nth_error h' r = Some o' /\ p_class o' = p_class o /\ keys (p_vars o') = keys (p_vars o) /\ sealed o' /\
             dget F_SORTED (p_vars o') = dget F_SORTED (p_vars o).
Proof.
  intros p h h' res UP U E r o O S.
  assert (L : r < List.length h) by (apply nth_error_Some; congruence).
  destruct (proj2 (prun_keeps p UP h h' res U E) r o L O) as (o' & O' & (K1 & K2 & K3 & K4 & K5 & K6 & K7)).
  exists o'. destruct S as [S1 S2]. split; [exact O'|]. split; [exact K1|]. split; [auto|]. split; [|exact K5].
  split; [rewrite K2; exact S1|rewrite K3; exact S2].
Qed.
Print Assumptions C39_fields_fixed.

(** Every constructor call, whatever [__init__] does and whether it raises, leaves
    the object sealed; if it returns, the recorded field order is the sorted one. *)
Theorem C39_constructed_sealed :
  forall k init h h' res, user_class k -> user_prog init -> user_heap h ->
  prun (QNew k init) h = (h', res) ->
  exists o, nth_error h' (List.length h) = Some o /\ p_class o = k /\ sealed o /\ NoDup (keys (p_vars o)) /\
            (res = Ok tt -> fields_sorted o).
Proof. exact new_sealed. Qed.
Print Assumptions C39_constructed_sealed.

(** A sealed immutable object refuses every assignment, and any sealed object refuses
    new names. *)
Theorem C39_refused :
  forall h r o n v, nth_error h r = Some o -> sealed o ->
  (immutable o \/ ~ In n (keys (p_vars o))) -> psetattr h r n v = (h, Err AttributeError).
Proof.
  intros h r o n v O [S1 S2] C. unfold psetattr. rewrite O. apply dmem_false in S1, S2. rewrite S1, S2.
  destruct C as [C|C].
  - unfold immutable in C. rewrite C. destruct (dmem n (p_vars o)); reflexivity.
  - apply dmem_false in C. now rewrite C.
Qed.
Print Assumptions C39_refused.

(** Deletion is not refused: [del p.x] changes an immutable Pytree. *)
Theorem C39_delete_refuted :
  exists h r o h' n, nth_error h r = Some o /\ sealed o /\ immutable o /\
    pdelattr h r n = (h', Ok tt) /\ nth_error h' r <> Some o.
Proof.
  exists [mkPobj (mkPcls ["P"; "Pytree"; "object"] false None)
            [(F_SORTED, FNames [F_SORTED; "x"]); ("x", FAttr (ARaw (PyInt 1%Z)))]], 0.
  eexists _, _, "x". split; [reflexivity|]. split; [split; vm_compute; intuition discriminate|].
  split; [reflexivity|]. split; [reflexivity|]. vm_compute. discriminate.
Qed.
Print Assumptions C39_delete_refuted.
(** Deleting removes exactly the named attribute; a name that is not there is an
    AttributeError and changes nothing. *)
Theorem C39_delete :
  forall h r o n h' res, nth_error h r = Some o -> pdelattr h r n = (h', res) ->
  match res with
  | Ok _ => In n (keys (p_vars o)) /\ exists o', nth_error h' r = Some o' /\ p_class o' = p_class o /\ p_vars o' = ddel n (p_vars o)
  | Err e => e = AttributeError /\ ~ In n (keys (p_vars o)) /\ h' = h
  end /\ forall r', r' <> r -> nth_error h' r' = nth_error h r'.
Proof.
  intros h r o n h' res O H. unfold pdelattr in H. rewrite O in H. destruct (dmem n (p_vars o)) eqn:M; injection H as <- <-.
  - split; [split|].
    + destruct (in_dec string_dec n (keys (p_vars o))) as [I|N]; [exact I|]. apply dmem_false in N. congruence.
    + eexists. split; [apply set_pvars_same; exact O|]. split; reflexivity.
    + intros r' Hr. apply set_pvars_other. congruence.
  - split; [split; [reflexivity|split; [now apply dmem_false|reflexivity]]|]. reflexivity.
Qed.
Print Assumptions C39_delete.
(** A copy taken of [self] inside [__init__] inherits the markers and stays mutable
    for ever: here [P] is an immutable class, the constructor returns, and an
    assignment to the copy succeeds afterwards. *)
Definition ex_P : pclass := mkPcls ["P"; "Pytree"; "object"] false None.
Theorem C39_copy_in_init_refuted :
  exists init h, user_prog init /\ user_heap [] /\ prun (QNew ex_P init) [] = (h, Ok tt) /\
    exists o, nth_error h 1 = Some o /\ immutable o /\ ~ sealed o /\
      snd (prun (QSet 1 "new" (ARaw (PyInt 5%Z))) h) = Ok tt.
Proof.
  exists (QSeq (QSet 0 "x" (ARaw (PyInt 1%Z))) (QCopy 0)). eexists. split; [repeat split|]. split; [constructor|].
  split; [vm_compute; reflexivity|]. eexists. split; [vm_compute; reflexivity|]. split; [reflexivity|].
  split; [|reflexivity]. intros [S _]. apply S. vm_compute. tauto.
Qed.
Print Assumptions C39_copy_in_init_refuted.

(** a program that meets the hypotheses: construct, try to mutate, catch, replace, and
    a constructor that raises half way *)
Definition ex_node (v : pyval) : attr := ACont (mkCont Node_cls [] v).
Definition ex_prog : pprog :=
  QSeq (QNew ex_P (QSeq (QSet 0 "b" (ex_node (PyInt 1%Z))) (QSet 0 "a" (ARaw (PyInt 2%Z)))))
  (QSeq (QTry (QSet 0 "b" (ARaw (PyInt 9%Z))) QSkip)
  (QSeq (QReplace 0 [("b", ARaw (PyInt 7%Z))])
        (QTry (QNew ex_P (QSeq (QSet 2 "z" (ARaw (PyInt 3%Z))) (QRaise UserError))) QSkip))).
Example C39_nonvacuous :
  user_prog ex_prog /\ user_heap [] /\
  prun ex_prog [] =
    ([mkPobj ex_P [(F_SORTED, FNames [F_SORTED; "a"; "b"]); ("b", FAttr (ex_node (PyInt 1%Z))); ("a", FAttr (ARaw (PyInt 2%Z)))];
      mkPobj ex_P [(F_SORTED, FNames [F_SORTED; "a"; "b"]); ("b", FAttr (ex_node (PyInt 7%Z))); ("a", FAttr (ARaw (PyInt 2%Z)))];
      mkPobj ex_P [(F_SORTED, FNames [F_SORTED]); ("z", FAttr (ARaw (PyInt 3%Z)))]], Ok tt).
Proof.
  split.
  - cbn. repeat split; try (intros fs H; discriminate H). intros n [<-|[]]. reflexivity.
  - split; [constructor|]. vm_compute. reflexivity.
Qed.

(** *** C40 *)
(** Whatever the class and the arguments, and also when it raises, replace changes no
    existing object. *)
Theorem C40_original_unchanged :
  forall h r kw h' res, preplace h r kw = (h', res) -> forall r' o, nth_error h r' = Some o -> nth_error h' r' = Some o.
Proof.
  intros h r kw h' res E r' o O. pose proof (replace_below h r kw) as B. rewrite E in B. cbn [fst] in B.
  rewrite B; auto. apply nth_error_Some. congruence.
Qed.
Print Assumptions C40_original_unchanged.
(** Plain classes: the new object differs in the given fields, which take the given
    values inside the containers that were there. *)
Theorem C40_replace :
  forall h r o kw, nth_error h r = Some o -> k_fields (p_class o) = None -> wf_fields o -> sealed o -> NoDup (keys kw) ->
  (forall k v, In (k, v) kw -> wf_attr v /\ exists old new, dget k (p_vars o) = Some old /\ stores old v new) ->
  exists o', preplace h r kw = (h ++ [o'], Ok tt) /\ p_class o' = p_class o /\ keys (p_vars o') = keys (p_vars o) /\
    (forall k, ~ In k (keys kw) -> dget k (p_vars o') = dget k (p_vars o)) /\
    (forall k v, dget k kw = Some v -> exists old new, dget k (p_vars o) = Some old /\ stores old v new /\
                                                      dget k (p_vars o') = Some new).
Proof. intros h r o kw O F W [_ S]. exact (replace_plain h r o kw O F W S). Qed.
Print Assumptions C40_replace.
(** Otherwise it raises: an unknown field, or a container of another kind. *)
Theorem C40_refused :
  forall h r o kw, nth_error h r = Some o -> k_fields (p_class o) = None -> wf_fields o -> sealed o -> NoDup (keys kw) ->
  (forall k v, In (k, v) kw -> wf_attr v /\ k <> F_MUTABLE) ->
  (exists k v, In (k, v) kw /\ ~ exists old new, dget k (p_vars o) = Some old /\ stores old v new) ->
  exists e, snd (preplace h r kw) = Err e /\ (e = ValueError \/ e = AttributeError).
Proof. exact replace_refused. Qed.
Print Assumptions C40_refused.
Theorem C40_unknown :
  forall h r o kw, nth_error h r = Some o -> k_fields (p_class o) = None -> immutable o ->
  (exists k, In k (keys kw) /\ ~ In k (keys (p_vars o))) -> preplace h r kw = (h, Err ValueError).
Proof. exact replace_unknown. Qed.
Print Assumptions C40_unknown.

(** Dataclasses: construction gives the fields in order, and replace the object with
    the other fields as they were. *)
Theorem C40_dataclass_new :
  forall k fs args h, k_fields k = Some fs -> wf_cfields fs -> keys args = keys fs ->
  (forall n f, In (n, f) fs -> exists a x, dget n args = Some a /\ wf_attr a /\ field_arg f a x) ->
  exists o, pnew k (set_all (List.length h) args) h = (h ++ [o], Ok tt) /\ p_class o = k /\
    keys (p_vars o) = F_SORTED :: keys fs /\ fields_sorted o /\
    (forall n f a, In (n, f) fs -> dget n args = Some a -> exists x, dget n (p_vars o) = Some x /\ field_arg f a x).
Proof. exact new_dataclass. Qed.
Print Assumptions C40_dataclass_new.
Theorem C40_dataclass_replace :
  forall h r o fs kw, nth_error h r = Some o -> k_fields (p_class o) = Some fs -> wf_cfields fs ->
  (forall n, In n (keys kw) -> In n (keys fs)) ->
  (forall n f, In (n, f) fs -> exists v x, dget n (p_vars o) = Some x /\ field_arg f (ARaw v) x) ->
  (forall n f a, In (n, f) fs -> dget n kw = Some a -> wf_attr a /\ exists x, field_arg f a x) ->
  exists o', preplace h r kw = (h ++ [o'], Ok tt) /\ p_class o' = p_class o /\
    keys (p_vars o') = F_SORTED :: keys fs /\ fields_sorted o' /\
    (forall n f, In (n, f) fs -> dget n kw = None -> dget n (p_vars o') = dget n (p_vars o)) /\
    (forall n f a, In (n, f) fs -> dget n kw = Some a -> exists x, dget n (p_vars o') = Some x /\ field_arg f a x).
Proof. exact replace_dataclass. Qed.
Print Assumptions C40_dataclass_replace.
(** A keyword that is no field is refused, and nothing is made. *)
Theorem C40_dataclass_unknown :
  forall h r o fs kw, nth_error h r = Some o -> k_fields (p_class o) = Some fs ->
  (forall n, In n (keys fs) -> exists a, dget n (p_vars o) = Some (FAttr a)) ->
  (exists k, In k (keys kw) /\ ~ In k (keys fs)) -> preplace h r kw = (h, Err TypeError).
Proof. exact replace_dataclass_unknown. Qed.
Print Assumptions C40_dataclass_unknown.
(** The hypothesis that fields without container function hold plain values matters:
    a container given to such a field is lost by replacing another field. *)
Definition ex_D : pclass := mkPcls ["D"; "Pytree"; "object"] false (Some [("a", None); ("b", None)]).
Theorem C40_dataclass_container_refuted :
  exists h h' h'' o o', pnew ex_D (set_all 0 [("a", ex_node (PyInt 1%Z)); ("b", ARaw (PyInt 2%Z))]) [] = (h, Ok tt) /\
    nth_error h 0 = Some o /\ sealed o /\
    preplace h 0 [("b", ARaw (PyInt 3%Z))] = (h', Ok tt) /\ h' = h ++ h'' /\ nth_error h' 1 = Some o' /\
    dget "a" (p_vars o) = Some (FAttr (ex_node (PyInt 1%Z))) /\
    dget "a" (p_vars o') = Some (FAttr (ARaw (PyInt 1%Z))).
Proof.
  eexists _, _, _, _, _. split; [vm_compute; reflexivity|]. split; [reflexivity|].
  split; [split; vm_compute; intuition discriminate|]. split; [vm_compute; reflexivity|].
  split; [instantiate (1 := [_]); reflexivity|]. split; [reflexivity|]. split; reflexivity.
Qed.
Print Assumptions C40_dataclass_container_refuted.

Definition ex_E : pclass :=
  mkPcls ["E"; "Pytree"; "object"] false (Some [("w", Some (mkCfn Variable_cls [("sharding", PyNone)])); ("b", None)]).
Definition ex_Eobj : pobj :=
  mkPobj ex_E [(F_SORTED, FNames [F_SORTED; "b"; "w"]);
               ("w", FAttr (ACont (mkCont Variable_cls [("sharding", PyNone)] (PyInt 1%Z)))); ("b", FAttr (ARaw (PyInt 2%Z)))].
Example C40_unknown_nonvacuous :
  k_fields (p_class ex_Eobj) = Some [("w", Some (mkCfn Variable_cls [("sharding", PyNone)])); ("b", None)] /\
  (forall n, In n ["w"; "b"] -> exists a, dget n (p_vars ex_Eobj) = Some (FAttr a)) /\
  preplace [ex_Eobj] 0 [("b", ARaw (PyInt 3%Z)); ("c", ARaw (PyInt 5%Z))] = ([ex_Eobj], Err TypeError).
Proof. split; [reflexivity|]. split; [|reflexivity]. intros n [<-|[<-|[]]]; eexists; reflexivity. Qed.
Example C40_nonvacuous :
  pnew ex_E (set_all 0 [("w", ARaw (PyInt 1%Z)); ("b", ARaw (PyInt 2%Z))]) [] = ([ex_Eobj], Ok tt) /\
  wf_cfields [("w", Some (mkCfn Variable_cls [("sharding", PyNone)])); ("b", None)] /\
  (forall n f, In (n, f) [("w", Some (mkCfn Variable_cls [("sharding", PyNone)])); ("b", None)] ->
     exists v x, dget n (p_vars ex_Eobj) = Some x /\ field_arg f (ARaw v) x) /\
  preplace [ex_Eobj] 0 [("w", ARaw (PyInt 5%Z))] =
    ([ex_Eobj; mkPobj ex_E [(F_SORTED, FNames [F_SORTED; "b"; "w"]);
        ("w", FAttr (ACont (mkCont Variable_cls [("sharding", PyNone)] (PyInt 5%Z)))); ("b", FAttr (ARaw (PyInt 2%Z)))]], Ok tt).
Proof.
  split; [vm_compute; reflexivity|]. split.
  { split; [vm_compute; repeat constructor; cbn; intuition discriminate|]. intros n f [E|[E|[]]]; injection E as <- <-.
    - split; [reflexivity|]. intros g [= <-]. split; [cbn; tauto|]. split; [repeat constructor; cbn; tauto|cbn; intuition discriminate].
    - split; [reflexivity|discriminate]. }
  split; [|vm_compute; reflexivity].
  intros n f [E|[E|[]]]; injection E as <- <-.
  - exists (PyInt 1%Z). eexists. split; [reflexivity|]. eexists. split; [vm_compute; reflexivity|]. split; [reflexivity|exact Logic.I].
  - exists (PyInt 2%Z). eexists. split; reflexivity.
Qed.
Definition ex_obj : pobj :=
  mkPobj ex_P [(F_SORTED, FNames [F_SORTED; "a"; "b"]); ("b", FAttr (ex_node (PyInt 1%Z))); ("a", FAttr (ARaw (PyInt 2%Z)))].
Example C40_plain_nonvacuous :
  wf_fields ex_obj /\ sealed ex_obj /\
  (exists old new, dget "b" (p_vars ex_obj) = Some old /\ stores old (ex_node (PyInt 4%Z)) new) /\
  ~ (exists old new, dget "b" (p_vars ex_obj) = Some old /\ stores old (ACont (mkCont Variable_cls [("sharding", PyNone)] (PyInt 4%Z))) new).
Proof.
  split.
  { split; [vm_compute; repeat constructor; cbn; intuition discriminate|]. intros k f H.
    unfold ex_obj in H. cbn [p_vars dget] in H.
    destruct (String.eqb k F_SORTED); [injection H as <-; exact Logic.I|].
    destruct (String.eqb k "b").
    - injection H as <-. cbn. repeat split; try discriminate; try constructor; cbn; tauto.
    - destruct (String.eqb k "a"); [injection H as <-; exact Logic.I|discriminate]. }
  split; [split; vm_compute; intuition discriminate|]. split.
  - eexists _, _. split; [reflexivity|]. cbn. split; [reflexivity|]. split; [apply ValuesFacts.same_meta_refl|reflexivity].
  - intros (old & new & G & S). cbn in G. injection G as <-. cbn in S. destruct S as (C & _). discriminate.
Qed.
