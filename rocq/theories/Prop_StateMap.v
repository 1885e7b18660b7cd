(** Prop_StateMap: C86, State as a read-only mapping. *)
From Coq Require Import ZArith Sorted Permutation.
From Verif Require Import PyBase PyBaseFacts ValuesM Spec_Eq ValuesFacts FiltersM StateM Spec_State State_proofs ModuleM Spec_Module Mdef_proofs
  StateMapM Spec_StateMap StateMap_proofs.
Local Open Scope string_scope.
Local Open Scope nat_scope.
Local Open Scope list_scope.

(** A State made of pairs, in any order and with keys repeated: under a key is the last
    value given for it; under any other key, KeyError. *)
Theorem C86_getitem :
  forall items k,
  (forall v, state_getitem (mk_state items) k = Ok v <-> last_given items k v) /\
  (state_getitem (mk_state items) k = Err KeyError <-> not_given items k) /\
  (forall e, state_getitem (mk_state items) k = Err e -> e = KeyError).
Proof.
  intros items k. unfold state_getitem. rewrite dget_mk_state_any. split; [|split].
  - intros v. rewrite <- dget_rev_last. destruct (dget k (rev items)); split; congruence.
  - rewrite <- dget_rev_none. destruct (dget k (rev items)); split; congruence.
  - intros e. destruct (dget k (rev items)); congruence.
Qed.
Print Assumptions C86_getitem.
(** Iteration gives every key that was given, once, in increasing order; [len] counts them. *)
Theorem C86_iter :
  forall items,
  StronglySorted (fun a b => String.compare a b = Lt) (state_iter (mk_state items)) /\
  NoDup (state_iter (mk_state items)) /\
  (forall k, In k (state_iter (mk_state items)) <-> exists v, In (k, v) items) /\
  state_len (mk_state items) = List.length (nodup string_dec (map fst items)).
Proof.
  intros items. pose proof (mk_state_wf items) as W. pose proof (wf_NoDup _ W) as ND.
  assert (K : forall k, In k (keys (mk_state items)) <-> exists v, In (k, v) items).
  { intros k. split.
    - intros I. apply dget_Some_keys in I as [v I]. rewrite dget_mk_state_any in I. apply dget_In in I. apply in_rev in I. eauto.
    - intros [v I]. destruct (dget k (mk_state items)) as [x|] eqn:E; [eapply dget_In_keys; eauto|].
      rewrite dget_mk_state_any in E. apply dget_rev_none in E. destruct (E v I). }
  split; [exact W|]. split; [exact ND|]. split; [exact K|].
  unfold state_len. rewrite <- (map_length fst (mk_state items)). apply Permutation_length. apply NoDup_Permutation; [exact ND|apply NoDup_nodup|].
  intros k. rewrite nodup_In, (K k), in_map_iff. split; [intros [v I]; now exists (k, v)|intros ([k' v] & E & I); cbn in E; subst; eauto].
Qed.
Print Assumptions C86_iter.
(** The other ways of reading agree with these two. *)
Theorem C86_views :
  forall items, let s := mk_state items in
  (forall k, state_contains s k = true <-> In k (state_iter s)) /\
  (forall k v, In k (state_iter s) -> state_get s k v = match state_getitem s k with Ok a => a | Err _ => v end /\ exists a, state_getitem s k = Ok a) /\
  (forall k v, ~ In k (state_iter s) -> state_get s k v = v) /\
  (exists l, state_items s = Ok l /\ map fst l = state_iter s /\ state_values s = Ok (map snd l) /\
     (forall k v, In (k, v) l <-> state_getitem s k = Ok v) /\ mk_state l = s) /\
  (state_bool s = false <-> forall k, not_given items k).
Proof.
  intros items s. pose proof (mk_state_wf items) as W. fold s in W. pose proof (wf_NoDup _ W) as ND.
  assert (C : forall k, state_contains s k = true <-> In k (state_iter s)).
  { intros k. unfold state_contains, state_getitem, state_iter. destruct (dget k s) eqn:E; split; try tauto; try discriminate.
    - intros _. eapply dget_In_keys; eauto.
    - intros I. apply dget_None in E. contradiction. }
  split; [exact C|]. split; [|split; [|split]].
  - intros k v I. split; [reflexivity|]. apply C in I. unfold state_contains in I. destruct (state_getitem s k); [eauto|discriminate].
  - intros k v N. unfold state_get. destruct (state_getitem s k) eqn:E; [|reflexivity]. exfalso. apply N, C. unfold state_contains. now rewrite E.
  - destruct (items_all s ND) as [E1 E2]. exists s. split; [exact E1|]. split; [reflexivity|]. split; [exact E2|]. split; [|now apply mk_state_id].
    intros k v. unfold state_getitem. split.
    + intros I. now rewrite (In_dget k v s ND I).
    + destruct (dget k s) eqn:E; [|discriminate]. intros [= ->]. now apply dget_In.
  - destruct (C86_iter items) as (_ & _ & K & _). fold s in K. unfold state_bool, state_len. rewrite negb_false_iff, Nat.eqb_eq. split.
    + intros L k v I. apply length_zero_iff_nil in L. pose proof (proj2 (K k) (ex_intro _ v I)) as J. unfold state_iter in J. rewrite L in J. destruct J.
    + intros H. destruct s as [|[k v] t]; [reflexivity|]. destruct (proj1 (K k) (or_introl eq_refl)) as [x I]. destruct (H k x I).
Qed.
Print Assumptions C86_views.
(** A State is equal to a State or a dict exactly if both have the same keys with equal
    values, and to nothing else. *)
Theorem C86_equal :
  forall items o, wf_entries items ->
  match o with
  | OtState t => exists items', t = mk_state items' /\ wf_entries items'
  | OtDict d => NoDup (map fst d) /\ wf_entries d
  | OtElse => True
  end ->
  exists b, state_eq (mk_state items) o = Ok b /\
    (b = true <-> match o with
                  | OtState t => same_entries (fun k => dget k (mk_state items)) (fun k => dget k t)
                  | OtDict d => same_entries (fun k => dget k (mk_state items)) (fun k => dget k d)
                  | OtElse => False
                  end).
Proof.
  assert (WM : forall items, wf_entries items -> wf_entries (mk_state items)).
  { intros items W. apply Forall_forall. intros [k v] I. apply (In_dget k v _ (wf_NoDup _ (mk_state_wf items))) in I.
    rewrite dget_mk_state_any in I. apply dget_In, in_rev in I. unfold wf_entries in W. rewrite Forall_forall in W. exact (W _ I). }
  intros items o W H. pose proof (wf_NoDup _ (mk_state_wf items)) as ND. unfold state_eq. rewrite (proj1 (items_all _ ND)). cbn [rbind].
  rewrite (dict_of_nodup _ ND). destruct o as [t|d|].
  - destruct H as (items' & -> & W'). pose proof (wf_NoDup _ (mk_state_wf items')) as ND'. rewrite (proj1 (items_all _ ND')). cbn [rbind].
    rewrite (dict_of_nodup _ ND'). eexists. split; [reflexivity|]. apply dict_attr_eqb_spec; auto.
  - destruct H as [ND' W']. eexists. split; [reflexivity|]. apply dict_attr_eqb_spec; auto.
  - eexists. split; [reflexivity|]. split; [discriminate|contradiction].
Qed.
Print Assumptions C86_equal.
(** So equality of States is an equivalence relation, and two States made of the same
    pairs in another order (with distinct keys) are equal. *)
Theorem C86_equivalence :
  forall i j k, wf_entries i -> wf_entries j -> wf_entries k ->
  state_eq (mk_state i) (OtState (mk_state i)) = Ok true /\
  state_eq (mk_state i) (OtState (mk_state j)) = state_eq (mk_state j) (OtState (mk_state i)) /\
  (state_eq (mk_state i) (OtState (mk_state j)) = Ok true -> state_eq (mk_state j) (OtState (mk_state k)) = Ok true ->
   state_eq (mk_state i) (OtState (mk_state k)) = Ok true) /\
  (NoDup (map fst i) -> Permutation i j -> state_eq (mk_state i) (OtState (mk_state j)) = Ok true).
Proof.
  intros i j k Wi Wj Wk.
  assert (Q : forall a b, wf_entries a -> wf_entries b -> exists x, state_eq (mk_state a) (OtState (mk_state b)) = Ok x /\
     (x = true <-> same_entries (fun k => dget k (mk_state a)) (fun k => dget k (mk_state b)))).
  { intros a b Wa Wb. exact (C86_equal a (OtState (mk_state b)) Wa (ex_intro _ b (conj eq_refl Wb))). }
  assert (R : forall a, same_entries a a). { intros a n. destruct (a n); [apply same_attr_refl|exact Logic.I]. }
  assert (S : forall a b, same_entries a b -> same_entries b a).
  { intros a b H n. specialize (H n). destruct (a n), (b n); auto. now apply same_attr_sym. }
  assert (T : forall a b c, same_entries a b -> same_entries b c -> same_entries a c).
  { intros a b c H H' n. specialize (H n). specialize (H' n). destruct (a n), (b n), (c n); try contradiction; auto. eapply same_attr_trans; eauto. }
  assert (RF : forall a, wf_entries a -> state_eq (mk_state a) (OtState (mk_state a)) = Ok true).
  { intros a Wa. destruct (Q a a Wa Wa) as (x & E & X). rewrite E. f_equal. apply X, R. }
  split; [now apply RF|]. split; [|split].
  - destruct (Q i j Wi Wj) as (x & -> & X), (Q j i Wj Wi) as (y & -> & Y). f_equal. apply Bool.eq_iff_eq_true. rewrite X, Y. split; apply S.
  - destruct (Q i j Wi Wj) as (x & -> & X), (Q j k Wj Wk) as (y & -> & Y), (Q i k Wi Wk) as (z & -> & V). intros [= ->] [= ->]. f_equal.
    apply V. eapply T; [apply X|apply Y]; reflexivity.
  - intros ND P. rewrite <- (mk_state_order_irrelevant i j ND P). now apply RF.
Qed.
Print Assumptions C86_equivalence.

Definition ex_items : list (string * attr) :=
  [("b", ARaw (PyInt 1%Z)); ("a", ACont (mkCont Param_cls [("sharding", PyNone)] (PyInt 2%Z))); ("b", ARaw (PyInt 3%Z))].
Example C86_nonvacuous :
  wf_entries ex_items /\ last_given ex_items "b" (ARaw (PyInt 3%Z)) /\ not_given ex_items "c" /\
  state_iter (mk_state ex_items) = ["a"; "b"] /\ state_getitem (mk_state ex_items) "c" = Err KeyError /\
  state_eq (mk_state ex_items) (OtDict [("b", ARaw (PyInt 3%Z)); ("a", ACont (mkCont Param_cls [("sharding", PyNone)] (PyInt 2%Z)))]) = Ok true /\
  state_eq (mk_state ex_items) (OtDict [("b", ARaw (PyInt 3%Z)); ("a", ACont (mkCont BatchStat_cls [("sharding", PyNone)] (PyInt 2%Z)))]) = Ok false /\
  state_eq (mk_state ex_items) OtElse = Ok false.
Proof.
  split.
  { constructor; [exact Logic.I|]. constructor; [|constructor; [exact Logic.I|constructor]]. unfold snd, wf_attr, wf_container. cbn [c_cls c_meta].
    split; [vm_compute; repeat constructor; cbn; tauto|]. split; [intros [E|[]]; discriminate E|]. split; [vm_compute; auto 10|]. split; [discriminate|eauto]. }
  split. { exists (firstn 2 ex_items), []. split; [reflexivity|]. intros v []. }
  split. { intros v I. cbn in I. intuition discriminate. }
  repeat split; vm_compute; reflexivity.
Qed.
