(** Properties C21-C25: States and filters. *)
From Coq Require Import Permutation Sorted.
From Verif Require Import PyBase PyBaseFacts ValuesM Spec_Eq FiltersM StateM Spec_State State_proofs.
Local Open Scope string_scope.
Local Open Scope list_scope.

(** A concrete State used by the examples: a Param, a BatchStat and an array. *)
Definition ex_param := ACont (mkCont Param_cls [("sharding", PyNone)] (PyObj Array_cls 1)).
Definition ex_stat := ACont (mkCont BatchStat_cls [("sharding", PyNone)] (PyObj Array_cls 2)).
Definition ex_arr := ARaw (PyObj Array_cls 3).
Definition ex_state : state := mk_state [("b/mean", ex_stat); ("a/w", ex_param); ("c", ex_arr)].
Example ex_state_wf : keys_increasing ex_state.
Proof. unfold keys_increasing. vm_compute. repeat constructor. Qed.

(** *** C21 *)
Theorem C21_partition_succeeds_iff :
  forall (s : state) (f : filt) (fs : list filt), keys_increasing s ->
  ((exists r, state_partition s f fs = Ok r) <->
   Forall valid_filter (f :: fs) /\ ellipsis_only_last (f :: fs) /\
   (forall k v, dget k s = Some v -> exists g, In g (f :: fs) /\ matches g k v)).
Proof. exact partition_ok_iff. Qed.
Print Assumptions C21_partition_succeeds_iff.

Theorem C21_partition_first_match :
  forall (s : state) (f : filt) (fs : list filt) (r : sts), keys_increasing s ->
  state_partition s f fs = Ok r ->
  List.length (sts_list r) = S (List.length fs) /\
  (forall i out k v, nth_error (sts_list r) i = Some out ->
     (dget k out = Some v <-> dget k s = Some v /\ first_match (f :: fs) i k v)).
Proof. exact partition_entries. Qed.
Print Assumptions C21_partition_first_match.

Theorem C21_partition_errors :
  forall (s : state) (f : filt) (fs : list filt) (e : exn), keys_increasing s ->
  state_partition s f fs = Err e ->
  e = ValueError \/ (e = TypeError /\ ~ Forall valid_filter (f :: fs)).
Proof. exact partition_error. Qed.
Print Assumptions C21_partition_errors.

Example C21_example_ok :
  state_partition ex_state (FType "Param") [FType "Variable"; FEllipsis]
  = Ok (Many [[("a/w", ex_param)]; [("b/mean", ex_stat)]; [("c", ex_arr)]]).
Proof. vm_compute. reflexivity. Qed.
Example C21_example_nonexhaustive :
  state_partition ex_state (FType "Param") [FType "BatchStat"] = Err ValueError.
Proof. vm_compute. reflexivity. Qed.
Example C21_example_ellipsis : state_partition ex_state FEllipsis [FNone] = Err ValueError.
Proof. vm_compute. reflexivity. Qed.

(** *** C22 *)
Theorem C22_merge_of_partition :
  forall (s : state) (f : filt) (fs : list filt) (r : sts) (x : state) (xs : list state),
  keys_increasing s -> state_partition s f fs = Ok r ->
  Permutation (x :: xs) (sts_list r) -> state_merge x xs = s.
Proof. exact partition_merge. Qed.
Print Assumptions C22_merge_of_partition.

Theorem C22_filter_is_partition_without_rest :
  forall (s : state) (f : filt) (fs : list filt) (r : sts), keys_increasing s ->
  (forall g, In g (f :: fs) -> g <> FEllipsis) ->
  state_filter s f fs = Ok r ->
  exists rest, state_partition s f (fs ++ [FEllipsis]) = Ok (Many (sts_list r ++ [rest])) /\
    forall k v, dget k rest = Some v <-> dget k s = Some v /\ forall g, In g (f :: fs) -> ~ matches g k v.
Proof. exact filter_partition. Qed.
Print Assumptions C22_filter_is_partition_without_rest.

Theorem C22_filter_entries :
  forall (s : state) (f : filt) (fs : list filt) (r : sts), keys_increasing s ->
  state_filter s f fs = Ok r ->
  List.length (sts_list r) = S (List.length fs) /\
  (forall i out k v, nth_error (sts_list r) i = Some out ->
     (dget k out = Some v <-> dget k s = Some v /\ first_match (f :: fs) i k v)).
Proof. exact filter_entries. Qed.
Print Assumptions C22_filter_entries.

Theorem C22_filter_succeeds_iff :
  forall (s : state) (f : filt) (fs : list filt), keys_increasing s ->
  ((exists r, state_filter s f fs = Ok r) <->
   Forall valid_filter (f :: fs) /\ ellipsis_only_last (f :: fs)).
Proof. exact filter_ok_iff. Qed.
Print Assumptions C22_filter_succeeds_iff.

Example C22_example :
  exists r, state_partition ex_state (FType "Param") [FEllipsis] = Ok r /\
    Permutation ([("b/mean", ex_stat); ("c", ex_arr)] :: [[("a/w", ex_param)]]) (sts_list r).
Proof. eexists. split; [vm_compute; reflexivity|]. apply perm_swap. Qed.

(** *** C23 *)
Theorem C23_or_lookup :
  forall (k : string) (a b : state), keys_increasing a -> keys_increasing b ->
  dget k (state_or a b) = match dget k b with Some v => Some v | None => dget k a end.
Proof. exact dget_or. Qed.
Print Assumptions C23_or_lookup.

Theorem C23_sub_lookup :
  forall (k : string) (a b : state),
  dget k (state_sub a b) = if dmem k b then None else dget k a.
Proof. exact dget_sub. Qed.
Print Assumptions C23_sub_lookup.

Theorem C23_laws :
  forall a b c : state, keys_increasing a -> keys_increasing b -> keys_increasing c ->
  state_or (state_or a b) c = state_or a (state_or b c) /\
  state_or a a = a /\ state_or [] a = a /\ state_or a [] = a /\
  state_sub a a = [] /\
  state_sub (state_or a b) b = state_sub a b /\
  state_or (state_sub a b) b = state_or a b /\
  (forall k, In k (keys (state_sub a b)) -> ~ In k (keys b)).
Proof.
  intros a b c Ha Hb Hc.
  exact (conj (or_assoc a b c Ha Hb Hc) (conj (or_idem a Ha) (conj (or_nil_l a Ha) (conj (or_nil_r a)
        (conj (sub_self a) (conj (or_sub a b Ha Hb) (conj (sub_or a b Ha Hb)
        (fun k H1 H2 => sub_disjoint a b k H1 H2)))))))).
Qed.
Print Assumptions C23_laws.

Theorem C23_merge_lookup :
  forall (k : string) (x : state) (xs : list state), Forall keys_increasing (x :: xs) ->
  dget k (state_merge x xs) =
    fold_left (fun acc s => match dget k s with Some v => Some v | None => acc end) (x :: xs) None.
Proof.
  intros k x xs H. rewrite (dget_state_merge k x xs H). generalize (x :: xs). clear.
  assert (G : forall l acc, fold_left (fun acc (s : state) => match dget k s with Some v => Some v | None => acc end) l acc
            = match last_value k l with Some v => Some v | None => acc end).
  { induction l as [|s l IH]; intros acc; cbn; [reflexivity|]. rewrite IH.
    destruct (last_value k l); [reflexivity|]. now destruct (dget k s). }
  intros l. rewrite G. now destruct (last_value k l).
Qed.
Print Assumptions C23_merge_lookup.

Example C23_example :
  state_or ex_state [("c", ex_param); ("d", ex_arr)]
  = [("a/w", ex_param); ("b/mean", ex_stat); ("c", ex_param); ("d", ex_arr)]
  /\ state_sub ex_state [("c", ex_param); ("d", ex_arr)] = [("a/w", ex_param); ("b/mean", ex_stat)].
Proof. vm_compute. auto. Qed.

(** *** C24 *)
Theorem C24_canonical_in_every_history :
  forall s : state, state_history s -> keys_increasing s.
Proof. exact state_history_wf. Qed.
Print Assumptions C24_canonical_in_every_history.

Theorem C24_insertion_order_irrelevant :
  forall items items' : list (string * attr), NoDup (keys items) -> Permutation items items' ->
  mk_state items = mk_state items'.
Proof. exact mk_state_order_irrelevant. Qed.
Print Assumptions C24_insertion_order_irrelevant.

Theorem C24_same_keys_same_treedef :
  forall a b : state, keys_increasing a -> keys_increasing b ->
  (forall k, In k (keys a) <-> In k (keys b)) -> snd (state_flatten a) = snd (state_flatten b).
Proof. exact same_keys_same_treedef. Qed.
Print Assumptions C24_same_keys_same_treedef.

Theorem C24_flatten_roundtrip :
  forall s : state, keys_increasing s ->
  state_unflatten (snd (state_flatten s)) (fst (state_flatten s)) = s.
Proof. exact unflatten_flatten. Qed.
Print Assumptions C24_flatten_roundtrip.

Theorem C24_construction_lookup :
  forall (k : string) (items : list (string * attr)), NoDup (keys items) ->
  dget k (mk_state items) = dget k items.
Proof. exact dget_mk_state. Qed.
Print Assumptions C24_construction_lookup.

Example C24_example : state_history (state_or ex_state (state_sub ex_state [("c", ex_arr)])).
Proof.
  apply SH_or; [apply SH_init|]. apply SH_sub; [apply SH_init|].
  change [("c", ex_arr)] with (mk_state [("c", ex_arr)]). apply SH_init.
Qed.

(** *** C25 *)
Theorem C25_filter_semantics :
  forall (f : filt) (p : predicate), to_predicate f = Ok p ->
  forall path x, p path x = true <-> matches f path x.
Proof. exact to_predicate_spec. Qed.
Print Assumptions C25_filter_semantics.

Theorem C25_valid_iff_accepted :
  forall f : filt, (exists p, to_predicate f = Ok p) <-> valid_filter f.
Proof. exact to_predicate_ok_iff. Qed.
Print Assumptions C25_valid_iff_accepted.

Theorem C25_invalid_raises :
  forall (f : filt) (e : exn), to_predicate f = Err e -> e = TypeError \/ e = ValueError.
Proof. exact to_predicate_err. Qed.
Print Assumptions C25_invalid_raises.
(** The exception is that of a non-filter inside. *)
Theorem C25_offender :
  forall (f : filt) (e : exn), to_predicate f = Err e -> exists g, occurs g f /\ offence g = Some e.
Proof.
  assert (M : forall (l : list filt) e, Forall (fun f => forall e, to_predicate f = Err e -> exists g, occurs g f /\ offence g = Some e) l ->
    (fix many (l : list filt) : result (list predicate) :=
       match l with
       | [] => Ok []
       | x :: t => do p <- to_predicate x; do ps <- many t; Ok (p :: ps)
       end) l = Err e -> exists h g, In h l /\ occurs g h /\ offence g = Some e).
  { intros l e F. induction F as [|x t Hx F IH]; intros E; [discriminate|]. destruct (to_predicate x) as [p|e'] eqn:X; cbn [rbind] in E.
    - match type of E with rbind ?m _ = _ => destruct m as [ps|e'] end; [discriminate|]. cbn [rbind] in E. destruct (IH E) as (h & g & I & H). exists h, g. split; [now right|exact H].
    - injection E as ->. destruct (Hx e eq_refl) as (g & G). exists x, g. split; [now left|exact G]. }
  intros f. induction f as [c| | |p|l F|l F|l F|g IH|s| |] using filt_ind'; intros e E; try discriminate; cbn in E.
  - match type of E with rbind ?m _ = _ => destruct m as [ps|e'] eqn:X end; [discriminate|]. injection E as ->. destruct (M l e F X) as (h & g & I & O & G).
    exists g. split; [eapply occ_tuple; eauto|exact G].
  - match type of E with rbind ?m _ = _ => destruct m as [ps|e'] eqn:X end; [discriminate|]. injection E as ->. destruct (M l e F X) as (h & g & I & O & G).
    exists g. split; [eapply occ_any; eauto|exact G].
  - match type of E with rbind ?m _ = _ => destruct m as [ps|e'] eqn:X end; [discriminate|]. injection E as ->. destruct (M l e F X) as (h & g & I & O & G).
    exists g. split; [eapply occ_all; eauto|exact G].
  - destruct (to_predicate g) as [p|e'] eqn:X; [discriminate|]. injection E as ->. destruct (IH e eq_refl) as (h & O & G).
    exists h. split; [now constructor|exact G].
  - injection E as <-. exists (FStr s). split; [constructor|reflexivity].
  - injection E as <-. exists FInt. split; [constructor|reflexivity].
  - injection E as <-. exists FOther. split; [constructor|reflexivity].
Qed.
Print Assumptions C25_offender.

(** The English claim says TypeError; the error message's format spec makes
    Python raise ValueError for a number (partitioning.py:35). *)
Theorem C25_number_raises_TypeError_refuted : exists f : filt, to_predicate f = Err ValueError.
Proof. exists FInt. reflexivity. Qed.
Print Assumptions C25_number_raises_TypeError_refuted.

Theorem C25_de_morgan :
  forall (fs : list filt) (p q : predicate),
  to_predicate (FNot (FAny fs)) = Ok p -> to_predicate (FAll (map FNot fs)) = Ok q ->
  forall path x, p path x = q path x.
Proof.
  intros fs p q Hp Hq path x. apply Bool.eq_iff_eq_true.
  rewrite (to_predicate_spec _ _ Hp path x), (to_predicate_spec _ _ Hq path x). cbn [matches].
  clear. induction fs as [|f fs IH]; cbn; [tauto|]. rewrite <- IH. tauto.
Qed.
Print Assumptions C25_de_morgan.

Theorem C25_tuple_is_any :
  forall (fs : list filt), to_predicate (FTuple fs) = to_predicate (FAny fs).
Proof. reflexivity. Qed.
Print Assumptions C25_tuple_is_any.

Example C25_example :
  match to_predicate (FAll [FType "Variable"; FNot (FTuple [FType "Param"; FNone])]) with
  | Ok p => p "a" ex_stat = true /\ p "a" ex_param = false /\ p "a" ex_arr = false
  | Err _ => False
  end.
Proof. vm_compute. auto. Qed.
