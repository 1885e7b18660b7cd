(** Properties C19, C51 and C52: delayed accessors and the methods of Pure. *)
From Coq Require Import Permutation.
From Verif Require Import PyBase PyBaseFacts ValuesM Spec_Eq FiltersM StateM Spec_State State_proofs ModuleM PureM Spec_Module Pure_proofs Ex_Module.
Local Open Scope string_scope.
Local Open Scope list_scope.

(** *** C19: what [apply.a.b( ... )] calls *)
(** following the whole chain of accesses *)
Fixpoint access_chain {O} (get : O -> access -> result O) (chain : list access) (x : O) : result O :=
  match chain with
  | [] => Ok x
  | a :: t => match get x a with Ok y => access_chain get t y | Err e => Err e end
  end.
Theorem C19_nested_refuted :
  exists (O : Type) (get : O -> access -> result O) (chain : list access) (m x : O),
    access_chain get chain m = Ok x /\ called get chain m <> Ok x.
Proof.
  exists nat, (fun x a => match x, a with 0, GetAttr "a" => Ok 1 | 1, GetAttr "b" => Ok 2 | _, _ => Err AttributeError end),
    [GetAttr "a"; GetAttr "b"], 0, 2. split; [reflexivity|]. vm_compute. congruence.
Qed.
Print Assumptions C19_nested_refuted.
(** what it really calls, for every chain: the last access, on the root *)
Theorem C19_only_last_access :
  forall (O : Type) (get : O -> access -> result O) (chain : list access) (a : access) (m : O),
  called get (chain ++ [a]) m = get m a.
Proof. intros O get chain a m. apply called_last. Qed.
Print Assumptions C19_only_last_access.
(** so direct calls and single accesses work *)
Theorem C19_direct_partial :
  forall (O : Type) (get : O -> access -> result O) (chain : list access) (m : O), List.length chain <= 1 ->
  called get chain m = access_chain get chain m.
Proof.
  intros O get [|a [|b c]] m H; [reflexivity| |cbn in H; lia]. change [a] with ([] ++ [a]) at 1. rewrite called_last. cbn [access_chain]. destruct (get m a); reflexivity.
Qed.
Print Assumptions C19_direct_partial.

(** *** C51: Pure.update_state *)
Theorem C51_update_wins_refuted :
  exists (w : world) (p : pure) (u : state) (q : pure) (s : state),
    pure_update_state w p (UStates (One u)) = Ok q /\ pure_get_state q = Ok s /\
    dget "a" u = Some (param 2) /\ dget "a" s <> Some (param 2).
Proof.
  exists ex_dag, (mkPure (One [("a", param 1)]) (MRef 0)), [("a", param 2)]. do 2 eexists.
  split; [vm_compute; reflexivity|]. split; [reflexivity|]. split; [reflexivity|]. vm_compute. congruence.
Qed.
Print Assumptions C51_update_wins_refuted.
(** what it does: the old states override the updates; keys are merged *)
Theorem C51_old_values_win_partial :
  forall (w : world) (p : pure) (us : list state) (q : pure) (u : updates),
  updates_states w u = Ok us -> Forall keys_increasing (us ++ sts_list (p_states p)) -> pure_update_state w p u = Ok q ->
  exists s, q = mkPure (One s) (p_def p) /\ keys_increasing s /\
    forall k, dget k s = match latest k (sts_list (p_states p)) with Some v => Some v | None => latest k us end.
Proof.
  intros w p us q u Hu Hwf H. destruct (pure_update_lookup w p us q u Hu Hwf H) as (s & E & Hs & G). exists s. split; [exact E|]. split; [exact Hs|].
  intros k. rewrite G. assert (L : forall l : list state, last_value k l = latest k l) by (induction l; cbn; auto; now rewrite IHl). now rewrite !L.
Qed.
Print Assumptions C51_old_values_win_partial.
(** without any State on either side there is nothing to merge: a TypeError *)
Theorem C51_nothing :
  forall (w : world) (p : pure) (us : list state) (u : updates), updates_states w u = Ok us ->
  (us = [] /\ sts_list (p_states p) = [] -> pure_update_state w p u = Err TypeError) /\
  (~ (us = [] /\ sts_list (p_states p) = []) -> exists q, pure_update_state w p u = Ok q).
Proof.
  intros w p us u H. unfold pure_update_state. rewrite H. cbn [rbind]. split.
  - intros [-> ->]. reflexivity.
  - intros N. destruct us as [|x us]; [|cbn [app]; eauto]. destruct (sts_list (p_states p)); [destruct N; auto|cbn [app]; eauto].
Qed.
Print Assumptions C51_nothing.
(** in particular it is right when the updated keys are new *)
Theorem C51_new_keys_partial :
  forall (w : world) (p : pure) (u : state) (q : pure) (k : string) (a : attr),
  Forall keys_increasing (u :: sts_list (p_states p)) -> pure_update_state w p (UStates (One u)) = Ok q ->
  dget k u = Some a -> latest k (sts_list (p_states p)) = None -> exists s, pure_get_state q = Ok s /\ dget k s = Some a.
Proof.
  intros w p u q k a Hwf H Hk Hn. destruct (C51_old_values_win_partial w p [u] q (UStates (One u)) eq_refl Hwf H) as (s & -> & _ & G).
  exists s. split; [reflexivity|]. rewrite G, Hn. cbn. exact Hk.
Qed.
Print Assumptions C51_new_keys_partial.

(** *** C52: the other operations of Pure see the merged state *)
Theorem C52_get_state :
  forall (s : state) (p : pure), keys_increasing s -> splits s (p_states p) -> pure_get_state p = Ok s.
Proof. exact pure_state_splits. Qed.
Print Assumptions C52_get_state.
(** a Pure without any State has no merged state: a TypeError from every operation *)
Theorem C52_no_states :
  forall (p : pure) (f : filt) (fs : list filt), p_states p = Many [] ->
  pure_get_state p = Err TypeError /\ pure_filter p f fs = Err TypeError /\ pure_partition p fs = Err TypeError /\
  pure_pop_state p f fs = Err TypeError.
Proof. intros p f fs H. unfold pure_filter, pure_partition, pure_pop_state, pure_get_state. rewrite H. repeat split. Qed.
Print Assumptions C52_no_states.
Theorem C52_partition :
  forall (s : state) (p : pure) (fs : list filt), keys_increasing s -> splits s (p_states p) ->
  pure_partition p fs = rmap (fun x => mkPure x (p_def p)) (partition_state s fs).
Proof. intros s p fs Hs Hp. unfold pure_partition. rewrite (pure_state_splits s p Hs Hp). cbn. destruct (partition_state s fs); reflexivity. Qed.
Print Assumptions C52_partition.
Theorem C52_filter :
  forall (s : state) (p : pure) (f : filt) (fs : list filt), keys_increasing s -> splits s (p_states p) ->
  pure_filter p f fs = state_filter s f fs.
Proof. intros s p f fs Hs Hp. unfold pure_filter. now rewrite (pure_state_splits s p Hs Hp). Qed.
Print Assumptions C52_filter.
Theorem C52_pop_state :
  forall (s : state) (p : pure) (f : filt) (fs : list filt), keys_increasing s -> splits s (p_states p) ->
  (forall g, In g (f :: fs) -> g <> FEllipsis) -> Forall valid_filter (f :: fs) ->
  exists x rest, pure_pop_state p f fs = Ok (x, mkPure (One rest) (p_def p)) /\ state_filter s f fs = Ok x /\
    forall k v, dget k rest = Some v <-> dget k s = Some v /\ forall g, In g (f :: fs) -> ~ matches g k v.
Proof. exact pure_pop_spec. Qed.
Print Assumptions C52_pop_state.
Example C52_example :
  exists s x, get_state ex_dag 0 = Ok s /\ state_partition s (FType "Param") [FEllipsis] = Ok x /\ splits s (Many (rev (sts_list x))) /\
    pure_get_state (mkPure (Many (rev (sts_list x))) (MRef 0)) = Ok s.
Proof.
  do 2 eexists. split; [vm_compute; reflexivity|]. split; [vm_compute; reflexivity|]. split.
  - right. exists (FType "Param"), [FEllipsis]. do 2 eexists. split; [vm_compute; reflexivity|]. split; [reflexivity|]. symmetry. apply Permutation_rev.
  - vm_compute. reflexivity.
Qed.
