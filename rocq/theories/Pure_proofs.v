(** Laws of Pure. *)
From Coq Require Import Permutation.
From Verif Require Import PyBase PyBaseFacts ValuesM Spec_Eq FiltersM StateM Spec_State State_proofs ModuleM PureM.
Local Open Scope string_scope.
Local Open Scope list_scope.

Lemma called_last {O} (get : O -> access -> result O) chain a m : called get (chain ++ [a]) m = get m a.
Proof. unfold called, proxy. rewrite fold_left_app. reflexivity. Qed.

(** [states] is some split of [s]: a partition by filters, in any order *)
Definition splits (s : state) (x : sts) : Prop :=
  x = One s \/ exists f fs r l, state_partition s f fs = Ok r /\ x = Many l /\ Permutation l (sts_list r).

Lemma pure_state_splits s p : wf_state s -> splits s (p_states p) -> pure_get_state p = Ok s.
Proof.
  intros Hs [E|(f & fs & r & l & Hp & E & Hl)]; unfold pure_get_state; rewrite E; [reflexivity|].
  destruct l as [|x xs].
  - apply Permutation_nil in Hl. pose proof (partition_entries _ _ _ _ Hs Hp) as [G _]. rewrite Hl in G. discriminate.
  - f_equal. eapply partition_merge; eauto.
Qed.

Lemma pure_pop_spec s p f fs : wf_state s -> splits s (p_states p) ->
  (forall g, In g (f :: fs) -> g <> FEllipsis) -> Forall valid_filter (f :: fs) ->
  exists x rest, pure_pop_state p f fs = Ok (x, mkPure (One rest) (p_def p)) /\ state_filter s f fs = Ok x /\
    forall k v, dget k rest = Some v <-> dget k s = Some v /\ forall g, In g (f :: fs) -> ~ matches g k v.
Proof.
  intros Hs Hsp Hne Hv.
  assert (HF : exists r, state_filter s f fs = Ok r).
  { apply filter_ok_iff; auto. split; [exact Hv|]. intros i Hi. exfalso. eapply Hne; [|reflexivity]. eapply nth_error_In; eauto. }
  destruct HF as [r Hr]. destruct (filter_partition s f fs r Hs Hne Hr) as (rest & Hp & Hrest).
  exists r, rest. unfold pure_pop_state. rewrite (pure_state_splits s p Hs Hsp). cbn [rbind]. rewrite Hp. cbn [rbind sts_list].
  rewrite removelast_last, last_last. split; [|split; [exact Hr|exact Hrest]]. do 3 f_equal.
  pose proof (proj1 (filter_entries _ _ _ _ Hs Hr)) as HL.
  destruct r as [s1|l]; [reflexivity|]. cbn [sts_list] in *. destruct l as [|a [|b l]]; try reflexivity.
  exfalso. unfold state_filter in Hr. destruct (split_state s (f :: fs)) as [l|]; [|discriminate]. cbn in Hr. unfold pack in Hr.
  destruct (removelast l) as [|? [|? ?]]; cbn in Hr; discriminate.
Qed.

Lemma pure_update_lookup w p us s' u : updates_states w u = Ok us -> Forall wf_state (us ++ sts_list (p_states p)) ->
  pure_update_state w p u = Ok s' ->
  exists s, s' = mkPure (One s) (p_def p) /\ wf_state s /\
    forall k, dget k s = match last_value k (sts_list (p_states p)) with Some v => Some v | None => last_value k us end.
Proof.
  intros Hu Hwf H. unfold pure_update_state in H. rewrite Hu in H. cbn [rbind] in H.
  destruct (us ++ sts_list (p_states p)) as [|x xs] eqn:E; [discriminate|]. injection H as <-.
  exists (state_merge x xs). split; [reflexivity|]. split. { apply state_merge_wf. now inversion Hwf. }
  intros k. rewrite dget_state_merge by assumption. rewrite <- E. clear. induction us as [|u us IH]; cbn [last_value app].
  - destruct (last_value k (sts_list (p_states p))); reflexivity.
  - rewrite IH. destruct (last_value k (sts_list (p_states p))); reflexivity.
Qed.
