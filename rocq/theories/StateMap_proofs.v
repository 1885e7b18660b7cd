(** Proofs about State as a mapping. *)
From Coq Require Import Permutation Sorted.
From Verif Require Import PyBase PyBaseFacts ValuesM Spec_Eq ValuesFacts FiltersM StateM Spec_State State_proofs ModuleM Spec_Module Mdef_proofs
  StateMapM Spec_StateMap.
Local Open Scope string_scope.
Local Open Scope list_scope.

Definition at_key {A} (k : string) : list (string * A) -> list (string * A) := filter (fun kv => String.eqb k (fst kv)).
Lemma dget_at_key {A} k (l : list (string * A)) : dget k l = dget k (at_key k l).
Proof. induction l as [|[n v] l IH]; [reflexivity|]. cbn. destruct (String.eqb k n) eqn:E; cbn; [now rewrite E|exact IH]. Qed.
Lemma at_key_insert {A} k (x : string * A) l : at_key k (insert_by_key x l) = at_key k (x :: l).
Proof.
  induction l as [|y l IH]; [reflexivity|]. cbn [insert_by_key]. destruct (String.leb (fst x) (fst y)) eqn:L; [reflexivity|].
  unfold at_key in *. cbn [filter] in *. rewrite IH. destruct (String.eqb k (fst x)) eqn:E1, (String.eqb k (fst y)) eqn:E2; auto.
  apply String.eqb_eq in E1, E2. rewrite <- E1, <- E2 in L. assert (String.leb k k = true) by (apply sleb_spec; now right). congruence.
Qed.
Lemma at_key_sort {A} k (l : list (string * A)) : at_key k (sort_by_key l) = at_key k l.
Proof.
  induction l as [|x l IH]; [reflexivity|]. cbn [sort_by_key]. rewrite at_key_insert. unfold at_key in *. cbn [filter]. now rewrite IH.
Qed.
Lemma at_key_rev {A} k (l : list (string * A)) : at_key k (rev l) = rev (at_key k l).
Proof.
  induction l as [|x l IH]; [reflexivity|]. cbn [rev]. unfold at_key in *. rewrite filter_app, IH. cbn [filter].
  destruct (String.eqb k (fst x)); [reflexivity|apply app_nil_r].
Qed.
Lemma dget_mk_state_any k items : dget k (mk_state items) = dget k (rev items).
Proof.
  unfold mk_state, dict_of. rewrite dget_dupdate_rev. cbn [dget].
  rewrite (dget_at_key k (rev (sort_by_key items))), (dget_at_key k (rev items)).
  rewrite !at_key_rev, at_key_sort. destruct (dget k _); reflexivity.
Qed.
Lemma dget_rev_last k (items : list (string * attr)) v : dget k (rev items) = Some v <-> last_given items k v.
Proof.
  induction items as [|[n x] items IH] using rev_ind.
  - cbn. split; [discriminate|]. intros (b & a & E & _). destruct b; discriminate.
  - rewrite rev_app_distr. cbn [rev app dget]. destruct (String.eqb k n) eqn:E.
    + apply String.eqb_eq in E. subst. split.
      * intros [= ->]. exists items, []. split; [reflexivity|]. intros v' [].
      * intros (b & a & Q & N). f_equal. destruct a as [|y a _] using rev_ind.
        -- apply app_inj_tail in Q as [_ [= ->]]. reflexivity.
        -- rewrite app_comm_cons, app_assoc in Q. apply app_inj_tail in Q as [_ <-]. exfalso. apply (N x). apply in_or_app. right. now left.
    + apply String.eqb_neq in E. rewrite IH. split.
      * intros (b & a & -> & N). exists b, (a ++ [(n, x)]). split; [now rewrite <- app_assoc|].
        intros v' I. apply in_app_or in I as [I|[[= <- <-]|[]]]; [exact (N v' I)|congruence].
      * intros (b & a & Q & N). destruct a as [|y a _] using rev_ind.
        -- apply app_inj_tail in Q as [_ [= -> _]]. congruence.
        -- rewrite app_comm_cons, app_assoc in Q. apply app_inj_tail in Q as [-> _]. exists b, a. split; [reflexivity|].
           intros v' I. apply (N v'). apply in_or_app. now left.
Qed.
Lemma dget_rev_none k (items : list (string * attr)) : dget k (rev items) = None <-> not_given items k.
Proof.
  rewrite dget_None. unfold keys. rewrite map_rev, <- in_rev, in_map_iff. split.
  - intros H v I. apply H. now exists (k, v).
  - intros H ([k' v] & E & I). cbn in E. subst. exact (H v I).
Qed.

Lemma getitem_all (s : state) : NoDup (keys s) -> forall l, incl l s ->
  rmapM (fun k => do v <- state_getitem s k; Ok (k, v)) (keys l) = Ok l /\ rmapM (state_getitem s) (keys l) = Ok (values l).
Proof.
  intros ND l. induction l as [|[k v] l IH]; intros H; [split; reflexivity|].
  destruct IH as [E1 E2]; [intros x I; apply H; now right|]. unfold keys, values in *. cbn [map fst snd rmapM].
  assert (G : state_getitem s k = Ok v) by (unfold state_getitem; rewrite (In_dget k v s ND); [reflexivity|apply H; now left]).
  rewrite !G. cbn [rbind]. rewrite E1, E2. split; reflexivity.
Qed.
Lemma items_all (s : state) : NoDup (keys s) -> state_items s = Ok s /\ state_values s = Ok (values s).
Proof. intros ND. apply (getitem_all s ND s). intros x I. exact I. Qed.

Definition wf_entries (d : dict attr) : Prop := Forall (fun ka => wf_attr (snd ka)) d.
Lemma dict_attr_eqb_spec (d e : dict attr) : NoDup (keys d) -> NoDup (keys e) -> wf_entries d -> wf_entries e ->
  (dict_attr_eqb d e = true <-> same_entries (fun k => dget k d) (fun k => dget k e)).
Proof.
  intros Hd He Wd We. unfold wf_entries in *. rewrite Forall_forall in Wd, We.
  unfold dict_attr_eqb. rewrite andb_true_iff, Nat.eqb_eq, forallb_forall. split.
  - intros [Hlen H] k. destruct (dget k d) as [v|] eqn:E.
    + apply dget_In in E. pose proof (H _ E) as Q. cbn in Q.
      destruct (dget k e) as [v'|] eqn:E'; [|discriminate]. apply dget_In in E'. apply attr_eqb_spec in Q; [exact Q|exact (Wd _ E)|exact (We _ E')].
    + enough (G : dget k e = None) by (rewrite G; exact Logic.I). apply dget_None. intros Hk. apply dget_None in E. apply E.
      assert (Hincl : incl (keys d) (keys e)).
      { intros k' Hk'. apply in_map_iff in Hk'. destruct Hk' as [[k2 v2] [<- Hi]].
        specialize (H _ Hi). cbn in *. destruct (dget k2 e) eqn:E2; [|discriminate]. eapply dget_In_keys; eauto. }
      assert (Hi : incl (keys e) (keys d)).
      { apply NoDup_length_incl; [exact Hd| |exact Hincl]. unfold keys. rewrite !map_length. lia. }
      now apply Hi.
  - intros H.
    assert (K : forall k, In k (keys d) <-> In k (keys e)).
    { intros k. specialize (H k). cbn beta in H. split; intros J; apply dget_Some_keys in J as [x J]; rewrite J in H.
      - destruct (dget k e) eqn:E; [eapply dget_In_keys; eauto|contradiction].
      - destruct (dget k d) eqn:E; [eapply dget_In_keys; eauto|contradiction]. }
    split.
    + rewrite <- (map_length fst d), <- (map_length fst e). apply Nat.le_antisymm;
      (apply NoDup_incl_length; [assumption|intros k Hk; now apply K]).
    + intros [k v] Hi. cbn. specialize (H k). cbn beta in H. rewrite (In_dget _ _ _ Hd Hi) in H. destruct (dget k e) as [u|] eqn:E; [|contradiction].
      apply dget_In in E. apply attr_eqb_spec; [exact (Wd _ Hi)|exact (We _ E)|exact H].
Qed.
