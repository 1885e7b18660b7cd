(** Facts about the runtime fragment in PyBase. *)
From Coq Require Import NArith Permutation Sorted.
From Verif Require Import PyBase.
Local Open Scope string_scope.
Local Open Scope list_scope.

(** ** String order *)
Lemma ascii_compare_lt_trans a b c :
  Ascii.compare a b = Lt -> Ascii.compare b c = Lt -> Ascii.compare a c = Lt.
Proof.
  unfold Ascii.compare. rewrite !N.compare_lt_iff. intros; eapply N.lt_trans; eauto.
Qed.

Lemma ascii_compare_refl a : Ascii.compare a a = Eq.
Proof. unfold Ascii.compare. apply N.compare_refl. Qed.

Lemma scompare_refl a : String.compare a a = Eq.
Proof. induction a as [|c a IH]; cbn; [reflexivity|]. now rewrite ascii_compare_refl. Qed.

Lemma scompare_lt_trans a : forall b c,
  String.compare a b = Lt -> String.compare b c = Lt -> String.compare a c = Lt.
Proof.
  induction a as [|x a IH]; intros [|y b] [|z c]; cbn; try congruence.
  destruct (Ascii.compare x y) eqn:E1; destruct (Ascii.compare y z) eqn:E2; intros H1 H2; try congruence.
  - apply Ascii.compare_eq_iff in E1; apply Ascii.compare_eq_iff in E2; subst.
    rewrite ascii_compare_refl. eauto.
  - apply Ascii.compare_eq_iff in E1; subst. now rewrite E2.
  - apply Ascii.compare_eq_iff in E2; subst. now rewrite E1.
  - now rewrite (ascii_compare_lt_trans _ _ _ E1 E2).
Qed.

Definition slt (a b : string) : Prop := String.compare a b = Lt.

Lemma slt_irrefl a : ~ slt a a.
Proof. unfold slt. rewrite scompare_refl. congruence. Qed.
Lemma slt_trans a b c : slt a b -> slt b c -> slt a c.
Proof. apply scompare_lt_trans. Qed.
Lemma slt_neq a b : slt a b -> a <> b.
Proof. intros H ->. now apply slt_irrefl in H. Qed.
Lemma slt_asym a b : slt a b -> ~ slt b a.
Proof. intros H H'. eapply slt_irrefl, slt_trans; eauto. Qed.

Lemma sleb_spec a b : String.leb a b = true <-> slt a b \/ a = b.
Proof.
  unfold String.leb, slt. destruct (String.compare a b) eqn:E.
  - apply String.compare_eq_iff in E. subst. intuition congruence.
  - intuition congruence.
  - split; [congruence|]. intros [H| ->]; [congruence|]. rewrite scompare_refl in E. congruence.
Qed.

Lemma sleb_false a b : String.leb a b = false -> slt b a.
Proof.
  unfold String.leb, slt. destruct (String.compare a b) eqn:E; try congruence.
  intros _. rewrite String.compare_antisym, E. reflexivity.
Qed.

Lemma slt_total a b : slt a b \/ a = b \/ slt b a.
Proof.
  destruct (String.leb a b) eqn:E.
  - apply sleb_spec in E. tauto.
  - apply sleb_false in E. tauto.
Qed.

(** ** Dictionaries *)
Section Dict.
Context {A : Type}.
Implicit Types (d e l items : list (string * A)) (k : string) (v : A).

Lemma dget_dset_same k v d : dget k (dset k v d) = Some v.
Proof.
  induction d as [|[k' v'] d IH]; cbn; [now rewrite String.eqb_refl|].
  destruct (String.eqb k k') eqn:E; cbn; rewrite E; auto.
Qed.

Lemma dget_dset_other k k' v d : k <> k' -> dget k (dset k' v d) = dget k d.
Proof.
  intros Hn. induction d as [|[k2 v2] d IH]; cbn.
  - apply String.eqb_neq in Hn. now rewrite Hn.
  - destruct (String.eqb k' k2) eqn:E; cbn.
    + apply String.eqb_eq in E. subst k2. apply String.eqb_neq in Hn. now rewrite Hn.
    + destruct (String.eqb k k2); auto.
Qed.

Lemma dget_dset k k' v d :
  dget k (dset k' v d) = if String.eqb k k' then Some v else dget k d.
Proof.
  destruct (String.eqb_spec k k') as [->|H]; [apply dget_dset_same|now apply dget_dset_other].
Qed.

Lemma dget_In k v d : dget k d = Some v -> In (k, v) d.
Proof.
  induction d as [|[k' v'] d IH]; cbn; [congruence|].
  destruct (String.eqb_spec k k') as [->|H]; [intros [= ->]; auto|auto].
Qed.

Lemma dget_In_keys k v d : dget k d = Some v -> In k (keys d).
Proof. intros H. apply dget_In in H. change k with (fst (k, v)). now apply in_map. Qed.

Lemma dget_None k d : dget k d = None <-> ~ In k (keys d).
Proof.
  induction d as [|[k' v'] d IH]; cbn; [tauto|].
  destruct (String.eqb_spec k k') as [->|H]; [intuition congruence|].
  rewrite IH. intuition congruence.
Qed.

Lemma dget_Some_keys k d : In k (keys d) -> exists v, dget k d = Some v.
Proof.
  intros H. destruct (dget k d) eqn:E; [eauto|]. now apply dget_None in E.
Qed.

Lemma dmem_In k d : dmem k d = true <-> In k (keys d).
Proof.
  unfold dmem. destruct (dget k d) eqn:E.
  - apply dget_In_keys in E. tauto.
  - apply dget_None in E. intuition congruence.
Qed.

Lemma dmem_false k d : dmem k d = false <-> ~ In k (keys d).
Proof. rewrite <- dmem_In. destruct (dmem k d); intuition congruence. Qed.

Lemma In_dget k v d : NoDup (keys d) -> In (k, v) d -> dget k d = Some v.
Proof.
  induction d as [|[k' v'] d IH]; cbn; [tauto|]. intros Hnd [H|H].
  - injection H as -> ->. now rewrite String.eqb_refl.
  - inversion Hnd; subst. destruct (String.eqb_spec k k') as [->|Hn]; [|auto].
    exfalso. apply H2. change k' with (fst (k', v)). now apply in_map.
Qed.

Lemma keys_dset k v d : keys (dset k v d) = if dmem k d then keys d else keys d ++ [k].
Proof.
  unfold dmem, keys in *. induction d as [|[k' v'] d IH]; cbn; [reflexivity|].
  destruct (String.eqb k k') eqn:E; cbn; [reflexivity|].
  rewrite IH. destruct (dget k d); reflexivity.
Qed.

Lemma In_keys_dset k k' v d : In k (keys (dset k' v d)) <-> k = k' \/ In k (keys d).
Proof.
  rewrite keys_dset. destruct (dmem k' d) eqn:E.
  - apply dmem_In in E. split; [auto|]. intros [->|]; auto.
  - rewrite in_app_iff. cbn. intuition.
Qed.

Lemma NoDup_app_intro {B} (l1 l2 : list B) :
  NoDup l1 -> NoDup l2 -> (forall x, In x l1 -> ~ In x l2) -> NoDup (l1 ++ l2).
Proof.
  induction l1 as [|x l1 IH]; cbn; auto. intros H1 H2 H. inversion H1; subst.
  constructor; [rewrite in_app_iff; intros [?|?]; [tauto|eapply H; eauto]|].
  apply IH; auto.
Qed.

Lemma NoDup_keys_dset k v d : NoDup (keys d) -> NoDup (keys (dset k v d)).
Proof.
  intros H. rewrite keys_dset. destruct (dmem k d) eqn:E; [assumption|].
  apply dmem_false in E. apply NoDup_app_intro; [assumption| |].
  - constructor; [tauto|constructor].
  - intros x Hx [<-|[]]. tauto.
Qed.

Lemma dset_new k v d : ~ In k (keys d) -> dset k v d = (d ++ [(k, v)])%list.
Proof.
  induction d as [|[k' v'] d IH]; cbn; [reflexivity|]. intros H.
  destruct (String.eqb_spec k k') as [->|Hn]; [tauto|]. rewrite IH; tauto.
Qed.

Lemma dset_id k v d : dget k d = Some v -> dset k v d = d.
Proof.
  induction d as [|[k' v'] d IH]; cbn; [congruence|].
  destruct (String.eqb_spec k k') as [->|Hn]; [intros [= ->]; reflexivity|].
  intros H. now rewrite IH.
Qed.

Lemma dget_app k d e : dget k (d ++ e)%list = match dget k d with Some v => Some v | None => dget k e end.
Proof.
  induction d as [|[k' v'] d IH]; cbn; [reflexivity|]. destruct (String.eqb k k'); auto.
Qed.

Lemma dget_ddel_same k d : NoDup (keys d) -> dget k (ddel k d) = None.
Proof.
  induction d as [|[k' v'] d IH]; cbn; [auto|]. intros H. inversion H; subst.
  destruct (String.eqb_spec k k') as [->|Hn].
  - now apply dget_None.
  - cbn. apply String.eqb_neq in Hn. rewrite Hn. auto.
Qed.

Lemma dget_ddel_other k k' d : k <> k' -> dget k (ddel k' d) = dget k d.
Proof.
  intros Hn. induction d as [|[k2 v2] d IH]; cbn; [auto|].
  destruct (String.eqb_spec k' k2) as [->|Hn2].
  - apply String.eqb_neq in Hn. now rewrite Hn.
  - cbn. destruct (String.eqb k k2); auto.
Qed.

Lemma In_ddel kv k d : In kv (ddel k d) -> In kv d.
Proof.
  induction d as [|[k' v'] d IH]; cbn; [auto|].
  destruct (String.eqb k k'); cbn; intuition.
Qed.

Lemma In_ddel_iff kv k d : NoDup (keys d) -> In kv (ddel k d) <-> In kv d /\ fst kv <> k.
Proof.
  induction d as [|[k' v'] d IH]; cbn; [tauto|]. intros H. inversion H; subst.
  destruct (String.eqb_spec k k') as [->|Hn].
  - split.
    + intros Hi. split; [auto|]. intros <-. apply H2. now apply in_map.
    + intros [[<-|Hi] Hne]; [cbn in Hne; tauto|assumption].
  - cbn. rewrite IH by assumption. split.
    + intros [<-|[? ?]]; cbn; intuition.
    + intuition.
Qed.

Lemma ddel_absent k d : ~ In k (keys d) -> ddel k d = d.
Proof.
  induction d as [|[k' v'] d IH]; cbn; [auto|]. intros H.
  destruct (String.eqb_spec k k') as [->|Hn]; [tauto|]. rewrite IH; tauto.
Qed.

Lemma keys_ddel_incl k k' d : In k (keys (ddel k' d)) -> In k (keys d).
Proof.
  unfold keys. rewrite !in_map_iff. intros [x [<- Hx]]. exists x. split; auto. eapply In_ddel; eauto.
Qed.

Lemma NoDup_keys_ddel k d : NoDup (keys d) -> NoDup (keys (ddel k d)).
Proof.
  induction d as [|[k' v'] d IH]; cbn; [auto|]. intros H. inversion H; subst.
  destruct (String.eqb k k'); [assumption|]. cbn. constructor; auto.
  intros Hi. apply keys_ddel_incl in Hi. tauto.
Qed.

(** *** update *)
Lemma dupdate_nil d : dupdate d [] = d.
Proof. reflexivity. Qed.
Lemma dupdate_cons d kv items : dupdate d (kv :: items) = dupdate (dset (fst kv) (snd kv) d) items.
Proof. reflexivity. Qed.
Lemma dupdate_app d l1 l2 : dupdate d (l1 ++ l2)%list = dupdate (dupdate d l1) l2.
Proof. unfold dupdate. apply fold_left_app. Qed.

Lemma dget_dupdate k items d :
  NoDup (keys items) ->
  dget k (dupdate d items) = match dget k items with Some v => Some v | None => dget k d end.
Proof.
  revert d. induction items as [|[k' v'] items IH]; intros d Hnd; [reflexivity|].
  rewrite dupdate_cons. cbn in Hnd. inversion Hnd; subst. rewrite IH by assumption.
  cbn. rewrite dget_dset.
  destruct (String.eqb_spec k k') as [->|Hn]; [|reflexivity].
  apply dget_None in H1. now rewrite H1.
Qed.

(** last occurrence wins, in general *)
Lemma dget_dupdate_rev k items d :
  dget k (dupdate d items) = match dget k (rev items) with Some v => Some v | None => dget k d end.
Proof.
  revert d. induction items as [|[k' v'] items IH]; intros d; [reflexivity|].
  rewrite dupdate_cons, IH. cbn [fst snd rev]. rewrite dget_app. cbn [dget].
  destruct (dget k (rev items)); [reflexivity|].
  rewrite dget_dset. destruct (String.eqb k k'); reflexivity.
Qed.

Lemma In_keys_dupdate k items d : In k (keys (dupdate d items)) <-> In k (keys items) \/ In k (keys d).
Proof.
  revert d. induction items as [|[k' v'] items IH]; intros d; [cbn; tauto|].
  rewrite dupdate_cons, IH, In_keys_dset. cbn. intuition.
Qed.

Lemma NoDup_keys_dupdate items d : NoDup (keys d) -> NoDup (keys (dupdate d items)).
Proof.
  revert d. induction items as [|[k' v'] items IH]; intros d H; [assumption|].
  rewrite dupdate_cons. apply IH. now apply NoDup_keys_dset.
Qed.

Lemma dupdate_new items d :
  NoDup (keys items) -> (forall k, In k (keys items) -> ~ In k (keys d)) ->
  dupdate d items = (d ++ items)%list.
Proof.
  revert d. induction items as [|[k' v'] items IH]; intros d Hnd Hdis; [now rewrite app_nil_r|].
  rewrite dupdate_cons. cbn in Hnd. inversion Hnd; subst. cbn [fst snd].
  rewrite dset_new by (apply Hdis; now left). rewrite IH; auto.
  - now rewrite <- app_assoc.
  - intros k Hk. unfold keys. rewrite map_app, in_app_iff. cbn. intros [H|[<-|[]]]; [|tauto].
    eapply Hdis; [right; exact Hk|exact H].
Qed.

Lemma dict_of_nodup items : NoDup (keys items) -> dict_of items = items.
Proof. intros H. unfold dict_of. now rewrite dupdate_new by (auto; cbn; tauto). Qed.

Lemma NoDup_keys_dict_of items : NoDup (keys (dict_of items)).
Proof. apply NoDup_keys_dupdate. constructor. Qed.

(** *** permutations *)
Lemma dget_perm k d e : NoDup (keys d) -> Permutation d e -> dget k d = dget k e.
Proof.
  intros Hnd Hp.
  assert (Hnd' : NoDup (keys e)) by (eapply Permutation_NoDup; [apply Permutation_map, Hp|exact Hnd]).
  destruct (dget k e) eqn:E.
  - apply dget_In in E. apply In_dget; auto. eapply Permutation_in; [symmetry; exact Hp|exact E].
  - apply dget_None in E. apply dget_None. intros H. apply E.
    eapply Permutation_in; [apply Permutation_map, Hp|exact H].
Qed.

Lemma NoDup_keys_perm d e : Permutation d e -> NoDup (keys d) -> NoDup (keys e).
Proof. intros H Hn. eapply Permutation_NoDup; [apply Permutation_map, H|exact Hn]. Qed.

Lemma NoDup_of_keys d : NoDup (keys d) -> NoDup d.
Proof. apply NoDup_map_inv. Qed.

Lemma dget_ext_perm d e :
  NoDup (keys d) -> NoDup (keys e) -> (forall k, dget k d = dget k e) -> Permutation d e.
Proof.
  intros Hd He H. apply NoDup_Permutation; [now apply NoDup_of_keys|now apply NoDup_of_keys|].
  intros [k v]. split; intros Hi.
  - apply dget_In. rewrite <- H. now apply In_dget.
  - apply dget_In. rewrite H. now apply In_dget.
Qed.

(** *** sorting *)
Lemma insert_perm (x : string * A) l : Permutation (insert_by_key x l) (x :: l).
Proof.
  induction l as [|y l IH]; cbn; [auto|]. destruct (String.leb _ _); [auto|].
  rewrite IH. apply perm_swap.
Qed.

Lemma sort_perm l : Permutation (sort_by_key l) l.
Proof.
  induction l as [|x l IH]; cbn; [auto|]. rewrite insert_perm. now constructor.
Qed.

Definition kle (x y : string * A) : Prop := String.leb (fst x) (fst y) = true.
Definition klt (x y : string * A) : Prop := slt (fst x) (fst y).

Lemma insert_sorted x l : StronglySorted kle l -> StronglySorted kle (insert_by_key x l).
Proof.
  induction l as [|y l IH]; cbn; intros H; [repeat constructor|].
  inversion H as [|? ? Hs Hf]; subst. destruct (String.leb (fst x) (fst y)) eqn:E.
  - constructor; [assumption|]. constructor; [exact E|].
    eapply Forall_impl; [|exact Hf]. intros z Hz. unfold kle in *.
    apply sleb_spec in E. apply sleb_spec in Hz. apply sleb_spec.
    destruct E as [E| ->]; destruct Hz as [Hz| <-]; eauto using slt_trans.
  - constructor; [auto|]. apply Forall_forall. intros z Hz.
    eapply Permutation_in in Hz; [|apply insert_perm]. destruct Hz as [<-|Hz].
    + unfold kle. apply sleb_spec. left. now apply sleb_false.
    + rewrite Forall_forall in Hf. auto.
Qed.

Lemma sort_sorted l : StronglySorted kle (sort_by_key l).
Proof. induction l as [|x l IH]; cbn; [constructor|]. now apply insert_sorted. Qed.

Lemma sorted_strict l : NoDup (keys l) -> StronglySorted kle l -> StronglySorted klt l.
Proof.
  induction l as [|x l IH]; intros Hnd Hs; [constructor|].
  cbn in Hnd. inversion Hnd; subst. inversion Hs; subst. constructor; [auto|].
  apply Forall_forall. intros y Hy. rewrite Forall_forall in H4. specialize (H4 y Hy).
  unfold kle in H4. apply sleb_spec in H4. destruct H4 as [H4|H4]; [exact H4|].
  exfalso. apply H1. rewrite H4. now apply in_map.
Qed.

Lemma strict_NoDup l : StronglySorted klt l -> NoDup (keys l).
Proof.
  induction l as [|x l IH]; intros Hs; cbn; [constructor|].
  inversion Hs; subst. constructor; [|auto]. intros Hi. apply in_map_iff in Hi.
  destruct Hi as [y [E Hy]]. rewrite Forall_forall in H2. specialize (H2 y Hy).
  unfold klt in H2. rewrite E in H2. now apply slt_irrefl in H2.
Qed.

Lemma sort_strict l : NoDup (keys l) -> StronglySorted klt (sort_by_key l).
Proof.
  intros H. apply sorted_strict; [|apply sort_sorted].
  eapply NoDup_keys_perm; [symmetry; apply sort_perm|exact H].
Qed.

Lemma NoDup_keys_sort l : NoDup (keys l) -> NoDup (keys (sort_by_key l)).
Proof. intros H. eapply NoDup_keys_perm; [symmetry; apply sort_perm|exact H]. Qed.

Lemma dget_sort k l : NoDup (keys l) -> dget k (sort_by_key l) = dget k l.
Proof. intros H. symmetry. apply dget_perm; auto. symmetry. apply sort_perm. Qed.

Lemma strict_perm_eq l1 : forall l2,
  StronglySorted klt l1 -> StronglySorted klt l2 -> Permutation l1 l2 -> l1 = l2.
Proof.
  induction l1 as [|x l1 IH]; intros [|y l2] H1 H2 Hp.
  - reflexivity.
  - apply Permutation_nil_cons in Hp. tauto.
  - symmetry in Hp. apply Permutation_nil_cons in Hp. tauto.
  - inversion H1 as [|? ? Hs1 Hf1]; subst. inversion H2 as [|? ? Hs2 Hf2]; subst.
    rewrite Forall_forall in Hf1, Hf2.
    assert (x = y).
    { assert (Hx : In x (y :: l2)) by (eapply Permutation_in; [exact Hp|now left]).
      assert (Hy : In y (x :: l1)) by (eapply Permutation_in; [symmetry; exact Hp|now left]).
      destruct Hx as [->|Hx]; [reflexivity|]. destruct Hy as [->|Hy]; [reflexivity|].
      exfalso. eapply slt_asym; [apply (Hf1 _ Hy)|apply (Hf2 _ Hx)]. }
    subst y. f_equal. apply IH; auto. eapply Permutation_cons_inv; eauto.
Qed.

Lemma strict_ext_eq l1 l2 :
  StronglySorted klt l1 -> StronglySorted klt l2 -> (forall k, dget k l1 = dget k l2) -> l1 = l2.
Proof.
  intros H1 H2 H. apply strict_perm_eq; auto.
  apply dget_ext_perm; auto using strict_NoDup.
Qed.

Lemma sort_strict_id l : StronglySorted klt l -> sort_by_key l = l.
Proof.
  intros H. apply strict_perm_eq; auto.
  - apply sort_strict. now apply strict_NoDup.
  - apply sort_perm.
Qed.

Lemma sort_perm_eq l1 l2 : NoDup (keys l1) -> Permutation l1 l2 -> sort_by_key l1 = sort_by_key l2.
Proof.
  intros Hn Hp. apply strict_perm_eq.
  - now apply sort_strict.
  - apply sort_strict. eapply NoDup_keys_perm; eauto.
  - rewrite !sort_perm. exact Hp.
Qed.

Lemma strict_filter (f : string * A -> bool) l : StronglySorted klt l -> StronglySorted klt (filter f l).
Proof.
  induction l as [|x l IH]; cbn; intros H; [constructor|]. inversion H; subst.
  destruct (f x); [|auto]. constructor; [auto|].
  apply Forall_forall. intros y Hy. apply filter_In in Hy.
  rewrite Forall_forall in H3. apply H3. tauto.
Qed.

Lemma dget_filter_keys (p : string -> bool) k l :
  dget k (filter (fun kv => p (fst kv)) l) = if p k then dget k l else None.
Proof.
  induction l as [|[k' v'] l IH]; cbn; [now destruct (p k)|].
  destruct (p k') eqn:E; cbn.
  - destruct (String.eqb_spec k k') as [->|Hn]; [now rewrite E|exact IH].
  - rewrite IH. destruct (String.eqb_spec k k') as [->|Hn]; [now rewrite E|reflexivity].
Qed.

Lemma dget_filter (f : string * A -> bool) k l :
  NoDup (keys l) ->
  dget k (filter f l) =
    match dget k l with Some v => if f (k, v) then Some v else None | None => None end.
Proof.
  induction l as [|[k' v'] l IH]; cbn; [reflexivity|]. intros Hnd. inversion Hnd; subst.
  destruct (String.eqb_spec k k') as [->|Hn].
  - destruct (f (k', v')); cbn.
    + now rewrite String.eqb_refl.
    + rewrite IH by assumption. apply dget_None in H1. now rewrite H1.
  - destruct (f (k', v')); cbn; [|auto].
    apply String.eqb_neq in Hn. rewrite Hn. auto.
Qed.

Lemma In_keys_filter (f : string * A -> bool) k l : In k (keys (filter f l)) -> In k (keys l).
Proof.
  unfold keys. rewrite !in_map_iff. intros [x [<- Hx]]. apply filter_In in Hx. exists x. tauto.
Qed.

Lemma NoDup_keys_filter (f : string * A -> bool) l : NoDup (keys l) -> NoDup (keys (filter f l)).
Proof.
  induction l as [|x l IH]; cbn; [auto|]. intros H. inversion H; subst.
  destruct (f x); [|auto]. cbn. constructor; [|auto]. intros Hi. apply In_keys_filter in Hi. tauto.
Qed.

End Dict.

Lemma keys_app {A} (l1 l2 : list (string * A)) : keys (l1 ++ l2)%list = (keys l1 ++ keys l2)%list.
Proof. apply map_app. Qed.

Lemma dget_map {A B} (f : A -> B) k (d : list (string * A)) :
  dget k (map (fun kv => (fst kv, f (snd kv))) d) = option_map f (dget k d).
Proof.
  induction d as [|[k' v'] d IH]; cbn; [reflexivity|]. destruct (String.eqb k k'); auto.
Qed.

Lemma keys_map {A B} (f : string * A -> B) (d : list (string * A)) :
  keys (map (fun kv => (fst kv, f kv)) d) = keys d.
Proof. unfold keys. rewrite map_map. reflexivity. Qed.

Lemma NoDup_app_l {B} (l1 l2 : list B) : NoDup (l1 ++ l2) -> NoDup l1.
Proof.
  induction l1 as [|x l1 IH]; cbn; [constructor|]. intros H. inversion H; subst.
  constructor; [|auto]. rewrite in_app_iff in H2. tauto.
Qed.
Lemma NoDup_app_r {B} (l1 l2 : list B) : NoDup (l1 ++ l2) -> NoDup l2.
Proof. induction l1 as [|x l1 IH]; cbn; [auto|]. intros H. inversion H; subst. auto. Qed.
Lemma NoDup_app_disj {B} (l1 l2 : list B) x : NoDup (l1 ++ l2) -> In x l1 -> In x l2 -> False.
Proof.
  induction l1 as [|y l1 IH]; cbn; [tauto|]. intros H [->|H1] H2; inversion H as [|? ? Hni Hnd']; subst.
  - rewrite in_app_iff in Hni. tauto.
  - eauto.
Qed.

(** ** join / split *)
Definition no_slash (s : string) : Prop := has_char "/"%char s = false.

Lemma split_app_noslash p s :
  no_slash p -> split_slash (p ++ s)%string =
    match split_slash s with [] => [p] | q :: qs => (p ++ q)%string :: qs end.
Proof.
  unfold no_slash. induction p as [|c p IH]; cbn [append has_char split_slash]; intros H.
  - destruct (split_slash s) eqn:E; [|reflexivity].
    destruct s as [|c s]; cbn in E; [congruence|]. destruct (Ascii.eqb c "/"); [congruence|].
    destruct (split_slash s); congruence.
  - apply orb_false_iff in H. destruct H as [H1 H2]. rewrite Ascii.eqb_sym in H1. rewrite H1.
    rewrite IH by assumption. destruct (split_slash s); reflexivity.
Qed.

Lemma split_join parts : parts <> [] -> Forall no_slash parts -> split_slash (join_path parts) = parts.
Proof.
  induction parts as [|p parts IH]; [tauto|]. intros _ H. inversion H; subst.
  destruct parts as [|q parts].
  - cbn. assert (E := split_app_noslash p "" H2). cbn in E.
    assert (E2 : (p ++ "")%string = p) by (clear; induction p; cbn; congruence).
    rewrite E2 in E. exact E.
  - change (join_path (p :: q :: parts)) with (p ++ ("/" ++ join_path (q :: parts)))%string.
    rewrite split_app_noslash by assumption. cbn [append split_slash].
    rewrite Ascii.eqb_refl. cbn [append]. rewrite IH by (auto; congruence).
    f_equal. clear. induction p; cbn; congruence.
Qed.

Lemma join_inj p q : p <> [] -> q <> [] -> Forall no_slash p -> Forall no_slash q ->
  join_path p = join_path q -> p = q.
Proof.
  intros Hp Hq Fp Fq E. rewrite <- (split_join p), <- (split_join q) by assumption. now rewrite E.
Qed.

Lemma split_slash_noslash s : Forall no_slash (split_slash s).
Proof.
  unfold no_slash. induction s as [|c s IH]; cbn [split_slash].
  - repeat constructor.
  - destruct (Ascii.eqb_spec c "/") as [Ec|Ec]; [constructor; [reflexivity|exact IH]|].
    assert (Ec' : Ascii.eqb "/" c = false) by (apply Ascii.eqb_neq; congruence).
    destruct (split_slash s) as [|p ps].
    + constructor; [|constructor]. cbn [has_char]. now rewrite Ec'.
    + inversion IH; subst. constructor; [|assumption]. cbn [has_char]. now rewrite Ec'.
Qed.

Lemma split_slash_nonnil s : split_slash s <> [].
Proof.
  destruct s as [|c s]; cbn; [congruence|]. destruct (Ascii.eqb c "/"); [congruence|].
  destruct (split_slash s); congruence.
Qed.

Lemma join_split s : join_path (split_slash s) = s.
Proof.
  induction s as [|c s IH]; cbn; [reflexivity|].
  pose proof (split_slash_nonnil s) as Hn.
  destruct (Ascii.eqb_spec c "/") as [->|Hc].
  - unfold join_path in *. destruct (split_slash s) as [|p ps]; [congruence|].
    change (join "/" ("" :: p :: ps)) with ("" ++ "/" ++ join "/" (p :: ps))%string. rewrite IH. reflexivity.
  - unfold join_path in *. destruct (split_slash s) as [|p ps]; [congruence|].
    destruct ps; cbn in *; now rewrite IH.
Qed.

(** ** nat lists *)
Lemma nmem_In n l : nmem n l = true <-> In n l.
Proof.
  unfold nmem. rewrite existsb_exists. split.
  - intros [x [H1 H2]]. apply Nat.eqb_eq in H2. now subst.
  - intros H. exists n. split; [assumption|]. apply Nat.eqb_refl.
Qed.
Lemma nmem_false n l : nmem n l = false <-> ~ In n l.
Proof. rewrite <- nmem_In. destruct (nmem n l); intuition congruence. Qed.

Lemma smem_In n l : smem n l = true <-> In n l.
Proof.
  unfold smem. rewrite existsb_exists. split.
  - intros [x [H1 H2]]. apply String.eqb_eq in H2. now subst.
  - intros H. exists n. split; [assumption|]. apply String.eqb_refl.
Qed.
Lemma smem_false n l : smem n l = false <-> ~ In n l.
Proof. rewrite <- smem_In. destruct (smem n l); intuition congruence. Qed.

Lemma index_of_None n l : index_of n l = None <-> ~ In n l.
Proof.
  induction l as [|m l IH]; cbn; [tauto|].
  destruct (Nat.eqb_spec n m) as [->|Hn]; [intuition congruence|].
  destruct (index_of n l).
  - split; [congruence|]. intros H. exfalso. assert (~ In n l) by tauto. apply IH in H0. congruence.
  - intuition congruence.
Qed.

Lemma index_of_Some n l i : index_of n l = Some i -> nth_error l i = Some n.
Proof.
  revert i. induction l as [|m l IH]; cbn; [congruence|]. intros i.
  destruct (Nat.eqb_spec n m) as [->|Hn]; [intros [= <-]; reflexivity|].
  destruct (index_of n l) as [j|]; [|congruence]. intros [= <-]. cbn. auto.
Qed.

Lemma index_of_lt n l i : index_of n l = Some i -> i < List.length l.
Proof. intros H. apply index_of_Some in H. apply nth_error_Some. congruence. Qed.

Lemma index_of_NoDup n l i : NoDup l -> nth_error l i = Some n -> index_of n l = Some i.
Proof.
  revert i. induction l as [|m l IH]; intros i Hnd H; [destruct i; discriminate|].
  inversion Hnd; subst. destruct i as [|i]; cbn in *.
  - injection H as ->. now rewrite Nat.eqb_refl.
  - destruct (Nat.eqb_spec n m) as [->|Hn].
    + apply nth_error_In in H. tauto.
    + now rewrite (IH i).
Qed.

Lemma index_of_app_l n l1 l2 i : index_of n l1 = Some i -> index_of n (l1 ++ l2) = Some i.
Proof.
  revert i. induction l1 as [|m l1 IH]; cbn; [congruence|]. intros i.
  destruct (Nat.eqb n m); [auto|].
  destruct (index_of n l1) as [j|]; [|congruence]. intros [= <-]. now rewrite (IH j).
Qed.

(** ** heap updates *)
Lemma list_set_length {A} n (x : A) l : List.length (list_set n x l) = List.length l.
Proof. revert n. induction l as [|y l IH]; intros [|n]; cbn; auto. Qed.

Lemma nth_list_set_same {A} n (x : A) l : n < List.length l -> nth_error (list_set n x l) n = Some x.
Proof.
  revert n. induction l as [|y l IH]; intros [|n]; cbn; try lia; [reflexivity|].
  intros H. apply IH. lia.
Qed.

Lemma nth_list_set_other {A} n m (x : A) l : n <> m -> nth_error (list_set n x l) m = nth_error l m.
Proof.
  revert n m. induction l as [|y l IH]; intros [|n] [|m] H; cbn; auto; try lia.
Qed.

Lemma nth_list_set {A} n m (x : A) l :
  nth_error (list_set n x l) m =
    if Nat.eqb n m then (if Nat.ltb m (List.length l) then Some x else None) else nth_error l m.
Proof.
  destruct (Nat.eqb_spec n m) as [->|H].
  - destruct (Nat.ltb_spec m (List.length l)).
    + now apply nth_list_set_same.
    + apply nth_error_None. rewrite list_set_length. lia.
  - now apply nth_list_set_other.
Qed.

Lemma list_set_id {A} n (x : A) l : nth_error l n = Some x -> list_set n x l = l.
Proof.
  revert n. induction l as [|y l IH]; intros [|n]; cbn; try congruence.
  intros H. now rewrite IH.
Qed.

Lemma list_set_app_l {A} n (x : A) l1 l2 :
  n < List.length l1 -> list_set n x (l1 ++ l2) = (list_set n x l1 ++ l2)%list.
Proof.
  revert n. induction l1 as [|y l1 IH]; intros [|n]; cbn; try lia; [reflexivity|].
  intros H. rewrite IH by lia. reflexivity.
Qed.

Lemma list_set_app_r {A} n (x : A) l1 l2 :
  List.length l1 <= n -> list_set n x (l1 ++ l2) = (l1 ++ list_set (n - List.length l1) x l2)%list.
Proof.
  revert n. induction l1 as [|y l1 IH]; intros n; cbn.
  - intros _. now rewrite Nat.sub_0_r.
  - destruct n as [|n]; [lia|]. cbn. intros H. rewrite IH by lia. reflexivity.
Qed.

(** ** rmapM *)
Lemma rmapM_ok_iff {A B} (f : A -> result B) l ys :
  rmapM f l = Ok ys <-> Forall2 (fun x y => f x = Ok y) l ys.
Proof.
  revert ys. induction l as [|x l IH]; intros ys; cbn.
  - split; [intros [= <-]; constructor|]. intros H. inversion H. reflexivity.
  - destruct (f x) as [y|e] eqn:E; cbn.
    + destruct (rmapM f l) as [ys'|e] eqn:E2; cbn.
      * split.
        -- intros [= <-]. constructor; [assumption|]. now apply IH.
        -- intros H. inversion H; subst. assert (y0 = y) by congruence. subst.
           apply IH in H4. congruence.
      * split; [congruence|]. intros H. inversion H; subst. apply IH in H4. congruence.
    + split; [congruence|]. intros H. inversion H; subst. congruence.
Qed.

Lemma Forall2_length {A B} (R : A -> B -> Prop) l1 l2 : Forall2 R l1 l2 -> List.length l1 = List.length l2.
Proof. induction 1; cbn; auto. Qed.
