(** Proofs about filters and States. *)
From Coq Require Import Permutation Sorted.
From Verif Require Import PyBase PyBaseFacts ValuesM Spec_Eq FiltersM StateM Spec_State.
Local Open Scope string_scope.
Local Open Scope list_scope.

(** ** Filters *)
Section FiltInd.
Variable P : filt -> Prop.
Hypothesis H1 : forall c, P (FType c).
Hypothesis H2 : P FEllipsis.
Hypothesis H3 : P FNone.
Hypothesis H4 : forall p, P (FPred p).
Hypothesis H5 : forall l, Forall P l -> P (FTuple l).
Hypothesis H6 : forall l, Forall P l -> P (FAny l).
Hypothesis H7 : forall l, Forall P l -> P (FAll l).
Hypothesis H8 : forall f, P f -> P (FNot f).
Hypothesis H9 : forall s, P (FStr s).
Hypothesis H10 : P FInt.
Hypothesis H11 : P FOther.
Fixpoint filt_ind' (f : filt) : P f :=
  let go := fix go l : Forall P l :=
    match l with [] => Forall_nil _ | x :: t => Forall_cons _ (filt_ind' x) (go t) end in
  match f with
  | FType c => H1 c | FEllipsis => H2 | FNone => H3 | FPred p => H4 p
  | FTuple l => H5 l (go l) | FAny l => H6 l (go l) | FAll l => H7 l (go l)
  | FNot g => H8 g (filt_ind' g) | FStr s => H9 s | FInt => H10 | FOther => H11
  end.
End FiltInd.

Definition many_pred := fix many (l : list filt) : result (list predicate) :=
    match l with
    | [] => Ok []
    | x :: t => do p <- to_predicate x; do ps <- many t; Ok (p :: ps)
    end.

Lemma many_pred_rmapM l : many_pred l = rmapM to_predicate l.
Proof. induction l as [|x l IH]; cbn; [reflexivity|]. destruct (to_predicate x); [|reflexivity]. cbn. now rewrite IH. Qed.

Definition pred_ok (f : filt) (p : predicate) : Prop :=
  forall path x, p path x = true <-> matches f path x.

Lemma many_spec l :
  Forall (fun f => (valid_filter f -> exists p, to_predicate f = Ok p) /\
                   (forall p, to_predicate f = Ok p -> valid_filter f /\ pred_ok f p)) l ->
  (fold_right (fun g acc => valid_filter g /\ acc) True l -> exists ps, rmapM to_predicate l = Ok ps) /\
  (forall ps, rmapM to_predicate l = Ok ps ->
     fold_right (fun g acc => valid_filter g /\ acc) True l /\ Forall2 pred_ok l ps).
Proof.
  induction 1 as [|f l [Hf1 Hf2] Hl [IH1 IH2]]; cbn.
  - split; [eauto|]. intros ps [= <-]. auto.
  - split.
    + intros [Hv Hvs]. destruct (Hf1 Hv) as [p ->]. destruct (IH1 Hvs) as [ps ->]. cbn. eauto.
    + intros ps H. destruct (to_predicate f) as [p|]; [|discriminate]. cbn in H.
      destruct (rmapM to_predicate l) as [qs|]; [|discriminate]. cbn in H. injection H as <-.
      destruct (Hf2 p eq_refl). destruct (IH2 qs eq_refl). auto.
Qed.

Lemma existsb_preds l ps path x : Forall2 pred_ok l ps ->
  existsb (fun p => p path x) ps = true <-> fold_right (fun g acc => matches g path x \/ acc) False l.
Proof.
  induction 1 as [|f p l ps Hf Hl IH]; cbn; [split; [discriminate|tauto]|].
  rewrite orb_true_iff, IH, (Hf path x). tauto.
Qed.
Lemma forallb_preds l ps path x : Forall2 pred_ok l ps ->
  forallb (fun p => p path x) ps = true <-> fold_right (fun g acc => matches g path x /\ acc) True l.
Proof.
  induction 1 as [|f p l ps Hf Hl IH]; cbn; [tauto|].
  rewrite andb_true_iff, IH, (Hf path x). tauto.
Qed.

Lemma to_predicate_full f :
  (valid_filter f -> exists p, to_predicate f = Ok p) /\
  (forall p, to_predicate f = Ok p -> valid_filter f /\ pred_ok f p).
Proof.
  induction f as [c| | |q|l IH|l IH|l IH|g IH|s| |] using filt_ind'.
  - cbn. split; [eauto|]. intros p [= <-]. split; [exact I|]. intros path x. cbn.
    unfold isinstance. apply smem_In.
  - cbn. split; [eauto|]. intros p [= <-]. split; [exact I|]. intros path x. cbn. tauto.
  - cbn. split; [eauto|]. intros p [= <-]. split; [exact I|]. intros path x. cbn. intuition discriminate.
  - cbn. split; [eauto|]. intros p [= <-]. split; [exact I|]. intros path x. cbn. tauto.
  - cbn [to_predicate valid_filter matches]. fold many_pred. rewrite many_pred_rmapM.
    destruct (many_spec l IH) as [IH1 IH2]. split.
    + intros Hv. destruct (IH1 Hv) as [ps ->]. cbn. eauto.
    + intros p H. destruct (rmapM to_predicate l) as [ps|]; [|discriminate]. cbn in H. injection H as <-.
      destruct (IH2 ps eq_refl). split; [assumption|]. intros path x. cbn. now apply existsb_preds.
  - cbn [to_predicate valid_filter matches]. fold many_pred. rewrite many_pred_rmapM.
    destruct (many_spec l IH) as [IH1 IH2]. split.
    + intros Hv. destruct (IH1 Hv) as [ps ->]. cbn. eauto.
    + intros p H. destruct (rmapM to_predicate l) as [ps|]; [|discriminate]. cbn in H. injection H as <-.
      destruct (IH2 ps eq_refl). split; [assumption|]. intros path x. cbn. now apply existsb_preds.
  - cbn [to_predicate valid_filter matches]. fold many_pred. rewrite many_pred_rmapM.
    destruct (many_spec l IH) as [IH1 IH2]. split.
    + intros Hv. destruct (IH1 Hv) as [ps ->]. cbn. eauto.
    + intros p H. destruct (rmapM to_predicate l) as [ps|]; [|discriminate]. cbn in H. injection H as <-.
      destruct (IH2 ps eq_refl). split; [assumption|]. intros path x. cbn. now apply forallb_preds.
  - cbn. destruct IH as [IH1 IH2]. split.
    + intros Hv. destruct (IH1 Hv) as [p ->]. cbn. eauto.
    + intros p H. destruct (to_predicate g) as [q|]; [|discriminate]. cbn in H. injection H as <-.
      destruct (IH2 q eq_refl) as [Hv Hq]. split; [assumption|]. intros path x. cbn.
      rewrite negb_true_iff, <- (Hq path x). destruct (q path x); intuition discriminate.
  - cbn. split; [tauto|discriminate].
  - cbn. split; [tauto|discriminate].
  - cbn. split; [tauto|discriminate].
Qed.

Lemma to_predicate_ok_iff f : (exists p, to_predicate f = Ok p) <-> valid_filter f.
Proof.
  destruct (to_predicate_full f) as [H1 H2]. split; [|exact H1].
  intros [p Hp]. now apply (H2 p).
Qed.
Lemma to_predicate_spec f p : to_predicate f = Ok p ->
  forall path x, p path x = true <-> matches f path x.
Proof. intros H. now apply to_predicate_full in H. Qed.

Lemma to_predicate_err f e : to_predicate f = Err e -> e = TypeError \/ e = ValueError.
Proof.
  assert (Hm : forall l, Forall (fun f => forall e, to_predicate f = Err e -> e = TypeError \/ e = ValueError) l ->
     forall e, rmapM to_predicate l = Err e -> e = TypeError \/ e = ValueError).
  { induction 1 as [|g l Hg Hl IHl]; cbn; [discriminate|]. intros e' H.
    destruct (to_predicate g); [|cbn in H; injection H as <-; eauto]. cbn in H.
    destruct (rmapM to_predicate l); [discriminate|]. cbn in H. injection H as <-. eauto. }
  revert e. induction f as [c| | |q|l IH|l IH|l IH|g IH|s| |] using filt_ind'; intros e; cbn [to_predicate]; try discriminate.
  - fold many_pred. rewrite many_pred_rmapM. destruct (rmapM to_predicate l) eqn:E; [discriminate|].
    intros [= <-]. eapply Hm; eauto.
  - fold many_pred. rewrite many_pred_rmapM. destruct (rmapM to_predicate l) eqn:E; [discriminate|].
    intros [= <-]. eapply Hm; eauto.
  - fold many_pred. rewrite many_pred_rmapM. destruct (rmapM to_predicate l) eqn:E; [discriminate|].
    intros [= <-]. eapply Hm; eauto.
  - destruct (to_predicate g) eqn:E; [discriminate|]. intros [= <-]. eauto.
  - intros [= <-]. auto.
  - intros [= <-]. auto.
  - intros [= <-]. auto.
Qed.

(** ** Splitting *)
Lemma route_le ps path v : route ps path v <= List.length ps.
Proof. induction ps as [|p ps IH]; cbn; [lia|]. destruct (p path v); cbn; lia. Qed.

Definition sub_of (ps : list predicate) (i : nat) (items : list (string * attr)) : list (string * attr) :=
  filter (fun kv => Nat.eqb (route ps (fst kv) (snd kv)) i) items.

Lemma put_at_length i path v l : List.length (put_at i path v l) = List.length l.
Proof. revert i. induction l as [|d l IH]; intros [|i]; cbn; auto. Qed.

Lemma nth_put_at i path v l j :
  nth_error (put_at i path v l) j =
    if Nat.eqb i j then option_map (dset path v) (nth_error l j) else nth_error l j.
Proof.
  revert i j. induction l as [|d l IH]; intros [|i] [|j]; cbn; auto.
  destruct (Nat.eqb i j); reflexivity.
Qed.

Lemma split_loop_length ps items : List.length (split_loop ps items) = S (List.length ps).
Proof.
  unfold split_loop. rewrite <- (repeat_length (@nil (string*attr)) (S (List.length ps))) at 2.
  generalize (repeat (@nil (string*attr)) (S (List.length ps))).
  induction items as [|[k v] items IH]; intros acc; cbn; [reflexivity|].
  rewrite IH. apply put_at_length.
Qed.

Lemma split_loop_nth_gen ps items : forall acc i,
  NoDup (keys items) ->
  (forall d k, nth_error acc i = Some d -> In k (keys d) -> ~ In k (keys items)) ->
  nth_error (fold_left (fun acc kv => put_at (route ps (fst kv) (snd kv)) (fst kv) (snd kv) acc) items acc) i
  = option_map (fun d => d ++ sub_of ps i items) (nth_error acc i).
Proof.
  induction items as [|[k v] items IH]; intros acc i Hnd Hdis; cbn [fold_left fst snd].
  - unfold sub_of. destruct (nth_error acc i); cbn; [now rewrite app_nil_r|reflexivity].
  - cbn in Hnd. inversion Hnd as [|? ? Hni Hnd']; subst. rewrite IH; auto.
    + rewrite nth_put_at. destruct (Nat.eqb_spec (route ps k v) i) as [Hr|Hr].
      * destruct (nth_error acc i) as [d|] eqn:E; [|reflexivity]. cbn [option_map].
        f_equal. rewrite dset_new. 2:{ intros Hi. eapply (Hdis d k); eauto. now left. }
        rewrite <- app_assoc. unfold sub_of. cbn [filter fst snd]. rewrite Hr, Nat.eqb_refl. reflexivity.
      * unfold sub_of. cbn [filter fst snd]. apply Nat.eqb_neq in Hr. rewrite Hr. reflexivity.
    + intros d k' Hd Hk'. rewrite nth_put_at in Hd. destruct (Nat.eqb_spec (route ps k v) i) as [Hr|Hr].
      * destruct (nth_error acc i) as [d0|] eqn:E; [|discriminate]. cbn in Hd. injection Hd as <-.
        apply In_keys_dset in Hk'. destruct Hk' as [->|Hk']; [assumption|].
        intros Hi. eapply (Hdis d0 k'); eauto. now right.
      * intros Hi. eapply (Hdis d k'); eauto. now right.
Qed.

Lemma nth_error_repeat_lt {A} (x : A) n i : i < n -> nth_error (repeat x n) i = Some x.
Proof. revert i. induction n as [|n IH]; intros [|i] H; cbn; try lia; auto. apply IH. lia. Qed.

Lemma nth_error_repeat_some {A} (x y : A) n i : nth_error (repeat x n) i = Some y -> y = x.
Proof. intros H. apply nth_error_In in H. now apply repeat_spec in H. Qed.

Lemma split_loop_nth ps items i : NoDup (keys items) -> i <= List.length ps ->
  nth_error (split_loop ps items) i = Some (sub_of ps i items).
Proof.
  intros Hnd Hi. unfold split_loop. rewrite split_loop_nth_gen; auto.
  - rewrite nth_error_repeat_lt by lia. reflexivity.
  - intros d k Hd. apply nth_error_repeat_some in Hd. subst. cbn. tauto.
Qed.

Lemma nth_error_ext {A} (l1 l2 : list A) : (forall i, nth_error l1 i = nth_error l2 i) -> l1 = l2.
Proof.
  revert l2. induction l1 as [|x l1 IH]; intros [|y l2] H; auto.
  - specialize (H 0). discriminate.
  - specialize (H 0). discriminate.
  - f_equal; [specialize (H 0); cbn in H; congruence|]. apply IH. intros i. apply (H (S i)).
Qed.

Lemma nth_error_map_seq {A} (f : nat -> A) n i : i < n -> nth_error (map f (seq 0 n)) i = Some (f i).
Proof.
  intros H. rewrite nth_error_map, (nth_error_nth' _ 0) by (rewrite seq_length; lia).
  cbn. now rewrite seq_nth by lia.
Qed.

Lemma split_loop_eq ps items : NoDup (keys items) ->
  split_loop ps items = map (fun i => sub_of ps i items) (seq 0 (S (List.length ps))).
Proof.
  intros Hnd. apply nth_error_ext. intros i.
  destruct (Nat.lt_ge_cases i (S (List.length ps))) as [H|H].
  - rewrite split_loop_nth by (auto; lia). now rewrite nth_error_map_seq.
  - rewrite (proj2 (nth_error_None _ _)) by (rewrite split_loop_length; lia).
    symmetry. apply nth_error_None. rewrite map_length, seq_length. lia.
Qed.

Lemma removelast_map_seq {A} (f : nat -> A) n :
  removelast (map f (seq 0 (S n))) = map f (seq 0 n).
Proof.
  rewrite seq_S, map_app. cbn [map]. rewrite removelast_app by discriminate. cbn. now rewrite app_nil_r.
Qed.
Lemma last_map_seq {A} (f : nat -> A) n d : last (map f (seq 0 (S n))) d = f n.
Proof. rewrite seq_S, map_app. cbn [map]. now rewrite last_last. Qed.

(** ** States *)
Definition wf_state (s : state) : Prop := keys_increasing s.

Lemma keys_increasing_klt {A} (s : list (string * A)) : keys_increasing s <-> StronglySorted klt s.
Proof.
  unfold keys_increasing. induction s as [|x s IH]; cbn; [split; constructor|].
  split; intros H; inversion H as [|? ? Hs Hf]; subst; constructor.
  - now apply IH.
  - rewrite Forall_map in Hf. exact Hf.
  - now apply IH.
  - rewrite Forall_map. exact Hf.
Qed.

Lemma wf_NoDup s : wf_state s -> NoDup (keys s).
Proof. intros H. apply keys_increasing_klt in H. now apply strict_NoDup. Qed.

Lemma mk_state_NoDup items : NoDup (keys items) -> mk_state items = sort_by_key items.
Proof. intros H. unfold mk_state. apply dict_of_nodup. now apply NoDup_keys_sort. Qed.

Lemma mk_state_id s : wf_state s -> mk_state s = s.
Proof.
  intros H. rewrite mk_state_NoDup by now apply wf_NoDup.
  apply sort_strict_id. now apply keys_increasing_klt.
Qed.

Lemma insert_dup_hd {A} (x : string * A) l : exists y t, insert_by_key x l = y :: t.
Proof. destruct l; cbn; eauto. destruct (String.leb _ _); eauto. Qed.

(** inserting into a strictly sorted dict in key order keeps it sorted, even with repeated keys *)
Lemma dupdate_sorted {A} (items : list (string * A)) : forall d,
  StronglySorted kle items -> StronglySorted klt d ->
  (forall x y, In x d -> In y items -> kle x y) ->
  StronglySorted klt (dupdate d items).
Proof.
  induction items as [|[k v] items IH]; intros d Hs Hd Hle; [exact Hd|].
  rewrite dupdate_cons. inversion Hs as [|? ? Hs' Hf]; subst. rewrite Forall_forall in Hf.
  cbn [fst snd].
  assert (Hd' : StronglySorted klt (dset k v d) /\ forall x, In x (dset k v d) -> fst x = k \/ In x d).
  { clear IH Hs Hs' Hf.
    assert (Hle' : forall x, In x d -> slt (fst x) k \/ fst x = k).
    { intros x Hx. specialize (Hle x (k, v) Hx (or_introl eq_refl)). now apply sleb_spec in Hle. }
    clear Hle. induction d as [|[k' v'] d IHd]; cbn.
    - split; [repeat constructor|]. intros x [<-|[]]. auto.
    - inversion Hd as [|? ? Hd' Hf]; subst. destruct (String.eqb_spec k k') as [->|Hn].
      + split.
        * constructor; [assumption|]. exact Hf.
        * intros x [<-|Hx]; auto.
      + destruct IHd as [IH1 IH2]; auto. { intros x Hx. apply Hle'. now right. }
        split.
        * constructor; [assumption|]. apply Forall_forall. intros x Hx. apply IH2 in Hx.
          rewrite Forall_forall in Hf. destruct Hx as [Hx|Hx]; [|auto].
          unfold klt. cbn. rewrite Hx. destruct (Hle' (k', v')) as [H|H]; [now left|exact H|cbn in H; congruence].
        * intros x [<-|Hx]; auto. destruct (IH2 x Hx); auto. }
  destruct Hd' as [Hd1 Hd2]. apply IH; auto.
  intros x y Hx Hy. apply Hd2 in Hx. destruct Hx as [Hx|Hx].
  - specialize (Hf y Hy). unfold kle in *. cbn in Hf. now rewrite Hx.
  - apply Hle; auto. now right.
Qed.

Lemma mk_state_wf items : wf_state (mk_state items).
Proof.
  unfold wf_state. apply keys_increasing_klt. unfold mk_state, dict_of.
  apply dupdate_sorted; [apply sort_sorted|constructor|]. intros x y [].
Qed.

Lemma filter_wf f s : wf_state s -> wf_state (filter f s).
Proof. unfold wf_state. rewrite !keys_increasing_klt. apply strict_filter. Qed.

Lemma sub_of_wf ps i s : wf_state s -> wf_state (sub_of ps i s).
Proof. apply filter_wf. Qed.

(** the loop's outputs are already canonical, so [State(...)] leaves them as they are *)
Lemma pack_list l : Forall wf_state l -> sts_list (pack l) = l.
Proof.
  intros H. unfold pack. destruct l as [|d [|d' l]]; [reflexivity| |].
  - inversion H; subst. cbn. now rewrite mk_state_id.
  - cbn [sts_list]. rewrite <- (map_id (d :: d' :: l)) at 2. apply map_ext_Forall.
    eapply Forall_impl; [|exact H]. intros a. apply mk_state_id.
Qed.

(** ** partition *)
Lemma misplaced_spec fs : ellipsis_misplaced fs = false <-> ellipsis_only_last fs.
Proof.
  unfold ellipsis_only_last. induction fs as [|f fs IH].
  - cbn. split; [|auto]. intros _ i. destruct i; discriminate.
  - destruct fs as [|f' fs].
    + cbn. split; [|auto]. intros _ [|i]; cbn; [auto|]. destruct i; discriminate.
    + cbn [ellipsis_misplaced]. rewrite orb_false_iff, IH. split.
      * intros [H1 H2] [|i] Hi; cbn in Hi.
        -- injection Hi as ->. discriminate.
        -- specialize (H2 i Hi). cbn [List.length] in *. lia.
      * intros H. split.
        -- destruct f; try reflexivity. specialize (H 0 eq_refl). discriminate.
        -- intros i Hi. specialize (H (S i) Hi). cbn [List.length] in *. lia.
Qed.

Lemma route_spec fs ps path x i : Forall2 pred_ok fs ps ->
  (route ps path x = i /\ i < List.length ps) <-> first_match fs i path x.
Proof.
  intros H. revert i. induction H as [|f p fs ps Hf Hl IH]; intros i.
  - cbn. split; [lia|]. intros [[g [Hg _]] _]. destruct i; discriminate.
  - cbn [route List.length]. destruct (p path x) eqn:E.
    + apply (Hf path x) in E. split.
      * intros [<- _]. split; [exists f; auto|]. intros j h Hj. lia.
      * intros [_ H2]. destruct i as [|i]; [split; [reflexivity|lia]|].
        exfalso. apply (H2 0 f); auto. lia.
    + assert (En : ~ matches f path x) by (intros Hm; apply (Hf path x) in Hm; congruence).
      destruct i as [|i].
      * split; [intros [? _]; lia|]. intros [[g [Hg Hm]] _]. cbn in Hg. injection Hg as <-. tauto.
      * specialize (IH i). split.
        -- intros [H1 H2]. destruct IH as [IH _]. destruct IH as [Hg Hn]; [split; lia|].
           split; [exact Hg|]. intros [|j] h Hj Hh; cbn in Hh; [injection Hh as <-; assumption|].
           apply (Hn j h); [lia|assumption].
        -- intros [Hg Hn]. destruct IH as [_ IH]. destruct IH as [H1 H2].
           ++ split; [exact Hg|]. intros j h Hj Hh. apply (Hn (S j) h); [lia|exact Hh].
           ++ split; lia.
Qed.

Lemma route_none fs ps path x : Forall2 pred_ok fs ps ->
  route ps path x = List.length ps <-> (forall f, In f fs -> ~ matches f path x).
Proof.
  induction 1 as [|f p fs ps Hf Hl IH]; cbn [route List.length].
  - split; [intros _ f []|reflexivity].
  - destruct (p path x) eqn:E.
    + split; [lia|]. intros H. exfalso. apply (H f); [now left|]. now apply (Hf path x).
    + split.
      * intros H g [<-|Hg]; [intros Hm; apply (Hf path x) in Hm; congruence|]. apply IH; [lia|assumption].
      * intros H. f_equal. apply IH. intros g Hg. apply H. now right.
Qed.

Lemma rmapM_preds fs : (exists ps, rmapM to_predicate fs = Ok ps) <-> Forall valid_filter fs.
Proof.
  induction fs as [|f fs IH]; cbn; [split; eauto|]. split.
  - intros [ps H]. destruct (to_predicate f) eqn:E; [|discriminate]. cbn in H.
    destruct (rmapM to_predicate fs) eqn:E2; [|discriminate].
    constructor; [apply to_predicate_ok_iff; eauto|]. apply IH. eauto.
  - intros H. inversion H; subst. apply to_predicate_ok_iff in H2. destruct H2 as [p ->].
    destruct (proj2 IH H3) as [ps ->]. cbn. eauto.
Qed.

Lemma rmapM_preds_ok fs ps : rmapM to_predicate fs = Ok ps -> Forall2 pred_ok fs ps.
Proof.
  intros H. apply rmapM_ok_iff in H. induction H; constructor; auto.
  intros path x'. now apply to_predicate_spec.
Qed.

Lemma split_state_ok s fs l : wf_state s -> split_state s fs = Ok l ->
  exists ps, rmapM to_predicate fs = Ok ps /\ ellipsis_only_last fs /\
    l = map (fun i => sub_of ps i s) (seq 0 (S (List.length ps))).
Proof.
  intros Hs H. unfold split_state in H. destruct (ellipsis_misplaced fs) eqn:E; [discriminate|].
  destruct (rmapM to_predicate fs) as [ps|]; [|discriminate]. cbn in H. injection H as <-.
  exists ps. split; [reflexivity|]. split; [now apply misplaced_spec|].
  apply split_loop_eq. now apply wf_NoDup.
Qed.

Lemma split_state_succeeds s fs : wf_state s ->
  (exists l, split_state s fs = Ok l) <-> Forall valid_filter fs /\ ellipsis_only_last fs.
Proof.
  intros Hs. unfold split_state. rewrite <- misplaced_spec, <- rmapM_preds.
  destruct (ellipsis_misplaced fs).
  - split; [intros [l H]; discriminate|intros [_ H]; discriminate].
  - destruct (rmapM to_predicate fs) as [ps|]; cbn.
    + split; [intros _; split; eauto|eauto].
    + split; [intros [l H]; discriminate|intros [[l H] _]; discriminate].
Qed.

Lemma dget_sub_of ps i s k v : NoDup (keys s) ->
  dget k (sub_of ps i s) = Some v <-> dget k s = Some v /\ route ps k v = i.
Proof.
  intros Hn. unfold sub_of. rewrite dget_filter by assumption.
  destruct (dget k s) as [w|]; [|intuition discriminate]. cbn.
  destruct (Nat.eqb_spec (route ps k w) i) as [E|E].
  - split; [intros [= ->]; auto|tauto].
  - split; [discriminate|]. intros [[= ->] H]. tauto.
Qed.

Lemma sub_of_nil ps i s : sub_of ps i s = [] <-> (forall k v, In (k, v) s -> route ps k v <> i).
Proof.
  unfold sub_of. split.
  - intros H k v Hi Hr. assert (Hf : In (k, v) (filter (fun kv => Nat.eqb (route ps (fst kv) (snd kv)) i) s)).
    { apply filter_In. split; [assumption|]. cbn. now apply Nat.eqb_eq. }
    rewrite H in Hf. destruct Hf.
  - intros H. destruct (filter _ s) as [|[k v] t] eqn:E; [reflexivity|].
    assert (Hf : In (k, v) (filter (fun kv => Nat.eqb (route ps (fst kv) (snd kv)) i) s)) by (rewrite E; now left).
    apply filter_In in Hf. destruct Hf as [Hi Hr]. cbn in Hr. apply Nat.eqb_eq in Hr. now apply H in Hr.
Qed.

Lemma sub_map_wf ps s n : wf_state s -> Forall wf_state (map (fun i => sub_of ps i s) (seq 0 n)).
Proof. intros H. apply Forall_forall. intros d Hd. apply in_map_iff in Hd. destruct Hd as [i [<- _]]. now apply sub_of_wf. Qed.

Lemma nil_match {A B} (l : list A) (a b : B) : (match l with [] => a | _ => b end) = a \/ l <> [].
Proof. destruct l; [auto|right; discriminate]. Qed.

Lemma partition_inv s f fs r : wf_state s -> state_partition s f fs = Ok r ->
  exists ps, rmapM to_predicate (f :: fs) = Ok ps /\ ellipsis_only_last (f :: fs) /\
    sts_list r = map (fun i => sub_of ps i s) (seq 0 (List.length ps)) /\
    sub_of ps (List.length ps) s = [] /\
    r = pack (sts_list r).
Proof.
  intros Hs H. unfold state_partition in H.
  destruct (split_state s (f :: fs)) as [l|] eqn:E; [|discriminate]. cbn [rbind] in H.
  destruct (split_state_ok _ _ _ Hs E) as (ps & Hps & He & ->). exists ps.
  rewrite last_map_seq, removelast_map_seq in H.
  destruct (sub_of ps (List.length ps) s) eqn:E2; [|discriminate].
  injection H as <-.
  rewrite pack_list by now apply sub_map_wf. auto.
Qed.

Lemma partition_ok_iff s f fs : wf_state s ->
  (exists r, state_partition s f fs = Ok r) <->
  Forall valid_filter (f :: fs) /\ ellipsis_only_last (f :: fs) /\
  (forall k v, dget k s = Some v -> exists g, In g (f :: fs) /\ matches g k v).
Proof.
  intros Hs. split.
  - intros [r H]. destruct (partition_inv _ _ _ _ Hs H) as (ps & Hps & He & Hr & Hn & _).
    split; [apply rmapM_preds; eauto|]. split; [assumption|]. intros k v Hk.
    rewrite sub_of_nil in Hn. apply dget_In in Hk. specialize (Hn k v Hk).
    apply rmapM_preds_ok in Hps. assert (Hlt : route ps k v < List.length ps).
    { pose proof (route_le ps k v). lia. }
    destruct (proj1 (route_spec _ _ k v _ Hps) (conj eq_refl Hlt)) as [[g [Hg Hm]] _].
    exists g. split; [eapply nth_error_In; eauto|assumption].
  - intros (Hv & He & Hm). destruct (proj2 (split_state_succeeds s (f :: fs) Hs) (conj Hv He)) as [l El].
    unfold state_partition. rewrite El. cbn [rbind].
    destruct (split_state_ok _ _ _ Hs El) as (ps & Hps & _ & ->).
    rewrite last_map_seq. assert (Hn : sub_of ps (List.length ps) s = []).
    { apply sub_of_nil. intros k v Hi Hr. apply rmapM_preds_ok in Hps.
      destruct (Hm k v) as (g & Hg & Hgm); [apply In_dget; auto using wf_NoDup|].
      eapply (proj1 (route_none _ _ k v Hps) Hr); eauto. }
    rewrite Hn. eauto.
Qed.

Lemma partition_error s f fs e : wf_state s -> state_partition s f fs = Err e ->
  e = ValueError \/ (e = TypeError /\ ~ Forall valid_filter (f :: fs)).
Proof.
  intros Hs H. unfold state_partition, split_state in H.
  destruct (ellipsis_misplaced (f :: fs)); [injection H as <-; auto|].
  destruct (rmapM to_predicate (f :: fs)) as [ps|e'] eqn:E.
  - cbn [rbind] in H. destruct (last _ _); [discriminate|]. injection H as <-. auto.
  - cbn [rbind] in H. injection H as <-.
    assert (Hnv : ~ Forall valid_filter (f :: fs)).
    { intros Hv. apply rmapM_preds in Hv. destruct Hv. congruence. }
    assert (He : e' = TypeError \/ e' = ValueError).
    { clear -E. revert E. generalize (f :: fs). intros l. induction l as [|g l IH]; cbn; [discriminate|].
      destruct (to_predicate g) eqn:Eg; cbn; [|intros [= <-]; eapply to_predicate_err; eauto].
      destruct (rmapM to_predicate l); cbn; [discriminate|]. auto. }
    destruct He as [->| ->]; auto.
Qed.

Lemma partition_entries s f fs r : wf_state s -> state_partition s f fs = Ok r ->
  List.length (sts_list r) = S (List.length fs) /\
  (forall i out k v, nth_error (sts_list r) i = Some out ->
     (dget k out = Some v <-> dget k s = Some v /\ first_match (f :: fs) i k v)).
Proof.
  intros Hs H. destruct (partition_inv _ _ _ _ Hs H) as (ps & Hps & He & Hr & Hn & _).
  pose proof (rmapM_preds_ok _ _ Hps) as Hok. apply Forall2_length in Hok as Hlen. rewrite Hr. split.
  - rewrite map_length, seq_length. cbn in Hlen. lia.
  - intros i out k v Hi. assert (Hlt : i < List.length ps).
    { assert (Hs' : nth_error (map (fun i => sub_of ps i s) (seq 0 (List.length ps))) i <> None) by congruence.
      apply nth_error_Some in Hs'. now rewrite map_length, seq_length in Hs'. }
    rewrite nth_error_map_seq in Hi by assumption. injection Hi as <-.
    rewrite dget_sub_of by now apply wf_NoDup. rewrite <- (route_spec _ _ k v i Hok). tauto.
Qed.

Lemma partition_outputs_wf s f fs r : wf_state s -> state_partition s f fs = Ok r ->
  Forall wf_state (sts_list r).
Proof.
  intros Hs H. destruct (partition_inv _ _ _ _ Hs H) as (ps & _ & _ & -> & _). now apply sub_map_wf.
Qed.

(** ** merge *)
Definition merge_all (l : list state) : dict attr := fold_left (fun acc s => dupdate acc s) l [].

Lemma state_merge_eq x xs : wf_state x -> state_merge x xs = mk_state (merge_all (x :: xs)).
Proof.
  intros Hx. unfold state_merge, merge_all. destruct xs; [|reflexivity].
  cbn [fold_left]. change (dupdate [] x) with (dict_of x).
  rewrite dict_of_nodup by now apply wf_NoDup. now rewrite mk_state_id.
Qed.

Lemma merge_all_gen_nodup (l : list state) : forall acc : dict attr, NoDup (keys acc) ->
  NoDup (keys (fold_left (fun acc s => dupdate acc s) l acc)).
Proof. induction l as [|x l IH]; intros acc H; [exact H|]. cbn. apply IH. now apply NoDup_keys_dupdate. Qed.
Lemma merge_all_nodup l : NoDup (keys (merge_all l)).
Proof. apply merge_all_gen_nodup. constructor. Qed.

(** value of the last State of [l] that has the key *)
Fixpoint last_value (k : string) (l : list state) : option attr :=
  match l with
  | [] => None
  | s :: t => match last_value k t with Some v => Some v | None => dget k s end
  end.

Lemma dget_merge_gen k l : forall acc : dict attr, Forall (fun s : state => NoDup (keys s)) l ->
  dget k (fold_left (fun acc s => dupdate acc s) l acc) =
    match last_value k l with Some v => Some v | None => dget k acc end.
Proof.
  induction l as [|s l IH]; intros acc H; [reflexivity|]. inversion H; subst. cbn.
  rewrite IH by assumption. destruct (last_value k l); [reflexivity|].
  now rewrite dget_dupdate.
Qed.

Lemma dget_merge_all k l : Forall (fun s : state => NoDup (keys s)) l -> dget k (merge_all l) = last_value k l.
Proof. intros H. unfold merge_all. rewrite dget_merge_gen by assumption. now destruct (last_value k l). Qed.

Lemma Forall_wf_NoDup l : Forall wf_state l -> Forall (fun s : state => NoDup (keys s)) l.
Proof. intros H. eapply Forall_impl; [|exact H]. intros a. apply wf_NoDup. Qed.

Lemma state_merge_wf x xs : wf_state x -> wf_state (state_merge x xs).
Proof. intros H. rewrite state_merge_eq by assumption. apply mk_state_wf. Qed.

Lemma dget_mk_state k items : NoDup (keys items) -> dget k (mk_state items) = dget k items.
Proof. intros H. rewrite mk_state_NoDup by assumption. now apply dget_sort. Qed.

Lemma dget_state_merge k x xs : Forall wf_state (x :: xs) ->
  dget k (state_merge x xs) = last_value k (x :: xs).
Proof.
  intros H. inversion H; subst. rewrite state_merge_eq by assumption.
  rewrite dget_mk_state by apply merge_all_nodup. now apply dget_merge_all, Forall_wf_NoDup.
Qed.

Lemma state_ext a b : wf_state a -> wf_state b -> (forall k, dget k a = dget k b) -> a = b.
Proof. unfold wf_state. rewrite !keys_increasing_klt. apply strict_ext_eq. Qed.

Lemma last_value_In k l v : last_value k l = Some v -> exists s, In s l /\ dget k s = Some v.
Proof.
  induction l as [|s l IH]; cbn; [discriminate|]. destruct (last_value k l) eqn:E.
  - intros [= ->]. destruct (IH eq_refl) as (s' & ? & ?). eauto.
  - intros H. eauto.
Qed.
Lemma last_value_None k l : last_value k l = None <-> (forall s, In s l -> dget k s = None).
Proof.
  induction l as [|s l IH]; cbn; [split; [intros _ ? []|auto]|]. destruct (last_value k l) eqn:E.
  - split; [discriminate|]. intros H. exfalso. assert (Hn : Some a = None) by (apply IH; intros; apply H; auto). discriminate.
  - split.
    + intros H s' [<-|Hs']; auto. now apply IH.
    + intros H. apply H. auto.
Qed.

(** if the entries of the States agree with one mapping, merging in any order gives it *)
Lemma merge_agree s x xs : wf_state s -> Forall wf_state (x :: xs) ->
  (forall t k v, In t (x :: xs) -> dget k t = Some v -> dget k s = Some v) ->
  (forall k v, dget k s = Some v -> exists t, In t (x :: xs) /\ dget k t = Some v) ->
  state_merge x xs = s.
Proof.
  intros Hs Hl H1 H2. apply state_ext; [apply state_merge_wf; now inversion Hl|assumption|].
  intros k. rewrite dget_state_merge by assumption.
  destruct (last_value k (x :: xs)) as [v|] eqn:E.
  - apply last_value_In in E. destruct E as (t & Ht & Hk). symmetry. eauto.
  - symmetry. destruct (dget k s) as [v|] eqn:Ek; [|reflexivity].
    destruct (H2 k v Ek) as (t & Ht & Hk). rewrite last_value_None in E. specialize (E t Ht). congruence.
Qed.

Lemma partition_merge s f fs r x xs : wf_state s -> state_partition s f fs = Ok r ->
  Permutation (x :: xs) (sts_list r) -> state_merge x xs = s.
Proof.
  intros Hs H Hp. destruct (partition_entries _ _ _ _ Hs H) as [Hlen Hent].
  pose proof (partition_outputs_wf _ _ _ _ Hs H) as Hwf.
  assert (Hs' : exists r0, state_partition s f fs = Ok r0) by eauto.
  apply partition_ok_iff in Hs'; [|assumption]. destruct Hs' as (_ & _ & Hm).
  apply merge_agree; auto.
  - eapply Permutation_Forall; [symmetry; exact Hp|exact Hwf].
  - intros t k v Ht Hk. eapply Permutation_in in Ht; [|exact Hp].
    apply In_nth_error in Ht. destruct Ht as [i Hi]. now apply (Hent i t k v Hi).
  - intros k v Hk.
    destruct (partition_inv _ _ _ _ Hs H) as (ps & Hps & He & Hr & Hn & _).
    pose proof (rmapM_preds_ok _ _ Hps) as Hok.
    assert (Hlt : route ps k v < List.length ps).
    { rewrite sub_of_nil in Hn. pose proof (route_le ps k v). apply dget_In in Hk. specialize (Hn k v Hk). lia. }
    exists (sub_of ps (route ps k v) s). split.
    + eapply Permutation_in; [symmetry; exact Hp|]. rewrite Hr. apply in_map_iff.
      exists (route ps k v). split; [reflexivity|]. apply in_seq. lia.
    + apply dget_sub_of; auto using wf_NoDup.
Qed.

(** ** filter *)
Lemma filter_inv s f fs r : wf_state s -> state_filter s f fs = Ok r ->
  exists ps, rmapM to_predicate (f :: fs) = Ok ps /\ ellipsis_only_last (f :: fs) /\
    sts_list r = map (fun i => sub_of ps i s) (seq 0 (List.length ps)) /\ r = pack (sts_list r).
Proof.
  intros Hs H. unfold state_filter in H.
  destruct (split_state s (f :: fs)) as [l|] eqn:E; [|discriminate]. cbn [rbind] in H.
  destruct (split_state_ok _ _ _ Hs E) as (ps & Hps & He & ->). exists ps.
  rewrite removelast_map_seq in H. injection H as <-.
  rewrite pack_list by now apply sub_map_wf. auto.
Qed.

Lemma filter_ok_iff s f fs : wf_state s ->
  (exists r, state_filter s f fs = Ok r) <-> Forall valid_filter (f :: fs) /\ ellipsis_only_last (f :: fs).
Proof.
  intros Hs. rewrite <- split_state_succeeds by eassumption. unfold state_filter.
  destruct (split_state s (f :: fs)); cbn; split; intros [x H]; eauto; discriminate.
Qed.

Lemma filter_entries s f fs r : wf_state s -> state_filter s f fs = Ok r ->
  List.length (sts_list r) = S (List.length fs) /\
  (forall i out k v, nth_error (sts_list r) i = Some out ->
     (dget k out = Some v <-> dget k s = Some v /\ first_match (f :: fs) i k v)).
Proof.
  intros Hs H. destruct (filter_inv _ _ _ _ Hs H) as (ps & Hps & He & Hr & _).
  pose proof (rmapM_preds_ok _ _ Hps) as Hok. apply Forall2_length in Hok as Hlen. rewrite Hr. split.
  - rewrite map_length, seq_length. cbn in Hlen. lia.
  - intros i out k v Hi. assert (Hlt : i < List.length ps).
    { assert (Hs' : nth_error (map (fun i => sub_of ps i s) (seq 0 (List.length ps))) i <> None) by congruence.
      apply nth_error_Some in Hs'. now rewrite map_length, seq_length in Hs'. }
    rewrite nth_error_map_seq in Hi by assumption. injection Hi as <-.
    rewrite dget_sub_of by now apply wf_NoDup. rewrite <- (route_spec _ _ k v i Hok). tauto.
Qed.

Lemma filter_outputs_wf s f fs r : wf_state s -> state_filter s f fs = Ok r -> Forall wf_state (sts_list r).
Proof. intros Hs H. destruct (filter_inv _ _ _ _ Hs H) as (ps & _ & _ & -> & _). now apply sub_map_wf. Qed.

Lemma wf_states_eq l1 l2 : Forall wf_state l1 -> Forall wf_state l2 -> List.length l1 = List.length l2 ->
  (forall i a b k v, nth_error l1 i = Some a -> nth_error l2 i = Some b -> (dget k a = Some v <-> dget k b = Some v)) ->
  l1 = l2.
Proof.
  revert l2. induction l1 as [|a l1 IH]; intros [|b l2] H1 H2 Hlen H; cbn in Hlen; try discriminate; [reflexivity|].
  inversion H1; subst. inversion H2; subst. f_equal.
  - apply state_ext; auto. intros k. specialize (H 0 a b k). cbn in H.
    destruct (dget k a) as [v|]; [symmetry; now apply H|].
    destruct (dget k b) as [v|]; [|reflexivity]. pose proof (proj2 (H v eq_refl eq_refl) eq_refl). discriminate.
  - apply IH; auto. intros i a' b' k v Ha Hb. apply (H (S i) a' b' k v Ha Hb).
Qed.

Lemma ellipsis_app fs : (forall f, In f fs -> f <> FEllipsis) -> ellipsis_only_last (fs ++ [FEllipsis]).
Proof.
  intros H i Hi. rewrite app_length. cbn. destruct (Nat.lt_ge_cases i (List.length fs)).
  - rewrite nth_error_app1 in Hi by assumption. apply nth_error_In in Hi. apply H in Hi. tauto.
  - rewrite nth_error_app2 in Hi by assumption. destruct (i - List.length fs) as [|j] eqn:E; [lia|].
    cbn in Hi. destruct j; discriminate.
Qed.

Lemma first_match_app fs gs i k v : i < List.length fs -> first_match (fs ++ gs) i k v <-> first_match fs i k v.
Proof.
  intros Hi. unfold first_match. rewrite nth_error_app1 by assumption. split; intros [H1 H2]; (split; [exact H1|]).
  - intros j h Hj Hh. apply (H2 j h Hj). rewrite nth_error_app1 by lia. assumption.
  - intros j h Hj Hh. apply (H2 j h Hj). rewrite nth_error_app1 in Hh by lia. assumption.
Qed.

Lemma valid_ellipsis fs : Forall valid_filter (fs ++ [FEllipsis]) <-> Forall valid_filter fs.
Proof. rewrite Forall_app. split; [tauto|]. intros H. split; [assumption|]. constructor; [exact I|constructor]. Qed.

Lemma filter_partition s f fs r : wf_state s -> (forall g, In g (f :: fs) -> g <> FEllipsis) ->
  state_filter s f fs = Ok r ->
  exists rest, state_partition s f (fs ++ [FEllipsis]) = Ok (Many (sts_list r ++ [rest])) /\
    forall k v, dget k rest = Some v <-> dget k s = Some v /\ forall g, In g (f :: fs) -> ~ matches g k v.
Proof.
  intros Hs Hne H.
  assert (Hv : Forall valid_filter (f :: fs)).
  { assert (E : exists r0, state_filter s f fs = Ok r0) by eauto. apply filter_ok_iff in E; tauto. }
  assert (Hp : exists q, state_partition s f (fs ++ [FEllipsis]) = Ok q).
  { apply partition_ok_iff; [assumption|]. split; [|split].
    - change (f :: fs ++ [FEllipsis]) with ((f :: fs) ++ [FEllipsis]). now apply valid_ellipsis.
    - change (f :: fs ++ [FEllipsis]) with ((f :: fs) ++ [FEllipsis]). now apply ellipsis_app.
    - intros k v _. exists FEllipsis. split; [|exact I]. right. apply in_app_iff. right. now left. }
  destruct Hp as [q Hq]. destruct (partition_entries _ _ _ _ Hs Hq) as [Hl He].
  pose proof (partition_outputs_wf _ _ _ _ Hs Hq) as Hwq.
  destruct (filter_entries _ _ _ _ Hs H) as [Hl' He'].
  pose proof (filter_outputs_wf _ _ _ _ Hs H) as Hwr.
  rewrite app_length in Hl. cbn [List.length] in Hl.
  destruct (exists_last (l := sts_list q)) as (init & rest & Eq).
  { intros E. rewrite E in Hl. cbn in Hl. lia. }
  assert (Hinit : List.length init = S (List.length fs)).
  { rewrite Eq, app_length in Hl. cbn in Hl. lia. }
  assert (Er : init = sts_list r).
  { rewrite Eq in Hwq. apply Forall_app in Hwq. apply wf_states_eq; [tauto|assumption|lia|].
    intros i a b k v Ha Hb.
    assert (Hi : i < List.length init) by (apply nth_error_Some; congruence).
    rewrite (He' i b k v Hb). rewrite (He i a k v) by (rewrite Eq, nth_error_app1; assumption).
    change (f :: fs ++ [FEllipsis]) with ((f :: fs) ++ [FEllipsis]).
    rewrite first_match_app by (cbn; lia). tauto. }
  exists rest. subst init. rewrite <- Eq. split.
  - rewrite Hq. f_equal. destruct (partition_inv _ _ _ _ Hs Hq) as (ps & _ & _ & _ & _ & Hpk).
    rewrite Hpk at 1. rewrite <- (pack_list (sts_list q)) at 2 by assumption. unfold pack at 1.
    rewrite Eq. destruct (sts_list r) as [|a [|b t]]; [cbn in Hinit; lia| |]; cbn [app].
    + cbn. reflexivity.
    + reflexivity.
  - intros k v. rewrite (He (List.length (sts_list r)) rest k v).
    + rewrite Hinit. change (f :: fs ++ [FEllipsis]) with ((f :: fs) ++ [FEllipsis]). split.
      * intros [Hk [_ Hn]]. split; [assumption|]. intros g Hg.
        apply In_nth_error in Hg. destruct Hg as [j Hj].
        assert (Hjl : j < List.length (f :: fs)) by (apply nth_error_Some; congruence).
        apply (Hn j g); [cbn in Hjl; lia|]. now rewrite nth_error_app1.
      * intros [Hk Hn]. split; [assumption|]. split.
        -- exists FEllipsis. split; [|exact I]. change (S (List.length fs)) with (List.length (f :: fs)).
           rewrite nth_error_app2, Nat.sub_diag by lia. reflexivity.
        -- intros j h Hj Hh. rewrite nth_error_app1 in Hh by (cbn; lia). apply Hn. eapply nth_error_In; eauto.
    + rewrite Eq, nth_error_app2, Nat.sub_diag by lia. reflexivity.
Qed.

(** ** the algebra of [|] and [-] *)
Lemma state_or_wf a b : wf_state a -> wf_state (state_or a b).
Proof. intros H. unfold state_or. destruct b; [assumption|]. now apply state_merge_wf. Qed.
Lemma state_sub_wf a b : wf_state a -> wf_state (state_sub a b).
Proof. intros H. unfold state_sub. destruct b; [assumption|]. now apply filter_wf. Qed.

Lemma dget_or k a b : wf_state a -> wf_state b ->
  dget k (state_or a b) = match dget k b with Some v => Some v | None => dget k a end.
Proof.
  intros Ha Hb. unfold state_or. destruct b as [|x b0] eqn:Eb; [reflexivity|]. rewrite <- Eb in *.
  rewrite dget_state_merge by (repeat constructor; assumption). reflexivity.
Qed.

Lemma dget_sub k a b : dget k (state_sub a b) = if dmem k b then None else dget k a.
Proof.
  unfold state_sub. destruct b as [|x b0] eqn:Eb; [reflexivity|]. rewrite <- Eb.
  rewrite (dget_filter_keys (fun k => negb (dmem k b))). now destruct (dmem k b).
Qed.

Lemma or_assoc a b c : wf_state a -> wf_state b -> wf_state c ->
  state_or (state_or a b) c = state_or a (state_or b c).
Proof.
  intros Ha Hb Hc. apply state_ext; auto using state_or_wf. intros k.
  rewrite !dget_or by auto using state_or_wf. destruct (dget k c); reflexivity.
Qed.
Lemma or_idem a : wf_state a -> state_or a a = a.
Proof. intros Ha. apply state_ext; auto using state_or_wf. intros k. rewrite dget_or by assumption. now destruct (dget k a). Qed.
Lemma or_nil_l a : wf_state a -> state_or [] a = a.
Proof.
  intros Ha. apply state_ext; auto. { apply state_or_wf. constructor. }
  intros k. rewrite dget_or by (auto; constructor). now destruct (dget k a).
Qed.
Lemma or_nil_r a : state_or a [] = a.
Proof. reflexivity. Qed.
Lemma sub_disjoint a b k : In k (keys (state_sub a b)) -> In k (keys b) -> False.
Proof.
  intros H1 H2. apply dget_Some_keys in H1. destruct H1 as [v H1]. rewrite dget_sub in H1.
  apply dmem_In in H2. rewrite H2 in H1. discriminate.
Qed.
Lemma or_sub a b : wf_state a -> wf_state b -> state_sub (state_or a b) b = state_sub a b.
Proof.
  intros Ha Hb. apply state_ext; auto using state_or_wf, state_sub_wf. intros k.
  rewrite !dget_sub. rewrite dget_or by assumption. unfold dmem. now destruct (dget k b).
Qed.
Lemma sub_or a b : wf_state a -> wf_state b -> state_or (state_sub a b) b = state_or a b.
Proof.
  intros Ha Hb. apply state_ext; auto using state_or_wf, state_sub_wf. intros k.
  rewrite !dget_or by auto using state_sub_wf. rewrite dget_sub. unfold dmem. now destruct (dget k b).
Qed.
Lemma sub_self a : state_sub a a = [].
Proof.
  destruct (state_sub a a) as [|[k v] t] eqn:E; [reflexivity|]. exfalso.
  assert (Hk : In k (keys (state_sub a a))) by (rewrite E; now left).
  apply (sub_disjoint a a k); auto. apply dget_Some_keys in Hk. destruct Hk as [w Hw].
  rewrite dget_sub in Hw. destruct (dmem k a) eqn:Em; [discriminate|]. eapply dget_In_keys; eauto.
Qed.

(** ** flatten / unflatten *)
Lemma combine_keys_values {A} (s : list (string * A)) : combine (keys s) (values s) = s.
Proof. induction s as [|[k v] s IH]; cbn; [reflexivity|]. f_equal. exact IH. Qed.

Lemma unflatten_flatten s : wf_state s ->
  state_unflatten (snd (state_flatten s)) (fst (state_flatten s)) = s.
Proof.
  intros H. unfold state_unflatten, state_flatten. cbn [fst snd].
  rewrite combine_keys_values. apply dict_of_nodup. now apply wf_NoDup.
Qed.

Lemma keys_combine {A} (ks : list string) (l : list A) : List.length ks = List.length l -> keys (combine ks l) = ks.
Proof. revert l. induction ks as [|k ks IH]; intros [|x l] H; cbn in *; try discriminate; [reflexivity|]. f_equal. apply IH. lia. Qed.

Lemma unflatten_keys s leaves : wf_state s -> List.length leaves = List.length s ->
  keys (state_unflatten (keys s) leaves) = keys s /\ values (state_unflatten (keys s) leaves) = leaves.
Proof.
  intros H Hl. unfold state_unflatten.
  assert (Hk : keys (combine (keys s) leaves) = keys s).
  { apply keys_combine. unfold keys. rewrite map_length. lia. }
  rewrite dict_of_nodup by (rewrite Hk; now apply wf_NoDup). split; [exact Hk|].
  assert (Hlk : List.length (keys s) = List.length leaves) by (unfold keys; rewrite map_length; lia).
  clear -Hlk. revert leaves Hlk. generalize (keys s). induction l as [|k l IH]; intros [|x lv] H; cbn in *; try discriminate; [reflexivity|].
  f_equal. apply IH. lia.
Qed.

Lemma keys_inc_ext {A B} (s : list (string * A)) (t : list (string * B)) :
  keys s = keys t -> keys_increasing s -> keys_increasing t.
Proof. unfold keys_increasing, keys. now intros ->. Qed.

Lemma unflatten_wf s leaves : wf_state s -> List.length leaves = List.length s ->
  wf_state (state_unflatten (keys s) leaves).
Proof.
  intros H Hl. destruct (unflatten_keys s leaves H Hl) as [Hk _].
  eapply keys_inc_ext; [symmetry; exact Hk|exact H].
Qed.

(** ** every State in every history is canonical *)
Inductive state_history : state -> Prop :=
| SH_init items : state_history (mk_state items)
| SH_merge x xs : state_history x -> Forall state_history xs -> state_history (state_merge x xs)
| SH_or a b : state_history a -> state_history b -> state_history (state_or a b)
| SH_sub a b : state_history a -> state_history b -> state_history (state_sub a b)
| SH_partition s f fs r t : state_history s -> state_partition s f fs = Ok r ->
    In t (sts_list r) -> state_history t
| SH_filter s f fs r t : state_history s -> state_filter s f fs = Ok r ->
    In t (sts_list r) -> state_history t
| SH_unflatten s leaves : state_history s -> List.length leaves = List.length s ->
    state_history (state_unflatten (snd (state_flatten s)) leaves).

Lemma state_history_wf s : state_history s -> wf_state s.
Proof.
  induction 1.
  - apply mk_state_wf.
  - now apply state_merge_wf.
  - now apply state_or_wf.
  - now apply state_sub_wf.
  - eapply Forall_forall in H1; [exact H1|]. eapply partition_outputs_wf; eauto.
  - eapply Forall_forall in H1; [exact H1|]. eapply filter_outputs_wf; eauto.
  - now apply unflatten_wf.
Qed.

Lemma mk_state_order_irrelevant items items' :
  NoDup (keys items) -> Permutation items items' -> mk_state items = mk_state items'.
Proof.
  intros H Hp. rewrite !mk_state_NoDup; auto. 2:{ eapply NoDup_keys_perm; eauto. }
  now apply sort_perm_eq.
Qed.

Lemma same_keys_same_treedef a b : wf_state a -> wf_state b ->
  (forall k, In k (keys a) <-> In k (keys b)) -> snd (state_flatten a) = snd (state_flatten b).
Proof.
  intros Ha Hb H. cbn. unfold wf_state, keys_increasing in *. fold (keys a) in Ha. fold (keys b) in Hb.
  revert Ha Hb H. generalize (keys a) (keys b). clear.
  induction l as [|x l IH]; intros [|y m] Ha Hb H.
  - reflexivity.
  - exfalso. apply (proj2 (H y)). now left.
  - exfalso. apply (proj1 (H x)). now left.
  - inversion Ha as [|? ? Hsa Hfa]; inversion Hb as [|? ? Hsb Hfb]; subst.
    rewrite Forall_forall in Hfa, Hfb.
    assert (x = y).
    { destruct (proj1 (H x) (or_introl eq_refl)) as [E|Hx]; [auto|].
      destruct (proj2 (H y) (or_introl eq_refl)) as [E|Hy]; [auto|].
      exfalso. eapply slt_asym; [apply (Hfa _ Hy)|apply (Hfb _ Hx)]. }
    subst y. f_equal. apply IH; auto. intros k. specialize (H k). cbn in H.
    split; intros Hk.
    + destruct (proj1 H (or_intror Hk)) as [->|]; [|assumption]. exfalso. now apply (slt_irrefl k), Hfa.
    + destruct (proj2 H (or_intror Hk)) as [->|]; [|assumption]. exfalso. now apply (slt_irrefl k), Hfb.
Qed.
