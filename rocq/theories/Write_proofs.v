(** Assignments one at a time: invariants, the trace guard and what a failing
    update leaves behind. *)
From Coq Require Import Permutation.
From Verif Require Import PyBase PyBaseFacts ValuesM Spec_Eq ValuesFacts FiltersM StateM Spec_State State_proofs ModuleM Spec_Module Graph_facts
  Dfs_proofs Update_proofs.
Local Open Scope string_scope.
Local Open Scope list_scope.

(** ** well-formedness *)
Lemma put_vars_wf w x o d : wf_world w -> get_obj w x = Some o ->
  NoDup (keys d) -> ~ In "_module__state" (keys d) ->
  (forall n y, dget n d = Some (ARaw (PyMod y)) -> valid w y) ->
  (forall n a, dget n d = Some a -> wf_attr a) -> wf_world (put_obj w x (set_vars o d)).
Proof.
  intros Hw Ho H1 H2 H3 H4. constructor.
  - unfold put_obj, set_heap. cbn. rewrite (nth_error_ext (map m_id (list_set x (set_vars o d) (w_heap w))) (map m_id (w_heap w))); [apply Hw|].
    intros i. rewrite !nth_error_map, nth_list_set. destruct (Nat.eqb_spec x i) as [->|Hne]; [|reflexivity].
    unfold get_obj in Ho. rewrite Ho. assert (i < List.length (w_heap w)) by (apply nth_error_Some; congruence).
    apply Nat.ltb_lt in H. rewrite H. reflexivity.
  - intros y o' Hy. assert (Hlen : List.length (w_heap (put_obj w x (set_vars o d))) = List.length (w_heap w)) by (cbn; apply list_set_length).
    destruct (Nat.eq_dec x y) as [->|Hne].
    + rewrite (get_put_same _ _ _ o) in Hy by assumption. injection Hy as <-. pose proof (wf_objs _ Hw _ _ Ho) as W.
      constructor; cbn; auto. { apply W. } intros n z Hz. rewrite list_set_length. eapply H3; eauto.
    + rewrite get_put_other in Hy by assumption. pose proof (wf_objs _ Hw _ _ Hy) as [W1 W2 W3 W4 W5]. constructor; auto.
      intros n z Hz. rewrite Hlen. eauto.
Qed.

Lemma assign_ok w old a a' : attr_ok w a -> (forall b, old = Some b -> wf_attr b) -> assign_value old a = Ok a' -> attr_ok w a'.
Proof.
  intros [Ha Hv] Ho E. destruct old as [[v|c]|].
  - destruct a as [u|c']; unfold assign_value in E; [injection E as <-; split; auto|].
    cbn in Ha. rewrite container_copy_id in E by assumption. injection E as <-. split; [exact Ha|discriminate].
  - specialize (Ho _ eq_refl). cbn in Ho. unfold assign_value in E. rewrite replace_value in E by assumption.
    destruct a as [u|c']; cbn in E.
    + injection E as <-. split; [now apply wf_container_val|discriminate].
    + destruct (is_equivalent c c'); [|discriminate]. cbn in E. injection E as <-. split; [now apply wf_container_val|discriminate].
  - destruct a as [u|c']; unfold assign_value in E; [injection E as <-; split; auto|].
    cbn in Ha. rewrite container_copy_id in E by assumption. injection E as <-. split; [exact Ha|discriminate].
Qed.

Lemma setattr_wf w x n a w' : wf_world w -> attr_ok w a -> setattr w x n a = Ok w' -> wf_world w'.
Proof.
  intros Hw Ha H. apply setattr_inv in H as (o & a' & Ho & Ht & Hn & Has & ->). pose proof (wf_objs _ Hw _ _ Ho) as W.
  assert (Ha' : attr_ok w a'). { eapply assign_ok; eauto. intros b Hb. eapply (wfo_attrs _ _ W); eauto. }
  apply put_vars_wf; auto.
  - apply NoDup_keys_dset. apply W.
  - rewrite In_keys_dset. intros [E|E]; [congruence|]. now apply W in E.
  - intros m y. rewrite dget_dset. destruct (String.eqb m n); [intros [= ->]; now apply Ha'|]. apply (wfo_refs _ _ W).
  - intros m b. rewrite dget_dset. destruct (String.eqb m n); [intros [= ->]; apply Ha'|]. apply (wfo_attrs _ _ W).
Qed.

Lemma setattr_shape w x n a w' : setattr w x n a = Ok w' ->
  w_uuid w' = w_uuid w /\ w_trace w' = w_trace w /\ w_nodes w' = w_nodes w /\ List.length (w_heap w') = List.length (w_heap w) /\
  (forall y, y <> x -> get_obj w' y = get_obj w y) /\
  (forall o, get_obj w x = Some o -> m_trace o = w_trace w /\ exists d, get_obj w' x = Some (set_vars o d)).
Proof.
  intros H. apply setattr_inv in H as (o & a' & Ho & Ht & Hn & Has & ->). split; [reflexivity|]. split; [reflexivity|]. split; [reflexivity|].
  split; [cbn; apply list_set_length|]. split.
  - intros y Hy. apply get_put_other. congruence.
  - intros o0 Ho0. assert (o0 = o) by congruence. subst. split; [exact Ht|]. eexists. rewrite (get_put_same _ _ _ o); eauto.
Qed.

(** the trace guard *)
Lemma setattr_guard w x n a o : get_obj w x = Some o -> m_trace o <> w_trace w -> setattr w x n a = Err TraceContextError.
Proof.
  intros Ho Ht. unfold setattr. rewrite Ho. destruct (trace_valid w (m_trace o)) eqn:E; [|reflexivity].
  apply trace_valid_iff in E. contradiction.
Qed.

(** ** delattr *)
Lemma delattr_inv w x n w' : delattr w x n = Ok w' ->
  exists o, get_obj w x = Some o /\ In n (keys (m_vars o)) /\ w' = put_obj w x (set_vars o (ddel n (m_vars o))).
Proof.
  unfold delattr. destruct (get_obj w x) as [o|]; [|discriminate]. destruct (dmem n (m_vars o)) eqn:E; [|discriminate].
  intros [= <-]. exists o. split; [reflexivity|]. split; [now apply dmem_In|reflexivity].
Qed.
Lemma delattr_wf w x n w' : wf_world w -> delattr w x n = Ok w' -> wf_world w'.
Proof.
  intros Hw H. apply delattr_inv in H as (o & Ho & _ & ->). pose proof (wf_objs _ Hw _ _ Ho) as W. apply put_vars_wf; auto.
  - apply NoDup_keys_ddel. apply W.
  - intros Hi. apply keys_ddel_incl in Hi. now apply W in Hi.
  - intros m y Hd. destruct (string_dec m n) as [->|Hne]; [rewrite dget_ddel_same in Hd by apply W; discriminate|].
    rewrite dget_ddel_other in Hd by assumption. eapply (wfo_refs _ _ W); eauto.
  - intros m b Hd. destruct (string_dec m n) as [->|Hne]; [rewrite dget_ddel_same in Hd by apply W; discriminate|].
    rewrite dget_ddel_other in Hd by assumption. eapply (wfo_attrs _ _ W); eauto.
Qed.

(** ** paths *)
Lemma set_path_inv w p : forall r a w', set_path w r p a = Ok w' ->
  exists q n x, p = q ++ [n] /\ follow w r q = Some x /\ setattr w x n a = Ok w'.
Proof.
  induction p as [|m p IH]; intros r a w' H; [discriminate|]. destruct p as [|m' p].
  - cbn in H. exists [], m, r. split; [reflexivity|]. split; [|exact H].
    apply setattr_inv in H as (o & a' & Ho & _). cbn. now rewrite Ho.
  - cbn [set_path] in H. destruct (get_obj w r) as [o|] eqn:Ho; [|discriminate].
    destruct (dget m (m_vars o)) as [[[]|]|] eqn:Ed; try discriminate; [|destruct (String.eqb m "_module__state"); discriminate].
    destruct (IH _ _ _ H) as (q & n & x & E & Hf & Hs). exists (m :: q), n, x. rewrite E. split; [reflexivity|].
    split; [|exact Hs]. rewrite follow_cons, Ho, Ed. exact Hf.
Qed.
Lemma set_path_setattr w p n a x r : follow w r p = Some x -> set_path w r (p ++ [n]) a = setattr w x n a.
Proof. apply set_path_follow. Qed.

(** assigning something that is not a module never makes more modules reachable *)
Lemma setattr_reaches w x n a w' r y : setattr w x n a = Ok w' -> is_submodule a = false ->
  reaches w' r y -> reaches w r y.
Proof.
  intros H Ha [p Hp]. exists p. revert r Hp. apply setattr_inv in H as (o & a' & Ho & Ht & Hn & Has & ->).
  assert (Ha' : is_submodule a' = false). { eapply assign_not_sub; eauto. }
  induction p as [|m p IH]; intros r Hp.
  - cbn in *. rewrite get_put in Hp. destruct (Nat.eqb_spec x r) as [->|Hne].
    + rewrite Ho. destruct (Nat.ltb r (List.length (w_heap w))); [exact Hp|discriminate].
    + exact Hp.
  - rewrite follow_cons in *. rewrite get_put in Hp. destruct (Nat.eqb_spec x r) as [->|Hne].
    + rewrite Ho. destruct (Nat.ltb r (List.length (w_heap w))); [|discriminate]. cbn in Hp. rewrite dget_dset in Hp.
      destruct (String.eqb m n); [destruct a' as [[]|]; discriminate|].
      destruct (dget m (m_vars o)) as [[[]|]|]; try discriminate. auto.
    + destruct (get_obj w r) as [o2|]; [|discriminate]. destruct (dget m (m_vars o2)) as [[[]|]|]; try discriminate. auto.
Qed.

Definition plain_items (items : list (string * attr)) : Prop :=
  Forall (fun ka => wf_attr (snd ka) /\ is_submodule (snd ka) = false) items.

Lemma update_safe_refl w r : wf_world w -> update_safe w w r.
Proof. intros Hw. constructor; auto. intros x o Ho. exists (m_vars o). now rewrite set_vars_id. Qed.
Lemma update_safe_trans w1 w2 w3 r : update_safe w1 w2 r -> update_safe w2 w3 r -> update_safe w1 w3 r.
Proof.
  intros A B. constructor.
  - apply B.
  - destruct (us_shape _ _ _ A) as (A1 & A2 & A3 & A4), (us_shape _ _ _ B) as (B1 & B2 & B3 & B4). repeat split; congruence.
  - intros x o Ho. destruct (us_objs _ _ _ A _ _ Ho) as [d Hd]. destruct (us_objs _ _ _ B _ _ Hd) as [d' Hd']. exists d'. exact Hd'.
  - intros x Hx. rewrite (us_unreachable _ _ _ B). { apply A. exact Hx. } intros Hr. apply Hx. now apply A.
  - intros x Hx. apply A. now apply B.
  - intros x o Ho Ht. apply (us_trace _ _ _ B). { apply (us_trace _ _ _ A); auto. }
    destruct (us_shape _ _ _ A) as (_ & E & _). congruence.
Qed.
Lemma set_path_safe w r p a w' : wf_world w -> wf_attr a -> is_submodule a = false -> set_path w r p a = Ok w' -> update_safe w w' r.
Proof.
  intros Hw Ha Hs H. apply set_path_inv in H as (q & n & x & -> & Hf & Hset).
  destruct (setattr_shape _ _ _ _ _ Hset) as (S1 & S2 & S3 & S4 & S5 & S6).
  assert (Hx : reaches w r x) by (exists q; auto).
  constructor; auto.
  - eapply setattr_wf; eauto. split; [exact Ha|]. intros y ->. discriminate.
  - intros y o Ho. destruct (Nat.eq_dec y x) as [->|Hne]; [now apply S6|]. exists (m_vars o). now rewrite set_vars_id, S5.
  - intros y Hy. apply S5. intros ->. contradiction.
  - intros y. eapply setattr_reaches; eauto.
  - intros y o Ho Ht. rewrite S5; auto. intros ->. now apply S6 in Ho as [Ho _].
Qed.
Lemma update_loop_safe items : forall w r w' res, wf_world w -> plain_items items -> update_loop w r items = (w', res) -> update_safe w w' r.
Proof.
  induction items as [|[k a] t IH]; intros w r w' res Hw Hp H; cbn in H.
  - injection H as <- <-. now apply update_safe_refl.
  - inversion Hp as [|? ? [P1 P2] Hp']; subst. destruct (set_path w r (split_slash k) a) as [w1|e] eqn:E.
    + pose proof (set_path_safe _ _ _ _ _ Hw P1 P2 E) as S. eapply update_safe_trans; [exact S|]. apply (IH _ _ _ res); auto. apply S.
    + injection H as <- <-. now apply update_safe_refl.
Qed.

(** what a failing update leaves: the assignments before the failing one *)
Lemma update_loop_prefix items : forall w r w' e, update_loop w r items = (w', Err e) ->
  exists done k a rest, items = done ++ (k, a) :: rest /\ update_loop w r done = (w', Ok tt) /\
                        set_path w' r (split_slash k) a = Err e.
Proof.
  induction items as [|[k a] t IH]; intros w r w' e H; cbn in H; [discriminate|].
  destruct (set_path w r (split_slash k) a) as [w1|e'] eqn:E.
  - destruct (IH _ _ _ _ H) as (done & k' & a' & rest & -> & H1 & H2). exists ((k, a) :: done), k', a', rest.
    split; [reflexivity|]. split; [|exact H2]. cbn. now rewrite E.
  - injection H as <- <-. exists [], k, a, t. auto.
Qed.

Lemma plain_dupdate d items : plain_items d -> plain_items items -> plain_items (dupdate d items).
Proof.
  intros Hd Hi. unfold plain_items in *. rewrite Forall_forall in *. revert d Hd.
  induction items as [|[k a] t IH]; intros d Hd; [exact Hd|]. rewrite dupdate_cons. apply IH.
  - intros x Hx. apply Hi. now right.
  - intros x Hx. cbn in Hx. assert (G : forall d, In x (dset k a d) -> x = (k, a) \/ In x d).
    { clear. induction d as [|[m b] d IH]; cbn; [intros [<-|[]]; auto|]. destruct (String.eqb_spec k m) as [->|]; cbn; intuition. }
    apply G in Hx as [->|Hx]; [apply Hi; now left|auto].
Qed.
Lemma plain_fold (l : list state) : Forall plain_items l -> forall acc, plain_items acc ->
  plain_items (fold_left (fun acc s => dupdate acc s) l acc).
Proof. induction 1; intros acc Ha; cbn; [exact Ha|]. apply IHForall. now apply plain_dupdate. Qed.
