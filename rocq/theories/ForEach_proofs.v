(** for_each and the init bracket. *)
From Verif Require Import PyBase PyBaseFacts ValuesM Spec_Eq ValuesFacts FiltersM StateM State_proofs ModuleM Spec_Module Graph_facts
  Dfs_proofs Mdef_proofs.
Local Open Scope string_scope.
Local Open Scope list_scope.

Lemma shape_refl w : same_shape w w.
Proof. intros x. destruct (get_obj w x) as [o|]; auto. Qed.
Lemma shape_trans w1 w2 w3 : same_shape w1 w2 -> same_shape w2 w3 -> same_shape w1 w3.
Proof.
  intros A B x. specialize (A x). specialize (B x). destruct (get_obj w1 x), (get_obj w2 x), (get_obj w3 x); try tauto.
  destruct A as (A1 & A2 & A3), B as (B1 & B2 & B3). repeat split; congruence.
Qed.

Lemma submods_In l n r : In (n, r) (submods l) <-> In (n, ARaw (PyMod r)) l.
Proof.
  induction l as [|[m a] l IH]; cbn; [tauto|]. destruct a as [[]|]; cbn; rewrite IH; intuition congruence.
Qed.
Lemma submods_filter l : submods (filter (fun na => is_submodule (snd na)) l) = submods l.
Proof. induction l as [|[m a] l IH]; cbn; [reflexivity|]. destruct a as [[]|]; cbn; rewrite ?IH; reflexivity. Qed.

Section FE.
Context {S' : Type} (wof : S' -> world) (fn : S' -> nat -> result S') (ty : string) (w : world).
Hypothesis Hw : wf_world w.
Hypothesis Hfn : forall s r s', same_shape w (wof s) -> fn s r = Ok s' -> same_shape w (wof s').

Fixpoint on_subs (rec : S' -> nat -> list nat -> result (S' * list nat)) (l : list (string * nat)) (s : S') (visited : list nat)
  : result (S' * list nat) :=
  match l with
  | [] => Ok (s, visited)
  | (_, r) :: t => do (s1, v1) <- rec s r visited; on_subs rec t s1 v1
  end.
Lemma on_all_fields_subs rec l : forall s v, on_all_fields rec l s v = on_subs rec (submods l) s v.
Proof.
  induction l as [|[n a] l IH]; intros s v; cbn; [reflexivity|]. destruct a as [[]|]; cbn; auto.
  destruct (rec s r v) as [[s1 v1]|]; cbn; auto.
Qed.

Definition fin (sr : list nat) (res : result S') : result (S' * list nat) :=
  match res with Ok s => Ok (s, ids w sr) | Err e => Err e end.
Definition is_ty (x : nat) : bool := match get_obj w x with Some o => smem ty (m_cls o) | None => false end.

Lemma run_on_app {A} (f : A -> nat -> result A) l1 l2 s :
  run_on f (l1 ++ l2) s = match run_on f l1 s with Ok s1 => run_on f l2 s1 | Err e => Err e end.
Proof. revert s. induction l1 as [|x l1 IH]; intros s; cbn; [reflexivity|]. destruct (f s x); cbn; auto. Qed.

Lemma run_on_shape l : forall s s', same_shape w (wof s) -> run_on fn l s = Ok s' -> same_shape w (wof s').
Proof.
  induction l as [|x l IH]; intros s s' Hs H; cbn in H; [now injection H as <-|].
  destruct (fn s x) as [s1|] eqn:E; [|discriminate]. cbn in H. eauto.
Qed.

Record fwalk (sr new : list nat) : Prop := {
  fk_nd : NoDup (sr ++ new);
  fk_valid : Forall (valid w) (sr ++ new);
  fk_closed : forall x n y, In x new -> child w x n y -> In y (sr ++ new)
}.

Definition all_ok (fuel : nat) : Prop := forall r sr, valid w r -> NoDup sr -> Forall (valid w) sr ->
  List.length (w_heap w) - List.length sr < fuel ->
  exists new, fwalk sr new /\ In r (sr ++ new) /\ (forall x, In x new -> reaches w r x) /\
    forall s, same_shape w (wof s) -> on_all wof fn ty fuel s r (ids w sr) = fin (sr ++ new) (run_on fn (filter is_ty new) s).

Lemma subs_all_ok fuel : all_ok fuel -> forall l sr, (forall n r, In (n, r) l -> valid w r) -> NoDup sr -> Forall (valid w) sr ->
  List.length (w_heap w) - List.length sr < fuel ->
  exists new, fwalk sr new /\ (forall n r, In (n, r) l -> In r (sr ++ new)) /\
    (forall x, In x new -> exists n r, In (n, r) l /\ reaches w r x) /\
    forall s, same_shape w (wof s) -> on_subs (on_all wof fn ty fuel) l s (ids w sr) = fin (sr ++ new) (run_on fn (filter is_ty new) s).
Proof.
  intros Hrec. induction l as [|[n r] l IH]; intros sr Hl Hnd Hv Hf.
  - exists []. split; [constructor; rewrite ?app_nil_r; auto; intros ? ? ? []|]. split; [intros ? ? []|]. split; [intros ? []|].
    intros s _. cbn. now rewrite app_nil_r.
  - destruct (Hrec r sr (Hl n r (or_introl eq_refl)) Hnd Hv Hf) as (new1 & [A1 A2 A3] & A4 & A5 & A6).
    destruct (IH (sr ++ new1)) as (new2 & [B1 B2 B3] & B4 & B5 & B6); auto. { intros; eapply Hl; right; eauto. } { rewrite app_length. lia. }
    rewrite <- app_assoc in *. exists (new1 ++ new2). split; [constructor; auto|].
    { intros x m y Hx Hc. apply in_app_or in Hx as [Hx|Hx]; [|eauto]. rewrite app_assoc. apply in_or_app. left. eauto. }
    split. { intros m y [[= <- <-]|Hy]; [rewrite app_assoc; apply in_or_app; now left|eauto]. }
    split. { intros x Hx. apply in_app_or in Hx as [Hx|Hx]; [exists n, r; split; [now left|auto]|].
      destruct (B5 x Hx) as (m & y & Hy & Hr). exists m, y. split; [now right|exact Hr]. }
    intros s Hs. cbn [on_subs]. rewrite (A6 s Hs), filter_app, run_on_app. destruct (run_on fn (filter is_ty new1) s) as [s1|e] eqn:E; [|reflexivity].
    cbn [fin rbind]. rewrite (B6 s1); [reflexivity|]. eapply run_on_shape; eauto.
Qed.

Lemma on_all_ok fuel : all_ok fuel.
Proof.
  induction fuel as [|fuel IH]; intros r sr Hr Hnd Hv Hf; [lia|]. destruct (get_obj_ex _ _ Hr) as [o Ho]. pose proof (wf_objs _ Hw _ _ Ho) as W.
  destruct (in_dec Nat.eq_dec r sr) as [Hin|Hni].
  - exists []. split; [constructor; rewrite ?app_nil_r; auto; intros ? ? ? []|]. rewrite app_nil_r. split; [exact Hin|]. split; [intros ? []|].
    intros s Hs. specialize (Hs r). rewrite Ho in Hs. cbn. destruct (get_obj (wof s) r) as [o'|]; [|destruct Hs]. destruct Hs as (E1 & E2 & E3).
    assert (nmem (m_id o') (ids w sr) = true) as ->; [|reflexivity]. apply nmem_In. rewrite E1, <- (idof_get w r o Ho). now apply In_ids.
  - assert (Hnd1 : NoDup (sr ++ [r])). { apply NoDup_app_intro; auto; [repeat constructor; auto|]. intros x Hx [<-|[]]. auto. }
    assert (Hv1 : Forall (valid w) (sr ++ [r])) by (apply Forall_app; auto).
    pose proof (valid_length w _ Hnd1 Hv1) as Hvl. rewrite app_length in Hvl. cbn in Hvl.
    destruct (subs_all_ok fuel IH (submods (m_vars o)) (sr ++ [r])) as (new & [A1 A2 A3] & A4 & A5 & A6); auto.
    { intros n x Hx. apply submods_In in Hx. apply In_dget in Hx; [|apply W]. eapply (wfo_refs _ _ W); eauto. }
    { rewrite app_length. cbn. lia. }
    rewrite <- app_assoc in *. cbn [app] in *. exists (r :: new). split; [constructor; auto|].
    { intros x n y [<-|Hx] Hc; [|eauto]. destruct Hc as (o' & Ho' & Hd). assert (o' = o) by congruence. subst. apply (A4 n).
      apply submods_In. now apply dget_In. }
    split; [apply in_or_app; right; now left|]. split.
    { intros x [<-|Hx]; [eapply reaches_refl; eauto|]. destruct (A5 x Hx) as (n & y & Hy & Hr'). eapply reaches_trans; [|exact Hr'].
      apply submods_In in Hy. apply In_dget in Hy; [|apply W]. apply (reaches_child w r n y Hw). exists o. auto. }
    intros s Hs. pose proof (Hs r) as Hs1. rewrite Ho in Hs1. cbn [on_all].
    destruct (get_obj (wof s) r) as [o'|]; [|destruct Hs1]. destruct Hs1 as (E1 & E2 & E3).
    assert (nmem (m_id o') (ids w sr) = false) as ->.
    { apply nmem_false. rewrite E1, <- (idof_get w r o Ho). intros Hi. apply Hni. now apply In_ids in Hi. }
    assert (Ht : is_ty r = smem ty (m_cls o')) by (unfold is_ty; now rewrite Ho, E2).
    cbn [filter]. rewrite Ht.
    assert (Hgo : forall s1, same_shape w (wof s1) -> match get_obj (wof s1) r with
      | Some o1 => on_all_fields (on_all wof fn ty fuel) (m_vars o1) s1 (ids w sr ++ [m_id o'])
      | None => Err OutOfModel end = fin (sr ++ r :: new) (run_on fn (filter is_ty new) s1)).
    { intros s1 Hs1. pose proof (Hs1 r) as G. rewrite Ho in G. destruct (get_obj (wof s1) r) as [o1|]; [|destruct G].
      destruct G as (G1 & G2 & G3). rewrite on_all_fields_subs, <- submods_filter, G3, submods_filter.
      rewrite <- (A6 s1 Hs1). f_equal. unfold ids. rewrite map_app. cbn. now rewrite E1, (idof_get w r o Ho). }
    destruct (smem ty (m_cls o')).
    + cbn [run_on]. destruct (fn s r) as [s1|e] eqn:Ef; [|reflexivity]. cbn [rbind]. apply Hgo. eapply Hfn; eauto.
    + cbn [rbind]. now apply Hgo.
Qed.

Theorem for_each_visits r fuel : valid w r -> List.length (w_heap w) < fuel ->
  exists V, NoDup V /\ (forall x, In x V <-> reaches w r x /\ exists o, get_obj w x = Some o /\ In ty (m_cls o)) /\
    forall s, same_shape w (wof s) -> for_each wof fn ty fuel s r = run_on fn V s.
Proof.
  intros Hr Hf. destruct (on_all_ok fuel r [] Hr (NoDup_nil _) (Forall_nil _)) as (new & [A1 A2 A3] & A4 & A5 & A6); [cbn; lia|].
  cbn [app] in *. exists (filter is_ty new). split; [now apply NoDup_filter|]. split.
  - assert (Hn : forall x, In x new <-> reaches w r x).
    { intros x. split; [apply A5|]. intros Hx. apply (closed_reaches w (fun y => In y new) r); auto. }
    intros x. rewrite filter_In, Hn. unfold is_ty. split.
    + intros [H1 H2]. split; [exact H1|]. destruct (get_obj w x) as [o|]; [|discriminate]. exists o. split; [reflexivity|]. now apply smem_In.
    + intros [H1 (o & Ho & H2)]. split; [exact H1|]. rewrite Ho. now apply smem_In.
  - intros s Hs. unfold for_each. change (@nil nat) with (ids w []). rewrite (A6 s Hs). destruct (run_on fn (filter is_ty new) s); reflexivity.
Qed.
End FE.
