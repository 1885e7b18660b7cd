(** Decorated [__init__]. *)
From Coq Require Import ZArith Lia Permutation.
From Verif Require Import PyBase PyBaseFacts ValuesM Spec_Eq ValuesFacts FiltersM StateM Spec_State State_proofs ModuleM SpmdM Spec_Spmd ContextM TransformM ScanM ScanInitM PureM.
From Verif Require Import Spec_Module Spec_Prog Spec_Context Spec_Scan Spec_ScanInit.
From Verif Require Import Spmd_proofs Graph_facts Dfs_proofs Build_proofs Bisim_proofs Mdef_proofs RoundTrip_proofs Clone_proofs Laws_proofs History_proofs Prog_proofs Context_proofs Transform_proofs Scan_proofs ScanRng_proofs ScanInit_proofs Refuse_proofs Write_proofs.
Local Open Scope string_scope.
Local Open Scope list_scope.

Lemma build_global d : forall im w r im' w', build d im w = Ok (r, im', w') -> w_trace w' = w_trace w /\ w_nodes w' = w_nodes w.
Proof.
  induction d as [i|c i subs st ini IH] using mdef_rect'; intros im w r im' w' H.
  - cbn in H. destruct (im_get i im); [|discriminate]. injection H as <- <- <-. auto.
  - rewrite build_MDef in H. destruct (im_get i im); [discriminate|].
    destruct (build_subs subs _ _) as [[[ds im2] w2]|] eqn:E; [|discriminate]. cbn in H. injection H as <- <- <-. cbn.
    assert (G : forall im w ds im2 w2, build_subs subs im w = Ok (ds, im2, w2) -> w_trace w2 = w_trace w /\ w_nodes w2 = w_nodes w).
    { clear - IH. induction subs as [|[n s] subs IHs]; intros im w ds im2 w2 H; cbn in H; [injection H as <- <- <-; auto|].
      destruct (build s im w) as [[[r1 im1] w1]|] eqn:E1; [|discriminate]. cbn in H.
      destruct (build_subs subs im1 w1) as [[[ds' im3] w3]|] eqn:E2; [|discriminate]. cbn in H. injection H as <- <- <-.
      inversion IH as [|? ? I1 I2]; subst. destruct (I1 _ _ _ _ _ E1) as [A1 A2]. destruct (IHs I2 _ _ _ _ _ E2) as [B1 B2]. split; congruence. }
    apply G in E as [E1 E2]. cbn in E1, E2. auto.
Qed.
Lemma update_loop_global items : forall w r w' res, update_loop w r items = (w', res) -> w_trace w' = w_trace w /\ w_nodes w' = w_nodes w.
Proof.
  induction items as [|[k a] items IH]; intros w r w' res H; cbn in H; [injection H as <- _; auto|].
  destruct (set_path w r (split_slash k) a) as [w1|] eqn:E; [|injection H as <- _; auto].
  apply set_path_inv in E as (q & n & x & _ & _ & E). apply setattr_inv in E as (o & a' & _ & _ & _ & _ & ->). apply IH in H as [H1 H2]. auto.
Qed.
Lemma merge_global w d us m w' : merge w d us = Ok (m, w') -> w_trace w' = w_trace w /\ w_nodes w' = w_nodes w.
Proof.
  unfold merge, build_module. destruct (build d [] w) as [[[r im] w1]|] eqn:E; [|discriminate]. cbn [rbind]. apply build_global in E as [E1 E2].
  destruct (update_module w1 r [] us) as [w2 [[]|]] eqn:U; [|discriminate]. intros [= <- <-]. apply update_loop_global in U as [U1 U2]. split; congruence.
Qed.


(** what one assignment of an entry of the stacked state needs *)
Lemma same_kind_overwrites a a' : same_kind a a' -> overwrites a a' a'.
Proof.
  destruct a as [v|c], a' as [v'|c']; cbn; try tauto. intros [H1 H2]. split; [exact H1|]. split; [rewrite H2; apply same_meta_refl|].
  rewrite H1, H2. now destruct c'.
Qed.
Lemma overwrites_unique old new r1 r2 : overwrites old new r1 -> overwrites old new r2 -> r1 = r2.
Proof. destruct old as [v|c], new as [v'|c']; cbn; try congruence. intros (_ & _ & ->) (_ & _ & ->). reflexivity. Qed.

Lemma same_kind_no_sharding a b : same_kind a b -> no_sharding a -> no_sharding b.
Proof. destruct a as [v|c], b as [v'|c']; cbn; try tauto. intros [-> ->]. auto. Qed.
Lemma same_kind_has_sharding a b sh : same_kind a b -> has_sharding a sh -> has_sharding b sh.
Proof. intros K (c & -> & H1 & H2). destruct b as [v'|c']; cbn in K; [tauto|]. destruct K as [K1 K2]. exists c'. rewrite <- K1, <- K2. auto. Qed.

Section Deco.
Variables (J : arrays) (o : scan_opts) (t : trace_state) (f : option pctx -> world -> nat -> world * result unit) (w : world) (r n : nat)
  (ctxs : nat -> option pctx) (lw : nat -> world) (d : mdef) (st : nat -> state) (ax : nat -> list state) (b c : state).
Hypothesis HJ : stack_slices J.
Hypothesis HA : arrays_ok J.
Hypothesis Hn : 0 < n.
Hypothesis HL : forall i, i < n -> layer_made o (init_of f r) (set_trace w t) (ctxs i) (lw i) r d (st i) (ax i) b c.
Hypothesis Hlive : live (set_trace (lw 0) (w_trace w)) r.

(** the state of [r] before the final update *)
Lemma before (m : nat) w' us (Hb : w_nodes (lw 0) = w_nodes w) : merge (set_trace (lw 0) (w_trace w)) d us = Ok (m, w') -> wf_world w' ->
  all_unchanged (set_trace (lw 0) (w_trace w)) w' ->
  valid w' r /\ names_ok w' r /\ live w' r /\ get_state w' r = Ok (st 0) /\ get_module_def w' r = Ok d /\
  (forall p, follow w' r p = follow (lw 0) r p) /\ w_trace w' = w_trace w /\ w_nodes w' = w_nodes (lw 0).
Proof.
  intros MG W' UN. destruct (HL 0 Hn) as [M1 M2 M3 M4 M5 M6 M7]. set (w0 := set_trace (lw 0) (w_trace w)) in *.
  assert (W0 : wf_world w0) by now apply set_trace_wf. destruct (merge_global _ _ _ _ _ MG) as [G1 G2].
  assert (V0 : valid w0 r) by exact M3. assert (UN0 : all_unchanged (lw 0) w0) by (intros x ob E; exact E).
  assert (UN1 : all_unchanged (lw 0) w') by (intros x ob E; apply UN, UN0; exact E).
  destruct (get_obj_ex _ _ V0) as [ob Ho]. pose proof (UN _ _ Ho) as Ho'.
  assert (V' : valid w' r) by (unfold valid; eapply get_obj_lt; eauto).
  destruct (unchanged_state (lw 0) w' r M2 W' M3 UN1) as [S1 S2]; [exact G2|].
  split; [exact V'|]. split; [eapply unchanged_names; [exact M2|exact M3|exact UN1|exact G2|exact M4]|]. split.
  { intros x ox Hx Hox. apply (unchanged_reaches w0 w') in Hx; auto. rewrite G1. apply (Hlive x); [exact Hx|].
    rewrite <- (unchanged_get w0 w' r x UN Hx). exact Hox. }
  split; [now rewrite S1|]. split; [now rewrite S2|]. split; [intros p; apply (unchanged_follow (lw 0) w' M2 UN1 p r M3)|]. split; [exact G1|exact G2].
Qed.
End Deco.
