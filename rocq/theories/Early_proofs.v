(** Early_proofs: rolling a model back. *)
From Coq Require Import Lia.
From Verif Require Import PyBase PyBaseFacts ValuesM Spec_Eq ValuesFacts FiltersM StateM Spec_State State_proofs ModuleM PureM Spec_Module Spec_Prog
  Graph_facts Dfs_proofs Bisim_proofs Clone_proofs Update_proofs Leaf_proofs History_proofs Scan_proofs Container_proofs ScanDeco_proofs TransformM Transform_proofs Spec_Functional Functional_proofs
  GradFunM Spec_GradFun GradFun_proofs JitCacheM TrainLoopM Spec_TrainLoop TrainLoop_proofs Resume_proofs EarlyM Spec_Early.
Local Open Scope string_scope.
Local Open Scope list_scope.

Lemma steady_refl w r : names_ok w r -> steady w w r.
Proof. intros N. split; [exact N|]. split; [reflexivity|]. intros s s1 E E1. rewrite E in E1. injection E1 as <-. apply shaped_refl. Qed.
Lemma steady_trans w w1 w2 r : wf_world w1 -> valid w1 r -> steady w w1 r -> steady w1 w2 r -> steady w w2 r.
Proof.
  intros W V (N1 & D1 & S1) (N2 & D2 & S2). split; [exact N2|]. split; [congruence|]. intros s s2 E E2.
  destruct (get_state_total w1 r W V) as (s1 & E1 & _). eapply TrainLoop_proofs.alike_trans; [exact (S1 s s1 E E1)|exact (S2 s1 s2 E1 E2)].
Qed.
Lemma like_as_in w r v : like w r v r -> as_in w r v.
Proof.
  intros L. split; [intros q; now apply like_look|]. split; [intros q q'; now apply like_alias|]. split; [apply L|apply L].
Qed.
(** going back *)
Lemma back w w1 r s : like w r w r -> wf_world w1 -> valid w1 r -> live w1 r -> w_nodes w1 = w_nodes w -> steady w w1 r -> get_state w r = Ok s ->
  exists w2, update_state w1 r (UStates (One s)) = (w2, Ok tt) /\ as_in w r w2 /\ rest_as_in w1 r w2.
Proof.
  intros LK W1 V1 L1 N1 (S1 & S2 & S3) G. destruct (get_state_total w1 r W1 V1) as (s1 & G1 & _).
  destruct (load w r w1 r s s1 LK W1 V1 S1 L1 N1 S2 G G1 (shaped_sym _ _ (S3 s s1 G G1))) as (w2 & E & LK2 & (A1 & A2 & A3)).
  exists w2. split; [exact E|]. split; [now apply like_as_in|]. split; [exact A3|]. auto.
Qed.
Lemma run_live_any {A} (f : prog A) w r w1 out : ok_prog f -> wf_world w -> valid w r -> names_ok w r -> live w r -> run f w [r] = (w1, out) ->
  wf_world w1 /\ valid w1 r /\ live w1 r /\ w_nodes w1 = w_nodes w.
Proof.
  intros Hf W V N L E. destruct (get_state_total w r W V) as (s & Gs & _). destruct (get_module_def_total w r W V) as (d & Gd).
  assert (H : holds w w r w (mkPure (One s) d)). { constructor; auto; [intros x o Ho; exact Ho|]. split; [exact Gd|exact Gs]. }
  destruct (run_parts f w w r w _ (0, 0) Hf H) as (w1' & res & v1 & v2 & E1 & _ & _ & W2 & V2 & L2 & N2 & _). rewrite E in E1. injection E1 as <- <-. auto.
Qed.
Lemma tried_ok {A} (f : prog A) w r w1 res : wf_world w -> valid w r -> names_ok w r -> live w r -> ok_prog f -> run f w [r] = (w1, res) -> steady w w1 r ->
  exists w2, tried f w r = (w2, Ok tt) /\ as_in w r w2 /\ rest_as_in w1 r w2.
Proof.
  intros W V N L Hf E St. destruct (get_state_total w r W V) as (s & G & _). destruct (run_live_any f w r w1 res Hf W V N L E) as (W1 & V1 & L1 & N1).
  unfold tried. rewrite G, E. eapply back; eauto. now apply like_refl.
Qed.

(** the loop: [wb] is the moment that is kept *)
Lemma history_ok r w l log wz res : history steady r w l log wz res -> wf_world w -> valid w r -> names_ok w r -> live w r ->
  wf_world wz /\ valid wz r /\ live wz r /\ w_nodes wz = w_nodes w /\ steady w wz r /\
  Forall (fun x => like (snd x) r (snd x) r /\ w_nodes (snd x) = w_nodes w /\ steady (snd x) wz r) log.
Proof.
  induction 1 as [w|w f l w1 e Hf E St|w f l w1 score log w' res Hf E St H IH]; intros W V N L.
  - split; [exact W|]. split; [exact V|]. split; [exact L|]. split; [reflexivity|]. split; [now apply steady_refl|constructor].
  - destruct (run_live_any f w r w1 _ Hf W V N L E) as (W1 & V1 & L1 & N1). split; [exact W1|]. split; [exact V1|]. split; [exact L1|]. split; [exact N1|]. split; [exact St|constructor].
  - destruct (run_live_any f w r w1 _ Hf W V N L E) as (W1 & V1 & L1 & N1). pose proof St as (S1 & _).
    destruct (IH W1 V1 S1 L1) as (A1 & A2 & A3 & A4 & A5 & A6). split; [exact A1|]. split; [exact A2|]. split; [exact A3|]. split; [congruence|]. split; [exact (steady_trans w w1 w' r W1 V1 St A5)|].
    constructor; [cbn [snd]; split; [exact (like_refl _ _ W1 V1 S1 L1)|]; auto|]. eapply Forall_impl; [|exact A6]. intros x (B1 & B2 & B3). split; [exact B1|]. split; [congruence|exact B3].
Qed.
(** the position of the best, given what was kept before *)
Lemma keep_ok (kept : world -> world -> nat -> Prop) better r w l log wz res : (forall v v1, kept v v1 r -> names_ok v1 r) -> ranks better -> history kept r w l log wz res -> wf_world w -> valid w r -> names_ok w r -> live w r -> forall best,
  keep_best better l best w r = (wz, best, res) /\ (forall b s, best = Some (b, s) -> Forall (fun x => better (fst x) b = false) log) /\ (best = None -> log = []) \/
  exists i score wb s, keep_best better l best w r = (wz, Some (score, s), res) /\ first_best better log i score wb /\ get_state wb r = Ok s /\ (forall b s', best = Some (b, s') -> better score b = true).
Proof.
  intros KN [AS NT] H. induction H as [w|w f l w1 e Hf E St|w f l w1 score log w' res Hf E St H IH]; intros W V N L best.
  - left. split; [reflexivity|]. split; [constructor|auto].
  - left. cbn [keep_best]. rewrite E. split; [reflexivity|]. split; [constructor|auto].
  - destruct (run_live_any f w r w1 _ Hf W V N L E) as (W1 & V1 & L1 & N1). pose proof (KN _ _ St) as S1. specialize (IH W1 V1 S1 L1).
    cbn [keep_best]. rewrite E. destruct (match best with None => true | Some (b, _) => better score b end) eqn:B.
    + right. destruct (get_state_total w1 r W1 V1) as (s & G & _). rewrite G.
      assert (BB : forall b s', best = Some (b, s') -> better score b = true) by (intros b s' ->; exact B).
      assert (IR : better score score = false) by (destruct (better score score) eqn:Q; [|reflexivity]; now rewrite (AS _ _ Q) in Q).
      destruct (IH (Some (score, s))) as [(K & F & _)|(i & sc & wb & s2 & K & (F1 & F2 & F3) & G2 & F4)].
      * exists 0, score, w1, s. split; [exact K|]. split; [|auto]. split; [reflexivity|]. split; [|intros; lia].
        intros [|j] x v Q; cbn in Q; [injection Q as <- <-; exact IR|]. specialize (F score s eq_refl). rewrite Forall_forall in F. exact (F _ (nth_error_In _ _ Q)).
      * specialize (F4 score s eq_refl). exists (S i), sc, wb, s2. split; [exact K|]. split; [|split; [exact G2|]].
        -- split; [exact F1|]. split.
           ++ intros [|j] x v Q; cbn in Q; [injection Q as <- <-; now apply AS|eauto].
           ++ intros [|j] x v Hj Q; cbn in Q; [injection Q as <- <-; exact F4|]. apply (F3 j x v); [lia|exact Q].
        -- intros b s' Hb. specialize (BB b s' Hb). destruct (better sc b) eqn:Q; [reflexivity|].
           exfalso. pose proof (AS _ _ BB) as R. assert (better sc score = false) by (apply (NT sc b score Q R)). congruence.
    + destruct best as [[b sb]|]; [|discriminate]. destruct (IH (Some (b, sb))) as [(K & F & _)|(i & sc & wb & s2 & K & (F1 & F2 & F3) & G2 & F4)].
      * left. split; [exact K|]. split; [|discriminate]. intros b' s' [= <- <-]. constructor; [exact B|exact (F b sb eq_refl)].
      * right. specialize (F4 b sb eq_refl). assert (Q : better sc score = true) by (destruct (better sc score) eqn:Q; [reflexivity|]; now rewrite (NT _ _ _ Q B) in F4).
        exists (S i), sc, wb, s2. split; [exact K|]. split; [|split; [exact G2|intros b' s' [= <- <-]; exact F4]]. split; [exact F1|]. split.
        -- intros [|j] x v R; cbn in R; [injection R as <- <-; now apply AS|eauto].
        -- intros [|j] x v Hj R; cbn in R; [injection R as <- <-; exact Q|]. apply (F3 j x v); [lia|exact R].
Qed.
Lemma fit_ok better r w l log wz res : ranks better -> history steady r w l log wz res -> wf_world w -> valid w r -> names_ok w r -> live w r ->
  (log = [] -> fit better l w r = (wz, res)) /\
  (log <> [] -> exists i score wb w', first_best better log i score wb /\ fit better l w r = (w', res) /\ as_in wb r w' /\ rest_as_in wz r w').
Proof.
  intros R H W V N L. destruct (history_ok r w l log wz res H W V N L) as (Wz & Vz & Lz & Nz & Sz & F).
  unfold fit. destruct (keep_ok steady better r w l log wz res (fun v v1 K => proj1 K) R H W V N L None) as [(K & _ & F0)|(i & score & wb & s & K & FB & G & _)]; rewrite K.
  - split; [reflexivity|]. intros C. exfalso. apply C. now apply F0.
  - pose proof FB as (FB1 & _). split; [intros ->; destruct i; discriminate|]. intros _.
    rewrite Forall_forall in F. destruct (F _ (nth_error_In _ _ FB1)) as (LK & Nb & Sb). cbn [snd] in *.
    destruct (back wb wz r s LK Wz Vz Lz) as (w' & U & A & B); auto; [congruence|]. rewrite U. exists i, score, wb, w'. auto.
Qed.
