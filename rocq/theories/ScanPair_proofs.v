(** ScanPair_proofs: scanning two functions that do the same. *)
From Coq Require Import Permutation ZArith Lia.
From Verif Require Import PyBase PyBaseFacts ValuesM Spec_Eq ValuesFacts FiltersM StateM Spec_State State_proofs ModuleM Spec_Module Spec_History Spec_Prog
  Graph_facts Dfs_proofs Build_proofs Bisim_proofs Skel_proofs RoundTrip_proofs Clone_proofs Update_proofs Write_proofs History_proofs
  Laws_proofs Grow_proofs Prog_proofs SpmdM Spmd_proofs ContextM TransformM Transform_proofs ScanM Spec_Scan Scan_proofs ScanExc_proofs Spec_ScanCalls.
Local Open Scope string_scope.
Local Open Scope nat_scope.
Local Open Scope list_scope.

(** both runs give [res], and neither touches the objects there were *)
Definition both {A} (wa wb : world) (ra rb : world * result A) (K : A -> Prop) : Prop :=
  exists wa2 wb2 res, ra = (wa2, res) /\ rb = (wb2, res) /\ good_after wa wa2 /\ good_after wb wb2 /\ forall x, res = Ok x -> K x.

Section Pair.
Context {X Y : Type} (o : scan_opts) (fa fb : scanned_of X Y) (F : option pctx -> pyval -> X -> world -> nat -> Prop) (K : pyval -> Prop) (nt : list string).
Hypothesis Hbody : forall pc c xs v vd R m md, pair v vd R -> R m md -> w_nodes vd = nt -> F pc c xs vd md ->
  exists v2 vd2 res R2, fa pc c xs v m = (v2, res) /\ fb pc c xs vd md = (vd2, res) /\ moves v vd R v2 vd2 R2 /\
    forall c' ys, res = Ok (c', ys) -> K c'.
Context (w : world) (r : nat) (d : mdef) (L : list nat).
Context (Hw : wf_world w) (Hr : valid w r) (Hg : graph w r d L).

Definition step_ok (p : (state * pyval) * outcome Y) : Prop := plain_st (fst (fst p)) /\ K (snd (fst p)) /\ out_fine (snd p).

Lemma fn_both b wa wb carry x : plain_st b -> wf_world wa -> wf_world wb -> w_nodes wa = nt -> w_nodes wb = nt -> plain_st (fst carry) -> in_fine x ->
  step_call o F d b wb carry x -> both wa wb (scan_fn o fa d b wa carry x) (scan_fn o fb d b wb carry x) step_ok.
Proof.
  intros B Ha Hb Na Nb C Hx Hc. destruct carry as [cs c], x as [[pc axs] args]. unfold in_fine in Hx. cbn [fst snd] in C, Hx. unfold step_call in Hc. cbn [fst snd] in Hc. unfold scan_fn.
  assert (Stop : forall e, both wa wb (wa, Err e) (wb, Err e) step_ok).
  { intros e. exists wa, wb, (Err e). do 2 (split; [reflexivity|]). do 2 (split; [now apply good_refl|]). discriminate. }
  destruct (enter_axes o axs) as [axs1|e] eqn:Ee; [|apply Stop].
  assert (P1 : plain_list (axs1 ++ [b; cs])). { apply plain_list_app. split; [eapply enter_plain; eauto|]. repeat constructor; auto. }
  specialize (Hc axs1).
  destruct (build_pair w r d L wa wb Hw Hr Hg Ha Hb (eq_trans Na (eq_sym Nb))) as (wa1 & wb1 & B1 & B2 & HP & Hroot & T1 & T2 & N2 & U1 & U2 & L1 & L2).
  set (R := shift (List.length L) (List.length (w_heap wa)) (List.length (w_heap wb))) in *.
  unfold merge in *. rewrite B1. rewrite B2 in *. cbn [rbind] in *. unfold update_module in *.
  destruct (pair_loop R (fold_left (fun acc s => dupdate acc s) ([] :: (axs1 ++ [b; cs])) [])) with (w := wa1) (w' := wb1)
    (x := List.length (w_heap wa)) (y := List.length (w_heap wb)) as (wa2 & wb2 & res & E1 & E2 & M); auto.
  { apply plain_merge; constructor; [constructor|exact P1]. }
  cbn [fold_left] in *. rewrite E1. rewrite E2 in *. destruct res as [[]|e]; [|apply Stop].
  specialize (Hc _ _ eq_refl eq_refl).
  assert (Nb2 : w_nodes wb2 = nt). { rewrite <- (pr_nodes _ _ _ (mv_pair _ _ _ _ _ _ M)), (mv_nt _ _ _ _ _ _ M), (pr_nodes _ _ _ HP), N2. exact Nb. }
  destruct (Hbody pc c args wa2 wb2 R _ _ (mv_pair _ _ _ _ _ _ M) Hroot Nb2 Hc) as (wa3 & wb3 & res & R2 & F1 & F2 & M2 & HK).
  rewrite F1, F2.
  pose proof (moves_trans _ _ _ _ _ _ _ _ _ M M2) as M3. pose proof (mv_pair _ _ _ _ _ _ M2) as HP3.
  assert (Hr3 : R2 (List.length (w_heap wa)) (List.length (w_heap wb))) by (apply (mv_incl _ _ _ _ _ _ M2); exact Hroot).
  assert (Nb3 : w_nodes wb3 = nt). { rewrite <- (pr_nodes _ _ _ HP3), (mv_nt _ _ _ _ _ _ M3), (pr_nodes _ _ _ HP), N2. exact Nb. }
  assert (Gb : good_after wb wb3).
  { constructor; [apply HP3| | |congruence].
    - intros x ob Ho. pose proof (U2 x ob Ho) as Ho1. rewrite (mv_fr' _ _ _ _ _ _ M3); [exact Ho1|eapply get_obj_lt; exact Ho1|].
      intros y (j & Hj & -> & ->). apply get_obj_lt in Ho. unfold valid in Ho. lia.
    - rewrite (mv_tr' _ _ _ _ _ _ M3); exact T2. }
  assert (Ga : good_after wa wa3).
  { constructor; [apply HP3| | |rewrite (pr_nodes _ _ _ HP3); congruence].
    - intros x ob Ho. pose proof (U1 x ob Ho) as Ho1. rewrite (mv_fr _ _ _ _ _ _ M3); [exact Ho1|eapply get_obj_lt; exact Ho1|].
      intros y (j & Hj & -> & ->). apply get_obj_lt in Ho. unfold valid in Ho. lia.
    - rewrite (mv_tr _ _ _ _ _ _ M3); exact T1. }
  assert (Stop3 : forall e, both wa wb (wa3, Err e) (wb3, Err e) step_ok).
  { intros e. exists wa3, wb3, (Err e). do 4 (split; [auto|]). discriminate. }
  destruct res as [[c' ys]|e]; [|apply Stop3].
  assert (EP : module_partition wa3 (List.length (w_heap wa)) (o_filters o) = module_partition wb3 (List.length (w_heap wb)) (o_filters o)).
  { unfold module_partition. rewrite (bisim_get_state wa3 wb3 R2 _ (List.length (w_heap wb))); [|apply HP3..|exact Hr3].
    rewrite (bisim_module_def wa3 wb3 R2 _ (List.length (w_heap wb))); [reflexivity|apply HP3..|exact Hr3]. }
  rewrite EP. destruct (module_partition wb3 _ (o_filters o)) as [q|e] eqn:Eq; [|apply Stop3].
  destruct (split3 (sts_list (p_states q))) as [[[ao bo] co]|] eqn:E3; [|apply Stop3].
  assert (V : valid wb3 (List.length (w_heap wb))) by apply (bisim_valid _ _ _ _ _ (pr_bi _ _ _ HP3) Hr3).
  assert (Q : plain_list (ao ++ [bo; co])).
  { apply split3_inv in E3. unfold module_partition in Eq. destruct (get_module_def wb3 _); [|discriminate]. cbn [rbind] in Eq.
    destruct (get_state wb3 (List.length (w_heap wb))) as [s|] eqn:Es; [|discriminate]. cbn [rbind] in Eq. destruct (partition_state s (o_filters o)) as [x|] eqn:Ex; [|discriminate].
    cbn [rbind] in Eq. injection Eq as <-. cbn [p_states] in E3. destruct x as [s1|l].
    - cbn in E3. destruct ao as [|? [|? ?]]; discriminate.
    - cbn in E3. subst l. destruct (get_state_total wb3 _ (ga_wf _ _ Gb) V) as (s' & Es' & Ws). rewrite Es in Es'. injection Es' as <-.
      apply (partition_parts s _ _ Ws (state_plain _ _ _ (ga_wf _ _ Gb) Es) Ex). }
  apply plain_list_app in Q as [Qa Qc]. inversion Qc as [|? ? Qb Qd]; subst. inversion Qd as [|? ? Qe _]; subst.
  destruct (leave_axes o ao) as [ao'|e] eqn:El; [|apply Stop3].
  exists wa3, wb3. eexists. split; [reflexivity|]. split; [reflexivity|]. split; [exact Ga|]. split; [exact Gb|]. intros p [= <-]. unfold step_ok. cbn [fst snd].
  split; [now apply plain_sub|]. split; [exact (HK c' ys eq_refl)|]. split; [exact (leave_plain _ _ _ Qa El)|]. split; apply plain_sub; auto.
Qed.

Definition steps_ok (p : (state * pyval) * list (outcome Y)) : Prop := plain_st (fst (fst p)) /\ Forall out_fine (snd p).
Lemma steps_both b : plain_st b -> forall l wa wb carry, wf_world wa -> wf_world wb -> w_nodes wa = nt -> w_nodes wb = nt -> plain_st (fst carry) -> Forall in_fine l ->
  step_calls o fb F d b wb carry l ->
  both wa wb (scan_steps (scan_fn o fa d b) wa carry l) (scan_steps (scan_fn o fb d b) wb carry l) (fun p => steps_ok p /\ (l <> [] \/ K (snd carry) -> K (snd (fst p)))).
Proof.
  intros B. induction l as [|x l IH]; intros wa wb carry Ha Hb Na Nb C Hx Hc; cbn [scan_steps].
  - exists wa, wb, (Ok (carry, [])). do 2 (split; [reflexivity|]). do 2 (split; [now apply good_refl|]). intros p [= <-]. split; [split; [exact C|constructor]|].
    intros [H|H]; [now elim H|exact H].
  - pose proof (Forall_inv Hx) as X1. pose proof (Forall_inv_tail Hx) as X2. cbn [step_calls] in Hc. destruct Hc as [Hc1 Hc2].
    destruct (fn_both b wa wb carry x B Ha Hb Na Nb C X1 Hc1) as (wa1 & wb1 & res & E1 & E2 & Ga & Gb & HK). rewrite E1, E2.
    destruct res as [[c1 y]|e]; [|exists wa1, wb1, (Err e); do 4 (split; [auto|]); discriminate].
    destruct (HK _ eq_refl) as (K1 & K2 & K3). cbn [fst snd] in K1, K2, K3. specialize (Hc2 wb1 c1 y E2).
    destruct (same_struct (fst carry) (fst c1)); [|exists wa1, wb1, (Err TypeError); do 4 (split; [auto|]); discriminate]. specialize (Hc2 eq_refl).
    destruct (IH wa1 wb1 c1 (ga_wf _ _ Ga) (ga_wf _ _ Gb) (eq_trans (ga_nt _ _ Ga) Na) (eq_trans (ga_nt _ _ Gb) Nb) K1 X2 Hc2) as (wa2 & wb2 & res & G1 & G2 & Ga2 & Gb2 & HK2).
    rewrite G1, G2. destruct res as [[c2 ys]|e].
    + exists wa2, wb2. eexists. do 2 (split; [reflexivity|]). split; [eapply good_trans; eauto|]. split; [eapply good_trans; eauto|]. intros p [= <-].
      destruct (HK2 _ eq_refl) as [[A1 A2] A3]. cbn [fst snd] in *. split; [split; [exact A1|constructor; [exact K3|exact A2]]|]. intros _. apply A3. now right.
    + exists wa2, wb2, (Err e). do 2 (split; [reflexivity|]). split; [eapply good_trans; eauto|]. split; [eapply good_trans; eauto|]. discriminate.
Qed.

Lemma lax_both b t l wa wb carry : plain_st b -> wf_world wa -> wf_world wb -> w_nodes wa = nt -> w_nodes wb = nt -> plain_st (fst carry) -> Forall in_fine l ->
  step_calls o fb F d b (set_trace wb t) carry (in_order o l) ->
  both wa wb (lax_scan (o_reverse o) t (scan_fn o fa d b) wa carry l) (lax_scan (o_reverse o) t (scan_fn o fb d b) wb carry l)
    (fun p => steps_ok p /\ (l <> [] \/ K (snd carry) -> K (snd (fst p)))).
Proof.
  intros B Ha Hb Na Nb C Hx Hc. unfold lax_scan. unfold in_order in Hc.
  assert (X' : Forall in_fine (if o_reverse o then rev l else l)) by (destruct (o_reverse o); [now apply Forall_rev|exact Hx]).
  destruct (steps_both b B _ (set_trace wa t) (set_trace wb t) carry (set_trace_wf _ _ Ha) (set_trace_wf _ _ Hb) Na Nb C X' Hc) as (wa2 & wb2 & res & E1 & E2 & Ga & Gb & HK).
  rewrite E1, E2. apply good_trace in Ga, Gb. destruct res as [[c1 ys]|e].
  - exists (set_trace wa2 (w_trace wa)), (set_trace wb2 (w_trace wb)). eexists. do 2 (split; [reflexivity|]). do 2 (split; [assumption|]). intros p [= <-]. destruct (HK _ eq_refl) as [[A1 A2] A3].
    cbn [fst snd] in *. split; [split; [exact A1|]; cbn [snd]; destruct (o_reverse o); [now apply Forall_rev|exact A2]|].
    intros [H|H]; [|auto]. apply A3. left. destruct (o_reverse o); [|exact H]. intros E. apply H. apply (f_equal (@rev _)) in E. now rewrite rev_involutive in E.
  - exists (set_trace wa2 (w_trace wa)), (set_trace wb2 (w_trace wb)), (Err e). do 4 (split; [auto|]). discriminate.
Qed.

Lemma run_both t b wa wb cs c l : plain_st b -> wf_world wa -> wf_world wb -> w_nodes wa = nt -> w_nodes wb = nt -> plain_st cs -> Forall in_fine l ->
  run_calls o t fb F d b wb cs c l ->
  both wa wb (scan_run o t fa d b wa cs c l) (scan_run o t fb d b wb cs c l)
    (fun p => plain_st (fst (fst (fst p))) /\ K (snd (fst (fst p))) /\ Forall out_fine (snd (fst p)) /\ Forall out_fine (snd p)).
Proof.
  intros B Ha Hb Na Nb C Hx Hc. unfold scan_run, run_calls in *.
  destruct l as [|x rest]; [exists wa, wb, (Err OutOfModel); do 2 (split; [reflexivity|]); do 2 (split; [now apply good_refl|]); discriminate|].
  pose proof (Forall_inv Hx) as X1. pose proof (Forall_inv_tail Hx) as X2. destruct Hc as [Hc1 Hc2].
  destruct (fn_both b (set_trace wa t) (set_trace wb t) (cs, c) x B (set_trace_wf _ _ Ha) (set_trace_wf _ _ Hb) Na Nb C X1 Hc1) as (wa1 & wb1 & res & E1 & E2 & Ga & Gb & HK).
  rewrite E1, E2 in *. apply good_trace in Ga, Gb.
  destruct res as [[c1 y]|e]; [|exists (set_trace wa1 (w_trace wa)), (set_trace wb1 (w_trace wb)), (Err e); do 4 (split; [auto|]); discriminate].
  specialize (Hc2 wb1 c1 y eq_refl). cbn zeta in *. set (va := set_trace wa1 (w_trace wa)) in *. set (vb := set_trace wb1 (w_trace wb)) in *.
  assert (Nva : w_nodes va = nt) by (rewrite (ga_nt _ _ Ga); exact Na). assert (Nvb : w_nodes vb = nt) by (rewrite (ga_nt _ _ Gb); exact Nb).
  destruct (out_cs_new y) as [|z zs].
  - destruct (lax_both b t (x :: rest) va vb (cs, c) B (ga_wf _ _ Ga) (ga_wf _ _ Gb) Nva Nvb C Hx Hc2) as (wa2 & wb2 & res & F1 & F2 & Ga2 & Gb2 & HK2).
    rewrite F1, F2. destruct res as [[c2 ys]|e]; exists wa2, wb2; eexists; do 2 (split; [reflexivity|]); (split; [eapply good_trans; eauto|]); (split; [eapply good_trans; eauto|]); [|discriminate].
    intros p [= <-]. destruct (HK2 _ eq_refl) as [[A1 A2] A3]. cbn [fst snd] in *. split; [exact A1|]. split; [|auto]. apply A3. left. discriminate.
  - destruct Hc2 as [Hc2 Hc3].
    assert (Hc4 : step_calls o fb F d b (set_trace vb t) (cs, c) (in_order o [x])).
    { unfold in_order. replace (if o_reverse o then rev [x] else [x]) with [x] by (destruct (o_reverse o); reflexivity). cbn [step_calls]. split; [exact Hc2|]. auto. }
    destruct (lax_both b t [x] va vb (cs, c) B (ga_wf _ _ Ga) (ga_wf _ _ Gb) Nva Nvb C (Forall_cons _ X1 (Forall_nil _)) Hc4) as (wa2 & wb2 & res & F1 & F2 & Ga2 & Gb2 & HK2).
    rewrite F1, F2. pose proof (good_trans _ _ _ Ga Ga2) as Ga3. pose proof (good_trans _ _ _ Gb Gb2) as Gb3.
    destruct res as [[[cs1 c2] ys1]|e]; [|exists wa2, wb2; eexists; do 2 (split; [reflexivity|]); do 2 (split; [assumption|]); discriminate].
    destruct (HK2 _ eq_refl) as [[A1 A2] A3]. cbn [fst snd] in *. assert (A4 : K c2) by (apply A3; left; discriminate).
    (* the first step alone *)
    unfold lax_scan in F2. replace (if o_reverse o then rev [x] else [x]) with [x] in F2 by (destruct (o_reverse o); reflexivity). cbn [scan_steps] in F2.
    destruct (scan_fn o fb d b (set_trace vb t) (cs, c) x) as [wb3 [[[cs3 c3] y3]|e]] eqn:E3; cbn [fst] in F2; [|discriminate].
    destruct (same_struct cs cs3) eqn:E4; [|discriminate].
    assert (F3 : wb2 = set_trace wb3 (w_trace vb) /\ cs3 = cs1 /\ c3 = c2 /\ ys1 = [y3]) by (destruct (o_reverse o); cbn in F2; injection F2 as <- <- <- <-; auto).
    destruct F3 as (-> & -> & -> & ->). specialize (Hc3 wb3 cs1 c2 y3 eq_refl E4).
    destruct (Forall_inv A2) as (_ & Y2 & Y3).
    destruct (lax_both (state_merge b [out_b_new y3]) t rest wa2 (set_trace wb3 (w_trace vb)) (state_merge cs1 [out_cs_new y3], c2)) as (wa4 & wb4 & res & G1 & G2 & Ga4 & Gb4 & HK4).
    { apply merge_pl; [exact B|]. constructor; [exact Y2|constructor]. } { apply Ga3. } { apply Gb3. } { rewrite (ga_nt _ _ Ga3). exact Na. } { rewrite (ga_nt _ _ Gb3). exact Nb. }
    { apply merge_pl; [exact A1|]. constructor; [exact Y3|constructor]. } { exact X2. } { exact Hc3. }
    rewrite G1, G2. pose proof (good_trans _ _ _ Ga3 Ga4) as Ga5. pose proof (good_trans _ _ _ Gb3 Gb4) as Gb5.
    destruct res as [[c4 ys]|e]; exists wa4, wb4; eexists; do 2 (split; [reflexivity|]); do 2 (split; [assumption|]); [|discriminate].
    intros p [= <-]. destruct (HK4 _ eq_refl) as [[B1 B2] B3]. cbn [fst snd] in *. split; [exact B1|]. split; [auto|]. split; [constructor; [exact (Forall_inv A2)|exact B2]|exact B2].
Qed.
End Pair.

(** the whole of [scan], on a module and on one that looks like it *)
Section Apply.
Context (J : arrays) (o : scan_opts) (fa fb : scanned) (F : option pctx -> pyval -> list pyval -> world -> nat -> Prop) (K : pyval -> Prop) (nt : list string).
Hypothesis HJ : arrays_ok J.
Hypothesis Hbody : forall pc c xs v vd R m md, pair v vd R -> R m md -> w_nodes vd = nt -> F pc c xs vd md ->
  exists v2 vd2 res R2, fa pc c xs v m = (v2, res) /\ fb pc c xs vd md = (vd2, res) /\ moves v vd R v2 vd2 R2 /\
    forall c' ys, res = Ok (c', ys) -> K c'.
Variables (w wd : world) (R : nat -> nat -> Prop) (r rd : nat).
Hypothesis P : pair w wd R.
Hypothesis Hr : R r rd.
Hypothesis Hn : w_nodes wd = nt.

Lemma after_moves wa wb : good_after w wa -> good_after wd wb -> List.length (w_heap w) <= List.length (w_heap wa) -> List.length (w_heap wd) <= List.length (w_heap wb) -> moves w wd R wa wb R.
Proof.
  intros [A1 A2 A3 A4] [B1 B2 B3 B4] La Lb. destruct P as [Bi Wf Wf' N Li Li'].
  assert (Ga : forall x, x < List.length (w_heap w) -> get_obj wa x = get_obj w x). { intros x Hx. destruct (get_obj_ex _ _ Hx) as [ob Ho]. now rewrite (A2 _ _ Ho). }
  assert (Gb : forall x, x < List.length (w_heap wd) -> get_obj wb x = get_obj wd x). { intros x Hx. destruct (get_obj_ex _ _ Hx) as [ob Ho]. now rewrite (B2 _ _ Ho). }
  constructor; auto.
  constructor; auto; try congruence.
  - destruct Bi as [C1 C2 C3]. constructor; auto. intros x y H. destruct (C1 x y H) as (o1 & o2 & D1 & D2 & D3). exists o1, o2. auto.
  - intros x y ob H Ho. destruct (bi_obj _ _ _ Bi x y H) as (o1 & o2 & D1 & D2 & D3). rewrite (A2 _ _ D1) in Ho. rewrite A3. apply (Li x y); congruence.
  - intros x y ob H Ho. destruct (bi_obj _ _ _ Bi x y H) as (o1 & o2 & D1 & D2 & D3). rewrite (B2 _ _ D2) in Ho. rewrite B3. apply (Li' x y); congruence.
Qed.
Lemma good_len v v' : good_after v v' -> List.length (w_heap v) <= List.length (w_heap v').
Proof.
  intros G. destruct (Nat.le_gt_cases (List.length (w_heap v)) (List.length (w_heap v'))) as [H|H]; [exact H|].
  destruct (get_obj_ex _ _ H) as [ob Ho]. apply (ga_un _ _ G) in Ho. apply get_obj_lt in Ho. unfold valid in Ho. lia.
Qed.

Theorem apply_both t c xs ctx ctxd ss : scan_ctx (w_trace w) (o_split o) ctx ss = scan_ctx (w_trace wd) (o_split o) ctxd ss ->
  scan_calls J o t fb F wd rd c xs ctxd ss ->
  exists w2 wd2 res ss2, scan_apply J o t fa w r c xs ctx ss = (w2, ss2, res) /\ scan_apply J o t fb wd rd c xs ctxd ss = (wd2, ss2, res) /\
    moves w wd R w2 wd2 R /\ forall c' ys, res = Ok (c', ys) -> K c' /\ Forall not_module ys.
Proof.
  intros EC Hc. pose proof (pr_bi _ _ _ P) as HB.
  destruct (bisim_valid _ _ _ _ _ HB Hr) as [V V'].
  destruct (graph_exists wd rd (pr_wf' _ _ _ P) V') as (d & L & Hg). pose proof (get_module_def_graph _ _ _ _ (pr_wf' _ _ _ P) V' Hg) as Hd.
  destruct (get_state_total wd rd (pr_wf' _ _ _ P) V') as (s & Hs & Ws).
  assert (EP : module_partition w r (o_filters o) = module_partition wd rd (o_filters o)).
  { unfold module_partition. rewrite (bisim_get_state w wd R r rd); [|apply P..|exact Hr]. rewrite (bisim_module_def w wd R r rd); [reflexivity|apply P..|exact Hr]. }
  unfold scan_apply, scan_core. rewrite EP.
  assert (Stop : forall (z : list stream) e, exists w2 wd2 res ss2, (w, z, @Err (pyval * list pyval) e) = (w2, ss2, res) /\ (wd, z, @Err (pyval * list pyval) e) = (wd2, ss2, res) /\
    moves w wd R w2 wd2 R /\ forall c' ys, res = Ok (c', ys) -> K c' /\ Forall not_module ys).
  { intros z e. exists w, wd, (Err e), z. do 2 (split; [reflexivity|]). split; [now apply moves_refl|discriminate]. }
  destruct (module_partition wd rd (o_filters o)) as [q|e] eqn:Eq; [|apply Stop].
  destruct (split3 (sts_list (p_states q))) as [[[axs b] cs]|] eqn:E3; [|apply Stop]. apply split3_inv in E3.
  assert (Qq : p_def q = d /\ plain_list (axs ++ [b; cs])).
  { unfold module_partition in Eq. rewrite Hd, Hs in Eq. cbn [rbind] in Eq. destruct (partition_state s (o_filters o)) as [x|e] eqn:Ep; cbn [rbind] in Eq; [|discriminate]. injection Eq as <-.
    cbn [p_def p_states] in *. split; [reflexivity|]. destruct x as [s1|l]; cbn in E3; [destruct axs as [|? [|? ?]]; discriminate|]. subst l. apply (partition_parts s _ _ Ws (state_plain _ _ _ (pr_wf' _ _ _ P) Hs) Ep). }
  destruct Qq as [Qd Qp]. apply plain_list_app in Qp as [Qa Qc]. inversion Qc as [|? ? Qb Qdd]; subst. inversion Qdd as [|? ? Qe _]; subst.
  destruct (slice_states J (o_axes o) axs) as [sl|e] eqn:Es; cbn [rbind]; [|apply Stop].
  destruct (cut_leaves J (o_in o) xs) as [[lens at_step]|e] eqn:Ex; cbn [rbind fst snd]; [|apply Stop].
  destruct (infer_length (o_length o) (leaf_lengths sl lens)) as [n|e] eqn:En; cbn [rbind]; [|apply Stop].
  rewrite EC. destruct (scan_ctx (w_trace wd) (o_split o) ctxd ss) as [[pc|e] ss2] eqn:Ec; [|apply Stop].
  specialize (Hc q axs b cs sl lens at_step n pc ss2 Eq E3 Es Ex En Ec).
  assert (Hx : Forall in_fine (scan_input n pc sl at_step)).
  { apply Forall_forall. intros y Hi. unfold scan_input in Hi. apply in_map_iff in Hi as (i & <- & _). unfold in_fine. cbn [fst snd]. exact (slice_states_pl J HJ _ _ _ Qa Es i). }
  destruct (run_both o fa fb F K (w_nodes wd) Hbody wd rd (p_def q) L (pr_wf' _ _ _ P) V' Hg t b w wd cs c _ Qb (pr_wf _ _ _ P) (pr_wf' _ _ _ P) (pr_nodes _ _ _ P) eq_refl Qe Hx Hc)
    as (wa & wb & res & E1 & E2 & Ga & Gb & HK).
  rewrite E1, E2. pose proof (after_moves wa wb Ga Gb (good_len _ _ Ga) (good_len _ _ Gb)) as M.
  assert (Stop1 : forall e, exists w2 wd2 res ss3, (wa, ss2, @Err (pyval * list pyval) e) = (w2, ss3, res) /\ (wb, ss2, @Err (pyval * list pyval) e) = (wd2, ss3, res) /\
    moves w wd R w2 wd2 R /\ forall c' ys, res = Ok (c', ys) -> K c' /\ Forall not_module ys).
  { intros e. exists wa, wb, (Err e), ss2. do 2 (split; [reflexivity|]). split; [exact M|discriminate]. }
  destruct res as [[[[cs' c'] outs] last]|e]; [|apply Stop1]. destruct (HK _ eq_refl) as (K1 & K2 & K3 & K4). cbn [fst snd] in *.
  destruct (stack_axes J (o_axes o) 0 (map out_axs outs)) as [axs'|e] eqn:F1; cbn [rbind]; [|apply Stop1].
  destruct (stack_or_empty J (map out_b_new last)) as [bn|e] eqn:F2; cbn [rbind]; [|apply Stop1].
  destruct (stack_or_empty J (map out_cs_new last)) as [cn|e] eqn:F3; cbn [rbind]; [|apply Stop1].
  destruct (stack_leaves J (o_out o) (map out_ys outs)) as [ys|e] eqn:F4; cbn [rbind]; [|apply Stop1].
  destruct (pair_update wa wb R r rd (Many (axs' ++ [cs'; bn; cn]))) as (wa2 & wb2 & res & G1 & G2 & M2); auto.
  { cbn. apply plain_list_app. split; [eapply stack_axes_pl; [exact HJ| |exact F1]; apply Forall_forall; intros y Hy; apply in_map_iff in Hy as (z & <- & Hz); rewrite Forall_forall in K3; apply (K3 z Hz)|].
    constructor; [exact K1|]. constructor; [eapply stack_or_empty_pl; [exact HJ| |exact F2]|constructor; [eapply stack_or_empty_pl; [exact HJ| |exact F3]|constructor]];
      apply Forall_forall; intros y Hy; apply in_map_iff in Hy as (z & <- & Hz); rewrite Forall_forall in K4; apply (K4 z Hz). }
  { apply M. }
  rewrite G1, G2. pose proof (moves_trans _ _ _ _ _ _ _ _ _ M M2) as M3.
  destruct res as [u|e]; exists wa2, wb2; eexists; exists ss2; (do 2 (split; [reflexivity|])); (split; [exact M3|]); [|discriminate].
  intros c0 ys0 [= <- <-]. split; [exact K2|]. unfold stack_leaves in F4. destruct (map out_ys outs) as [|y0 rest]; [discriminate|]. destruct (forallb _ rest); [|discriminate]. injection F4 as <-.
  apply Forall_forall. intros v Hv. apply in_map_iff in Hv as (i & <- & _). apply HJ.
Qed.
End Apply.

(** what holds of every call may be weakened *)
Lemma step_calls_impl {X Y} o (f : scanned_of X Y) (F G : option pctx -> pyval -> X -> world -> nat -> Prop) d : (forall pc c xs v m, F pc c xs v m -> G pc c xs v m) ->
  forall b l w carry, step_calls o f F d b w carry l -> step_calls o f G d b w carry l.
Proof.
  intros H b. induction l as [|x l IH]; intros w carry Hc; [exact Logic.I|]. destruct Hc as [H1 H2]. split; [intros axs m w1 E1 E2; apply H; eauto|].
  intros w1 carry1 y E1 E2. eapply IH; eauto.
Qed.
Lemma scan_calls_impl J o t f (F G : option pctx -> pyval -> list pyval -> world -> nat -> Prop) w r c xs ctx ss : (forall pc c xs v m, F pc c xs v m -> G pc c xs v m) ->
  scan_calls J o t f F w r c xs ctx ss -> scan_calls J o t f G w r c xs ctx ss.
Proof.
  intros H Hc q axs b cs sl lens at_step n pc ss2 E1 E2 E3 E4 E5 E6. specialize (Hc q axs b cs sl lens at_step n pc ss2 E1 E2 E3 E4 E5 E6).
  unfold run_calls in *. destruct (scan_input n pc sl at_step) as [|x rest]; [exact Logic.I|]. destruct Hc as [H1 H2].
  split; [intros a m w1 K1 K2; apply H; eauto|]. intros w1 carry1 y K. specialize (H2 w1 carry1 y K). cbn zeta in *.
  destruct (out_cs_new y) as [|z zs]; [eapply step_calls_impl; eauto|]. destruct H2 as [H2 H3].
  split; [intros a m w2 K1 K2; apply H; eauto|]. intros w2 cs1 c1 y1 K1 K2. eapply step_calls_impl; eauto.
Qed.
