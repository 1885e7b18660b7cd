(** Proofs: scan changes the module in its last step only; exceptions of the function. *)
From Coq Require Import Permutation ZArith Lia.
From Verif Require Import PyBase PyBaseFacts ValuesM Spec_Eq ValuesFacts FiltersM StateM Spec_State State_proofs ModuleM Spec_Module Spec_History Spec_Prog
  Graph_facts Dfs_proofs Build_proofs Bisim_proofs Skel_proofs RoundTrip_proofs Clone_proofs Update_proofs Write_proofs History_proofs
  Laws_proofs Grow_proofs Prog_proofs SpmdM Spmd_proofs ContextM TransformM Transform_proofs ScanM Spec_Scan Scan_proofs.
Local Open Scope string_scope.
Local Open Scope nat_scope.
Local Open Scope list_scope.

(** the outcome of a call on a merged module does not depend on the world *)
Lemma call_both {A} (f : prog A) w r d L wa wb states ma wa1 wa2 res : ok_prog f ->
  wf_world w -> valid w r -> graph w r d L -> wf_world wa -> wf_world wb -> w_nodes wa = w_nodes wb -> plain_list states ->
  merge wa d states = Ok (ma, wa1) -> user_fun f wa1 ma = (wa2, res) ->
  exists m w1 w2, merge wb d states = Ok (m, w1) /\ user_fun f w1 m = (w2, res) /\ good_after wb w2 /\ valid w2 m.
Proof.
  intros Hf Hw Hr Hg Ha Hb Hn Hpl Hm Hc.
  destruct (build_pair w r d L wa wb Hw Hr Hg Ha Hb Hn) as (wa1' & wb1 & B1 & B2 & HP & Hroot & T1 & T2 & N2 & U1 & U2 & L1 & L2).
  set (R := shift (List.length L) (List.length (w_heap wa)) (List.length (w_heap wb))) in *.
  unfold merge in *. rewrite B1 in Hm. rewrite B2. cbn [rbind] in *. unfold update_module in *.
  destruct (pair_loop R (fold_left (fun acc s => dupdate acc s) ([] :: states) [])) with (w := wa1') (w' := wb1)
    (x := List.length (w_heap wa)) (y := List.length (w_heap wb)) as (wa3 & wb2 & res1 & E1 & E2 & M); auto.
  { apply plain_merge; constructor; [constructor|exact Hpl]. }
  cbn [fold_left] in *. rewrite E1 in Hm. rewrite E2. destruct res1 as [[]|e]; [|discriminate]. injection Hm as <- <-.
  destruct (run_pair f Hf wa3 wb2 R [List.length (w_heap wa)] [List.length (w_heap wb)]) as (wa4 & wb3 & res2 & R2 & F1 & F2 & M2).
  { apply M. } { constructor; [exact Hroot|constructor]. }
  unfold user_fun in *. rewrite F1 in Hc. injection Hc as -> ->.
  pose proof (moves_trans _ _ _ _ _ _ _ _ _ M M2) as M3. pose proof (mv_pair _ _ _ _ _ _ M2) as HP3.
  assert (Hr3 : R2 (List.length (w_heap wa)) (List.length (w_heap wb))) by (apply (mv_incl _ _ _ _ _ _ M2); exact Hroot).
  exists (List.length (w_heap wb)), wb2, wb3. split; [reflexivity|]. split; [exact F2|].
  split; [|apply (bisim_valid _ _ _ _ _ (pr_bi _ _ _ HP3) Hr3)]. constructor; [apply HP3| | |].
  - intros x o Ho. pose proof (U2 x o Ho) as Ho1. rewrite (mv_fr' _ _ _ _ _ _ M3); [exact Ho1|eapply get_obj_lt; exact Ho1|].
    intros y (j & Hj & -> & ->). apply get_obj_lt in Ho. unfold valid in Ho. lia.
  - rewrite (mv_tr' _ _ _ _ _ _ M3); exact T2.
  - rewrite <- (pr_nodes _ _ _ HP3), (mv_nt _ _ _ _ _ _ M3), (pr_nodes _ _ _ HP). exact N2.
Qed.

Definition in_fine {X} (x : step_of X) : Prop := plain_list (snd (fst x)).
Definition out_fine {Y} (y : outcome Y) : Prop := plain_list (out_axs y) /\ plain_st (out_b_new y) /\ plain_st (out_cs_new y).

Section Quiet.
Context {X Y Z : Type} (o : scan_opts) (f : option pctx -> pyval -> X -> prog (pyval * Y)).
Context (Hf : forall pc c xs, ok_prog (f pc c xs)).
Context (w : world) (r : nat) (d : mdef) (L : list nat).
Context (Hw : wf_world w) (Hr : valid w r) (Hg : graph w r d L).

Definition quiet_step (st : world -> state * pyval -> step_of X -> world * result ((state * pyval) * outcome Y)) : Prop :=
  forall wb carry x, wf_world wb -> plain_st (fst carry) -> plain_list (snd (fst x)) ->
  good_after wb (fst (st wb carry x)) /\ forall c y, snd (st wb carry x) = Ok (c, y) -> plain_st (fst c) /\ out_fine y.

Lemma split3_inv l a (b c : state) : split3 l = Some (a, b, c) -> l = a ++ [b; c].
Proof.
  unfold split3. destruct (rev l) as [|x [|y t]] eqn:E; try discriminate. intros [= <- <- <-].
  apply (f_equal (@rev state)) in E. rewrite rev_involutive in E. subst l. cbn. now rewrite <- app_assoc.
Qed.
Lemma fn_quiet b : plain_st b -> quiet_step (scan_fn o (uf f) d b).
Proof.
  intros B wb [cs c] [[pc axs] args] Hwb C Hx. cbn [fst snd] in C, Hx. pose proof (good_refl wb Hwb) as R. unfold scan_fn.
  destruct (enter_axes o axs) as [axs1|e] eqn:Ee; cbn [fst snd]; [|split; [exact R|discriminate]].
  assert (P1 : plain_list (axs1 ++ [b; cs])). { apply plain_list_app. split; [eapply enter_plain; eauto|]. repeat constructor; auto. }
  destruct (merge wb d (axs1 ++ [b; cs])) as [[m w1]|e] eqn:Em; cbn [fst snd]; [|split; [exact R|discriminate]].
  destruct (uf f pc c args w1 m) as [w2 res] eqn:Eu.
  destruct (call_both (f pc c args) w r d L wb wb _ m w1 w2 res (Hf _ _ _) Hw Hr Hg Hwb Hwb eq_refl P1 Em Eu) as (m' & w1' & w2' & Em' & Eu' & G & V).
  rewrite Em in Em'. injection Em' as <- <-. unfold uf in Eu. rewrite Eu in Eu'. injection Eu' as <-.
  destruct res as [[c' ys]|e]; cbn [fst snd]; [|split; [exact G|discriminate]].
  destruct (module_partition w2 m (o_filters o)) as [q|e] eqn:Eq; cbn [fst snd]; [|split; [exact G|discriminate]].
  destruct (split3 (sts_list (p_states q))) as [[[ao bo] co]|] eqn:E3; cbn [fst snd]; [|split; [exact G|discriminate]].
  assert (Q : plain_list (ao ++ [bo; co])).
  { apply split3_inv in E3. unfold module_partition in Eq. destruct (get_module_def w2 m); [|discriminate]. cbn [rbind] in Eq.
    destruct (get_state w2 m) as [s|] eqn:Es; [|discriminate]. cbn [rbind] in Eq. destruct (partition_state s (o_filters o)) as [x|] eqn:Ex; [|discriminate].
    cbn [rbind] in Eq. injection Eq as <-. cbn [p_states] in E3. destruct x as [s1|l].
    - cbn in E3. destruct ao as [|? [|? ?]]; discriminate.
    - cbn in E3. subst l. destruct (get_state_total w2 m (ga_wf _ _ G) V) as (s' & Es' & Ws). rewrite Es in Es'. injection Es' as <-.
      apply (partition_parts s _ _ Ws (state_plain _ _ _ (ga_wf _ _ G) Es) Ex). }
  apply plain_list_app in Q as [Qa Qc]. inversion Qc as [|? ? Qb Qd]; subst. inversion Qd as [|? ? Qe _]; subst.
  destruct (leave_axes o ao) as [ao'|e] eqn:El; cbn [fst snd]; [|split; [exact G|discriminate]]. split; [exact G|]. intros c1 y [= <- <-]. cbn [fst].
  split; [now apply plain_sub|]. split; [exact (leave_plain _ _ _ Qa El)|]. split; apply plain_sub; auto.
Qed.
Lemma steps_quiet st : quiet_step st -> forall l wb carry, wf_world wb -> plain_st (fst carry) -> Forall in_fine l ->
  good_after wb (fst (scan_steps st wb carry l)) /\ forall c ys, snd (scan_steps st wb carry l) = Ok (c, ys) -> plain_st (fst c) /\ Forall out_fine ys.
Proof.
  intros H. induction l as [|x l IH]; intros wb carry Hwb C Hx; cbn [scan_steps fst snd]; [split; [now apply good_refl|intros c ys [= <- <-]; auto]|].
  inversion Hx as [|? ? X1 X2]; subst. destruct (H wb carry x Hwb C X1) as [S1 K]. destruct (st wb carry x) as [w1 [[c1 y]|e]]; cbn [fst snd] in *; [|split; [exact S1|discriminate]].
  destruct (K c1 y eq_refl) as [K1 K2]. destruct (same_struct (fst carry) (fst c1)); cbn [fst snd]; [|split; [exact S1|discriminate]].
  destruct (IH w1 c1 (ga_wf _ _ S1) K1 X2) as [S2 M]. destruct (scan_steps st w1 c1 l) as [w2 [[c2 ys]|e]]; cbn [fst snd] in *; (split; [eapply good_trans; eauto|]); [|discriminate].
  intros c ys' [= <- <-]. destruct (M c2 ys eq_refl). auto.
Qed.
Lemma lax_quiet rv t st (l : list (step_of X)) wb carry : quiet_step st -> wf_world wb -> plain_st (fst carry) -> Forall in_fine l ->
  good_after wb (fst (lax_scan rv t st wb carry l)) /\ forall c ys, snd (lax_scan rv t st wb carry l) = Ok (c, ys) -> plain_st (fst c) /\ Forall out_fine ys.
Proof.
  intros H Hwb C Hx. unfold lax_scan. assert (X' : Forall in_fine (if rv then rev l else l)) by (destruct rv; [now apply Forall_rev|exact Hx]).
  destruct (steps_quiet st H (if rv then rev l else l) (set_trace wb t) carry (set_trace_wf _ _ Hwb) C X') as [S1 K].
  destruct (scan_steps st (set_trace wb t) carry (if rv then rev l else l)) as [w1 [[c1 ys]|e]]; cbn [fst snd] in *; (split; [now apply (good_trace wb w1 t)|]); [|discriminate].
  intros c ys' [= <- <-]. destruct (K c1 ys eq_refl) as [K1 K2]. split; [exact K1|]. destruct rv; [now apply Forall_rev|exact K2].
Qed.
Lemma merge_pl a l : plain_st a -> plain_list l -> plain_st (state_merge a l).
Proof.
  intros H1 H2. destruct l as [|x l]; [exact H1|]. unfold state_merge.
  assert (P : Forall (fun ka => plain_attr (snd ka)) (fold_left (fun acc s => dupdate acc s) (a :: x :: l) [])) by (apply plain_merge; [constructor; auto|constructor]).
  apply Forall_forall. intros [k b] Hi. eapply mk_state_plain; [|exact Hi]. intros k0 b0 H0. rewrite Forall_forall in P. apply (P (k0, b0) H0).
Qed.
Lemma run_quiet t b wb cs c (l : list (step_of X)) : plain_st b -> wf_world wb -> plain_st cs -> Forall in_fine l ->
  good_after wb (fst (scan_run o t (uf f) d b wb cs c l)) /\
  forall c' outs last, snd (scan_run o t (uf f) d b wb cs c l) = Ok (c', outs, last) -> plain_st (fst c') /\ Forall out_fine outs /\ Forall out_fine last.
Proof.
  intros B Hwb C Hx. unfold scan_run. destruct l as [|x rest]; [split; [now apply good_refl|discriminate]|]. inversion Hx as [|? ? X1 X2]; subst.
  pose proof (fn_quiet b B) as H0. destruct (H0 (set_trace wb t) (cs, c) x (set_trace_wf _ _ Hwb) C X1) as [S1 K].
  destruct (scan_fn o (uf f) d b (set_trace wb t) (cs, c) x) as [w1 [[c1 y]|e]]; cbn [fst snd] in *; pose proof (good_trace _ _ _ S1) as S2; [|split; [exact S2|discriminate]].
  destruct (out_cs_new y) as [|z zs].
  - destruct (lax_quiet (o_reverse o) t _ (x :: rest) (set_trace w1 (w_trace wb)) (cs, c) H0 (ga_wf _ _ S2) C Hx) as [S3 K3].
    destruct (lax_scan _ _ _ _ _ _) as [w2 [[c2 ys]|e]]; cbn [fst snd] in *; (split; [eapply good_trans; eauto|]); [|discriminate]. intros c' outs last [= <- <- <-]. destruct (K3 c2 ys eq_refl). auto.
  - destruct (lax_quiet (o_reverse o) t _ [x] (set_trace w1 (w_trace wb)) (cs, c) H0 (ga_wf _ _ S2) C (Forall_cons _ X1 (Forall_nil _))) as [S3 K3].
    destruct (lax_scan _ _ _ _ _ [x]) as [w2 [[[cs1 c2] ys1]|e]]; cbn [fst snd] in *; pose proof (good_trans _ _ _ S2 S3) as S4; [|split; [exact S4|discriminate]].
    destruct (K3 _ _ eq_refl) as [L1 L2]. cbn [fst] in L1. set (bn := match ys1 with y1 :: _ => out_b_new y1 | [] => [] end). set (cn := match ys1 with y1 :: _ => out_cs_new y1 | [] => [] end).
    assert (N : plain_st bn /\ plain_st cn). { unfold bn, cn. destruct L2 as [|y1 l2 (_ & Y2 & Y3) _]; [split; constructor|auto]. }
    destruct N as [N1 N2].
    destruct (lax_quiet (o_reverse o) t _ rest w2 (state_merge cs1 [cn], c2) (fn_quiet (state_merge b [bn]) (merge_pl _ _ B (Forall_cons _ N1 (Forall_nil _)))) (ga_wf _ _ S4) (merge_pl _ _ L1 (Forall_cons _ N2 (Forall_nil _))) X2) as [S5 K5].
    destruct (lax_scan _ _ _ _ _ rest) as [w3 [[c3 ys]|e]]; cbn [fst snd] in *; (split; [eapply good_trans; eauto|]); [|discriminate]. intros c' outs last [= <- <- <-]. destruct (K5 c3 ys eq_refl). split; [auto|]. split; [apply Forall_app; auto|auto].
Qed.
(** a step that raises *)
Definition raises (d : mdef) (states : list state) (g : prog (pyval * Y)) (e : exn) : Prop :=
  exists m w1 w2, merge w d states = Ok (m, w1) /\ user_fun g w1 m = (w2, Err e).
Lemma fn_raises b cs c ctx raw axs xs e wb : wf_world wb -> w_nodes wb = w_nodes w -> plain_list (axs ++ [b; cs]) -> enter_axes o raw = Ok axs ->
  raises d (axs ++ [b; cs]) (f ctx c xs) e -> exists w2, scan_fn o (uf f) d b wb (cs, c) (ctx, raw, xs) = (w2, Err e) /\ good_after wb w2.
Proof.
  intros Hwb Hn Hp He (m & w1 & w2 & M & U).
  destruct (call_both (f ctx c xs) w r d L w wb _ m w1 w2 _ (Hf _ _ _) Hw Hr Hg Hw Hwb (eq_sym Hn) Hp M U) as (m' & w1' & w2' & M' & U' & G & V).
  exists w2'. split; [|exact G]. unfold scan_fn. rewrite He, M'. unfold uf. now rewrite U'.
Qed.
Lemma steps_raise b cs c pre outs css c1 : loop w d (o_filters o) f b cs c pre outs css c1 ->
  forall raws x rest fins wb ctx axs xs e, Forall2 (entered o) raws pre -> Forall (fun l => plain_list (snd (fst l))) pre -> Forall2 (left o) outs fins ->
  (forall y, In y css -> alike cs y) -> plain_list [b; cs] -> wf_world wb -> w_nodes wb = w_nodes w ->
  entered o x (ctx, axs, xs) -> plain_list axs -> raises d (axs ++ [b; last css cs]) (f ctx c1 xs) e ->
  exists w2, scan_steps (scan_fn o (uf f) d b) wb (cs, c) (raws ++ x :: rest) = (w2, Err e) /\ good_after wb w2.
Proof.
  induction 1 as [cs c|cs c ctx axs xs c1 ys s axs1 cs1 pre outs css c2 Hc Hpart Hl IH]; intros raws x rest fins wb ctx0 axs0 xs0 e Hent Hpl Hleft Hal Hbc Hwb Hn Hx Hpx Hra.
  - inversion Hent; subst. cbn [app scan_steps]. destruct x as [[cx rx] ax]. destruct Hx as (E1 & E2 & E3). cbn in E1, E2, E3. subst cx ax. cbn [last] in Hra.
    destruct (fn_raises b cs c ctx0 rx axs0 xs0 e wb) as (w2 & S1 & G); auto. { apply plain_list_app. auto. }
    rewrite S1. exists w2. auto.
  - inversion Hent as [|[[ctx' raw] xs'] ? raws' ? (E1 & E2 & E3) Hent']; subst. inversion Hleft as [|? fin ? fins' Hfin Hleft']; subst.
    inversion Hpl as [|? ? P1 P2]; subst. cbn in E1, E2, E3, P1. subst ctx' xs'. unfold left in Hfin. cbn [fst] in Hfin.
    destruct (scan_step o f Hf w r d L Hw Hr Hg b cs c ctx raw axs xs c1 ys s axs1 b cs1 fin wb) as (w1 & S1 & G1 & Ws & Ps); auto.
    { apply plain_list_app. auto. }
    assert (A1 : alike cs cs1) by (apply Hal; now left).
    assert (Z1 : state_sub cs1 cs = []). { apply sub_nil. intros k Hk. rewrite (alike_keys _ _ A1). exact Hk. }
    destruct (partition_parts s _ _ Ws Ps Hpart) as (_ & Q & _). apply plain_list_app in Q as [_ Q].
    rewrite last_cons in Hra.
    destruct (IH raws' x rest fins' w1 ctx0 axs0 xs0 e) as (w2 & S2 & G2); auto.
    { intros y Hy. eapply alike_trans; [apply alike_sym; exact A1|]. apply Hal. now right. }
    { apply G1. } { rewrite (ga_nt _ _ G1). exact Hn. }
    exists w2. split; [|eapply good_trans; eauto]. cbn [app scan_steps]. rewrite S1, Z1. cbn [state_sub fst].
    rewrite sub_self. rewrite alike_same_struct; [|inversion Hbc as [|? ? _ B2]; now inversion B2|exact A1]. rewrite S2. reflexivity.
Qed.
Lemma run_raises t b cs c pre outs css c1 : loop w d (o_filters o) f b cs c pre outs css c1 ->
  forall raws x rest fins wb ctx axs xs e, o_reverse o = false -> Forall2 (entered o) raws pre -> Forall (fun l => plain_list (snd (fst l))) pre -> Forall2 (left o) outs fins ->
  (forall y, In y css -> alike cs y) -> plain_list [b; cs] -> wf_world wb -> w_nodes wb = w_nodes w ->
  entered o x (ctx, axs, xs) -> plain_list axs -> raises d (axs ++ [b; last css cs]) (f ctx c1 xs) e ->
  exists w2, scan_run o t (uf f) d b wb cs c (raws ++ x :: rest) = (w2, Err e) /\ good_after wb w2.
Proof.
  intros Hl raws x rest fins wb ctx axs xs e Hrev Hent Hpl Hleft Hal Hbc Hwb Hn Hx Hpx Hra.
  pose proof (steps_raise b cs c pre outs css c1 Hl raws x rest fins) as SR.
  destruct Hl as [cs c|cs c ctx' axs' xs' c1 ys s axs1 cs1 pre outs css c2 Hc Hpart Hl].
  - inversion Hent; subst. cbn [app]. unfold scan_run. destruct x as [[cx rx] ax]. destruct Hx as (E1 & E2 & E3). cbn in E1, E2, E3. subst cx ax. cbn [last] in Hra.
    destruct (fn_raises b cs c ctx rx axs xs e (set_trace wb t)) as (w2 & S1 & G); auto. { now apply set_trace_wf. } { apply plain_list_app. auto. }
    rewrite S1. exists (set_trace w2 (w_trace wb)). split; [reflexivity|now apply (good_trace wb w2 t)].
  - pose proof Hent as Hent0. inversion Hent as [|[[cx raw] ax] ? raws' ? (E1 & E2 & E3) Hent']; subst. inversion Hleft as [|? fin ? fins' Hfin Hleft']; subst.
    inversion Hpl as [|? ? P1 P2]; subst. cbn in E1, E2, E3, P1. subst cx ax. unfold left in Hfin. cbn [fst] in Hfin. cbn [app]. unfold scan_run.
    destruct (scan_step o f Hf w r d L Hw Hr Hg b cs c ctx' raw axs' xs' c1 ys s axs1 b cs1 fin (set_trace wb t)) as (w1 & S1 & G1 & Ws & Ps); auto.
    { now apply set_trace_wf. } { apply plain_list_app. auto. }
    assert (A1 : alike cs cs1) by (apply Hal; now left).
    assert (Z1 : state_sub cs1 cs = []). { apply sub_nil. intros k Hk. rewrite (alike_keys _ _ A1). exact Hk. }
    rewrite S1, Z1. apply good_trace in G1. set (wp := set_trace w1 (w_trace wb)) in *. unfold out_cs_new. cbn [fst snd].
    unfold lax_scan. rewrite Hrev.
    destruct (SR (set_trace wp t) ctx axs xs e) as (w2 & S2 & G2); auto.
    { apply set_trace_wf. apply G1. } { change (w_nodes wp = w_nodes w). rewrite (ga_nt _ _ G1). exact Hn. }
    cbn [app] in S2. rewrite S2. exists (set_trace w2 (w_trace wp)). split; [reflexivity|]. eapply good_trans; [exact G1|]. now apply (good_trace wp w2 t).
Qed.
End Quiet.

Lemma slice_state_pl J ax s x : arrays_ok J -> plain_st s -> slice_state J ax s = Ok x -> forall i, plain_st (slice_at i x).
Proof.
  intros HJ. revert x. induction s as [|[k a] s IH]; intros x P E i; cbn in E; [injection E as <-; constructor|].
  destruct (a_slices J ax (val_of a)) as [l|] eqn:El; [|discriminate]. cbn in E. change (rmapM _ s) with (slice_state J ax s) in E.
  destruct (slice_state J ax s) as [xs|] eqn:Es; [|discriminate]. cbn in E. injection E as <-. inversion P as [|? ? [W N] P2]; subst. constructor; [|apply IH; auto].
  cbn [fst snd] in *. assert (NM : not_module (nth i l PyNone)). { destruct (nth_in_or_default i l PyNone) as [H|H]; [eapply ao_slices; eauto|rewrite H; exact Logic.I]. }
  destruct a as [v|c]; cbn; [split; [exact Logic.I|]; destruct (nth i l PyNone); try reflexivity; destruct NM|].
  split; [|reflexivity]. destruct W as [W1 W2]. now constructor.
Qed.
Lemma slice_states_pl J : arrays_ok J -> forall l axes sl, plain_list l -> slice_states J axes l = Ok sl -> forall i, plain_list (map (slice_at i) sl).
Proof.
  intros HJ. induction l as [|s l IH]; intros axes sl P E i; destruct axes as [|[g ax] axes]; cbn in E; try (injection E as <-; constructor).
  destruct (slice_state J ax s) as [x|] eqn:E1; [|discriminate]. cbn in E. destruct (slice_states J axes l) as [xs|] eqn:E2; [|discriminate]. cbn in E. injection E as <-.
  inversion P; subst. constructor; [eapply slice_state_pl; eauto|eapply IH; eauto].
Qed.

Lemma stack_states_pl J ax l x : arrays_ok J -> plain_list l -> stack_states J ax l = Ok x -> plain_st x.
Proof.
  intros HJ P E. unfold stack_states in E. destruct l as [|s rest]; [discriminate|]. destruct (forallb _ rest); [|discriminate]. injection E as <-. inversion P as [|? ? P1 _]; subst.
  apply Forall_forall. intros [k a] Hi. apply in_map_iff in Hi as ([k' a'] & E1 & Hin). cbn in E1. injection E1 as <- <-. cbn [snd]. unfold plain_st in P1. rewrite Forall_forall in P1. destruct (P1 _ Hin) as [W N]. cbn [snd] in W, N.
  match goal with |- plain_attr (with_value _ ?v) => assert (NM : not_module v) by apply HJ; revert NM; generalize v end. intros v NM.
  destruct a' as [u|c]; cbn; [split; [exact Logic.I|]; destruct v; try reflexivity; destruct NM|]. split; [|reflexivity]. destruct W as [W1 W2]. now constructor.
Qed.
Lemma stack_axes_pl J : arrays_ok J -> forall axes i l x, Forall plain_list l -> stack_axes J axes i l = Ok x -> plain_list x.
Proof.
  intros HJ. induction axes as [|[g ax] axes IH]; intros i l x P E; cbn in E; [injection E as <-; constructor|].
  destruct (stack_states J ax (map (fun x => nth i x []) l)) as [s|] eqn:E1; [|discriminate]. cbn in E. destruct (stack_axes J axes (S i) l) as [ss|] eqn:E2; [|discriminate]. cbn in E. injection E as <-.
  constructor; [|eapply IH; eauto]. eapply stack_states_pl; [exact HJ| |exact E1]. apply Forall_forall. intros y Hy. apply in_map_iff in Hy as (z & <- & Hz). rewrite Forall_forall in P.
  destruct (nth_in_or_default i z []) as [K|K]; [specialize (P z Hz); unfold plain_list in P; rewrite Forall_forall in P; apply P; exact K|rewrite K; constructor].
Qed.
Lemma stack_or_empty_pl J l x : arrays_ok J -> plain_list l -> stack_or_empty J l = Ok x -> plain_st x.
Proof. intros HJ P E. destruct l; [injection E as <-; constructor|]. eapply stack_states_pl; eauto. Qed.

Section Core.
Context {X Y Z : Type} (J : arrays) (o : scan_opts) (f : option pctx -> pyval -> X -> prog (pyval * Y)).
Context (HJ : arrays_ok J) (Hf : forall pc c xs, ok_prog (f pc c xs)).
Context (w : world) (r : nat) (Hw : wf_world w) (Hr : valid w r).

Theorem core_atomic t c cut (join : list Y -> result Z) ctx ss w' ss' res : scan_core J o t (uf f) w r c cut join ctx ss = (w', ss', res) ->
  (all_unchanged w w' /\ w_trace w' = w_trace w /\ exists e, res = Err e) \/
  exists w3 us v, all_unchanged w w3 /\ w_trace w3 = w_trace w /\ wf_world w3 /\ w_nodes w3 = w_nodes w /\ plain_list us /\
    w' = fst (update_state w3 r (UStates (Many us))) /\ res = rmap (fun _ => v) (snd (update_state w3 r (UStates (Many us)))).
Proof.
  intros E. destruct (graph_exists w r Hw Hr) as (d & L & Hg). pose proof (get_module_def_graph _ _ _ _ Hw Hr Hg) as Hd.
  destruct (get_state_total w r Hw Hr) as (s & Hs & Ws). unfold scan_core, module_partition in E. rewrite Hd, Hs in E. cbn [rbind] in E.
  assert (Same : forall e, (w, ss, Err e) = (w', ss', res) -> (all_unchanged w w' /\ w_trace w' = w_trace w /\ exists e, res = Err e)).
  { intros e [= <- _ <-]. split; [intros x ob H; exact H|]. split; [reflexivity|]. now exists e. }
  destruct (partition_state s (o_filters o)) as [x|e] eqn:Ep; cbn [rbind] in E; [|left; eauto]. cbn [p_states p_def] in E.
  destruct (split3 (sts_list x)) as [[[axs b] cs]|] eqn:E3; [|left; eauto]. apply split3_inv in E3.
  assert (Q : plain_list (axs ++ [b; cs])).
  { destruct x as [s1|l]; cbn in E3; [destruct axs as [|? [|? ?]]; discriminate|]. subst l. apply (partition_parts s _ _ Ws (state_plain _ _ _ Hw Hs) Ep). }
  apply plain_list_app in Q as [Qa Qc]. inversion Qc as [|? ? Qb Qd]; subst. inversion Qd as [|? ? Qe _]; subst.
  destruct (slice_states J (o_axes o) axs) as [sl|e] eqn:Es; cbn [rbind] in E; [|left; eauto]. destruct cut as [[lens xsl]|e]; cbn [rbind fst snd] in E; [|left; eauto].
  destruct (infer_length (o_length o) (leaf_lengths sl lens)) as [n|e]; cbn [rbind] in E; [|left; eauto].
  destruct (scan_ctx (w_trace w) (o_split o) ctx ss) as [[pc|e] ss1].
  2: { left. injection E as <- _ <-. split; [intros y ob H; exact H|]. split; [reflexivity|]. now exists e. }
  assert (Hx : Forall in_fine (scan_input n pc sl xsl)).
  { apply Forall_forall. intros y Hi. unfold scan_input in Hi. apply in_map_iff in Hi as (i & <- & _). unfold in_fine. cbn [fst snd]. exact (slice_states_pl J HJ _ _ _ Qa Es i). }
  destruct (run_quiet o f Hf w r d L Hw Hr Hg t b w cs c _ Qb Hw Qe Hx) as [[G1 G2 G3 G4] K].
  destruct (scan_run o t (uf f) d b w cs c (scan_input n pc sl xsl)) as [w1 [[[[cs' c'] outs] last]|e]]; cbn [fst snd] in *.
  2: { left. injection E as <- _ <-. split; [exact G2|]. split; [exact G3|]. now exists e. }
  destruct (K _ _ _ eq_refl) as (K1 & K2 & K3). cbn [fst] in K1.
  assert (Same1 : forall e, (w1, ss1, Err e) = (w', ss', res) -> (all_unchanged w w' /\ w_trace w' = w_trace w /\ exists e, res = Err e)).
  { intros e [= <- _ <-]. split; [exact G2|]. split; [exact G3|]. now exists e. }
  destruct (stack_axes J (o_axes o) 0 (map out_axs outs)) as [axs'|e] eqn:F1; cbn [rbind] in E; [|left; eauto].
  destruct (stack_or_empty J (map out_b_new last)) as [bn|e] eqn:F2; cbn [rbind] in E; [|left; eauto].
  destruct (stack_or_empty J (map out_cs_new last)) as [cn|e] eqn:F3; cbn [rbind] in E; [|left; eauto].
  destruct (join (map out_ys outs)) as [ys|e]; cbn [rbind] in E; [|left; eauto].
  right. exists w1, (axs' ++ [cs'; bn; cn]), (c', ys). repeat (split; [assumption|]). split.
  { apply plain_list_app. split; [eapply stack_axes_pl; [exact HJ| |exact F1]; apply Forall_forall; intros y Hy; apply in_map_iff in Hy as (z & <- & Hz); rewrite Forall_forall in K2; apply (K2 z Hz)|].
    constructor; [exact K1|]. constructor; [eapply stack_or_empty_pl; [exact HJ| |exact F2]|constructor; [eapply stack_or_empty_pl; [exact HJ| |exact F3]|constructor]];
      apply Forall_forall; intros y Hy; apply in_map_iff in Hy as (z & <- & Hz); rewrite Forall_forall in K3; apply (K3 z Hz). }
  destruct (update_state w1 r (UStates (Many (axs' ++ [cs'; bn; cn])))) as [w2 [u|e]]; injection E as <- _ <-; auto.
Qed.

(** a layer whose call raises, all before it having run *)
Theorem core_raises t c cut (join : list Y -> result Z) ctx pc ss ss' d s axs b cs pre ctx1 axs1 xs1 post outs css c1 fins e :
  get_module_def w r = Ok d -> get_state w r = Ok s -> partition_state s (o_filters o) = Ok (Many (axs ++ [b; cs])) -> o_reverse o = false ->
  scan_ctx (w_trace w) (o_split o) ctx ss = (Ok pc, ss') -> states_ok J o axs pc (pre ++ (ctx1, axs1, xs1) :: post) -> cut_ok o axs cut (pre ++ (ctx1, axs1, xs1) :: post) ->
  (forall m, o_length o = Some m -> m = List.length (pre ++ (ctx1, axs1, xs1) :: post)) ->
  loop w d (o_filters o) f b cs c pre outs css c1 -> Forall2 (left o) outs fins -> (forall x, In x css -> alike cs x) ->
  raises w d (axs1 ++ [b; last css cs]) (f ctx1 c1 xs1) e ->
  exists w', scan_core J o t (uf f) w r c cut join ctx ss = (w', ss', Err e) /\ all_unchanged w w' /\ w_trace w' = w_trace w /\ wf_world w'.
Proof.
  intros Hd Hs Hp Hrev Hctx Hok Hcut Hn2 Hl Hleft Hal Hra. set (layers := pre ++ (ctx1, axs1, xs1) :: post) in *.
  assert (Hne : layers <> []) by (unfold layers; destruct pre; discriminate).
  destruct (scan_graph w r d Hw Hr Hd) as [L Hg].
  destruct (scan_parts o w r s axs b cs Hw Hr Hs Hp) as (P1 & P2 & P3 & P4 & P5 & P6).
  destruct (scan_input_ok J o axs cut pc layers P1 P6 Hne Hok Hcut Hn2) as (sl & lens & at_step & S1 & S2 & S3 & S4).
  pose proof (layers_plain J o axs pc layers HJ P4 P1 P6 Hok) as Hpl. unfold layers in Hpl, S4. apply Forall_app in Hpl as [Pp Pq]. inversion Pq as [|? ? Px _]; subst. cbn in Px.
  apply Forall2_app_inv_r in S4 as (raws & tl & R1 & R2 & R3). inversion R2 as [|x ? rest ? Rx R4]; subst.
  destruct (run_raises o f Hf w r d L Hw Hr Hg t b cs c pre outs css c1 Hl raws x rest fins w ctx1 axs1 xs1 e) as (w2 & E & G); auto.
  exists w2. destruct G as [G1 G2 G3 G4]. split; [|auto].
  unfold scan_core, module_partition. rewrite Hd, Hs. cbn [rbind]. rewrite Hp. cbn [rbind p_states p_def sts_list]. rewrite split3_app.
  rewrite S1. cbn [rbind]. cbn [rbind fst snd]. rewrite S3. cbn [rbind]. rewrite Hctx. fold layers in R3. rewrite R3, E. reflexivity.
Qed.
End Core.
