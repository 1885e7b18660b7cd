(** Proofs about histories with transforms (C20). *)
From Coq Require Import ZArith Lia.
From Verif Require Import PyBase PyBaseFacts ValuesM Spec_Eq ValuesFacts FiltersM StateM ModuleM ContextM TransformM JitArgsM RematArgsM GradArgsM SpmdM ScanM ScanInitM ScanClassM HelpersM DataclassM CopyM.
From Verif Require Import Spec_State Spec_Module Spec_Prog Spec_History Spec_Scan Spec_Dataclass Spec_Copy Spec_Reach.
From Verif Require Import Graph_facts Dfs_proofs State_proofs Write_proofs RoundTrip_proofs Clone_proofs Laws_proofs Scan_proofs ScanDeco_proofs Dataclass_proofs Copy_proofs History_proofs.
Local Open Scope string_scope.
Local Open Scope nat_scope.
Local Open Scope list_scope.

Record safe (w w' : world) : Prop := { sf_good : good w w'; sf_trace : w_trace w' = w_trace w }.
Lemma safe_sound w w' : safe w w' -> sound w'.
Proof. intros [G _]. split; apply G. Qed.
Lemma safe_refl w : sound w -> safe w w.
Proof. intros [A B]. split; [now apply good_refl|reflexivity]. Qed.
Lemma safe_trans w1 w2 w3 : safe w1 w2 -> safe w2 w3 -> safe w1 w3.
Proof. intros [A B] [C D]. split; [eapply good_trans; eauto|congruence]. Qed.
Lemma safe_valid w w' r : safe w w' -> r < List.length (w_heap w) -> r < List.length (w_heap w').
Proof. intros [G _] V. destruct (get_obj_ex _ _ V) as [o Ho]. destruct (proj2 (gd_pers _ _ G) r o Ho) as (o' & Ho' & _). eapply get_obj_lt; eauto. Qed.
Lemma safe_attr w w' a : safe w w' -> attr_ok w a -> attr_ok w' a.
Proof. intros S [A B]. split; [exact A|]. intros x Hx. eapply safe_valid; [exact S|exact (B x Hx)]. Qed.

(** ** basic calls *)
Lemma trace_good w t : sound w -> good w (set_trace w t).
Proof. intros [A B]. apply (step_good _ _ (st_trace w t) A B). Qed.
Lemma trace_sound w t : sound w -> sound (set_trace w t).
Proof. intros S. split; apply (trace_good w t S). Qed.
(** a transform's body: run under another trace, then back *)
Lemma bracket w t w2 : sound w -> safe (set_trace w t) w2 -> safe w (set_trace w2 (w_trace w)).
Proof.
  intros S [G T]. split; [|reflexivity]. eapply good_trans; [apply (trace_good w t S)|]. eapply good_trans; [exact G|].
  apply trace_good. split; apply G.
Qed.
Lemma step_safe w w' : step w w' -> w_trace w' = w_trace w -> sound w -> safe w w'.
Proof. intros H T [A B]. split; [now apply step_good|exact T]. Qed.
Lemma setattr_safe w r n a w' : sound w -> attr_ok w a -> setattr w r n a = Ok w' -> safe w w'.
Proof. intros S A H. apply step_safe; auto; [econstructor; eauto|]. apply (setattr_shape _ _ _ _ _ H). Qed.
Lemma merge_safe w d ss m w' : sound w -> wf_mdef d -> Forall plain_state ss -> merge w d ss = Ok (m, w') -> safe w w' /\ m < List.length (w_heap w').
Proof.
  intros [A B] D P H. split; [split; [eapply merge_good; eauto|apply (merge_global _ _ _ _ _ H)]|].
  unfold merge, build_module in H. destruct (build d [] w) as [[[r1 im] w1]|] eqn:Eb; [|discriminate]. cbn [rbind] in H.
  destruct (update_module w1 r1 [] ss) as [w2 [u|e]] eqn:Eu; [|discriminate]. injection H as <- <-.
  destruct (build_new d D _ _ _ _ _ Eb) as (objs & G1 & G2 & V & _); [intros i x Hx; discriminate|].
  pose proof (grown_wf _ _ _ A G1 G2) as Hw1.
  assert (update_safe w1 w2 r1) as U.
  { eapply update_loop_safe; [exact Hw1| |exact Eu]. apply plain_fold; [|constructor]. constructor; [constructor|]. eapply Forall_impl; [|exact P]. apply plain_state_items. }
  destruct U as [_ (_ & _ & _ & L) _ _ _ _]. lia.
Qed.
Lemma update_safe_st w r x : sound w -> Forall plain_state (sts_list x) -> safe w (fst (update_state w r (UStates x))).
Proof.
  intros S P. destruct (update_state w r (UStates x)) as [w' res] eqn:E. apply step_safe; auto; [eapply (st_update w r (UStates x)); [exact P|eauto]|]. cbn.
  unfold update_state in E. destruct (get_state w r); [|now injection E as <- _]. apply (update_loop_global _ _ _ _ _ E).
Qed.
Lemma update_safe_mod w r m : sound w -> m < List.length (w_heap w) -> safe w (fst (update_state w r (UModule m))).
Proof.
  intros S V. destruct (update_state w r (UModule m)) as [w' res] eqn:E. apply step_safe; auto; [eapply st_update; [|eauto]; exact V|]. cbn.
  unfold update_state in E. destruct (get_state w r); [|now injection E as <- _]. destruct (get_obj w r) as [o|]; [|now injection E as <- _].
  destruct (get_obj w m) as [o2|]; [|now injection E as <- _]. destruct (cls_eqb _ _); [|now injection E as <- _]. destruct (get_state w m); [|now injection E as <- _].
  apply (update_loop_global _ _ _ _ _ E).
Qed.
Lemma part_plain w r fs p : sound w -> module_partition w r fs = Ok p -> wf_mdef (p_def p) /\ Forall plain_state (sts_list (p_states p)).
Proof.
  intros [A B] H. unfold module_partition in H. destruct (get_module_def w r) as [d|] eqn:Ed; [|discriminate]. cbn [rbind] in H.
  destruct (get_state w r) as [s|] eqn:Es; [|discriminate]. cbn [rbind] in H. destruct (partition_state s fs) as [x|] eqn:Ex; [|discriminate]. cbn [rbind] in H. injection H as <-. cbn [p_def p_states].
  split; [eapply get_module_def_wf; eauto|]. pose proof (get_state_plain _ _ _ A Es) as P. destruct fs as [|f fs]; [injection Ex as <-; cbn; auto|].
  assert (Ws : wf_state s). { unfold get_state in Es. destruct (iter_state w r); [|discriminate]. cbn in Es. injection Es as <-. apply mk_state_wf. }
  cbn [partition_state] in Ex. pose proof (partition_outputs_wf _ _ _ _ Ws Ex) as W. destruct (partition_entries _ _ _ _ Ws Ex) as [_ E2].
  apply Forall_forall. intros y Hy k a Hi. rewrite Forall_forall in W. pose proof (W y Hy) as Wy. apply In_nth_error in Hy as [i Hi'].
  assert (D : dget k y = Some a) by (apply In_dget; [now apply wf_NoDup|exact Hi]). apply (E2 i y k a Hi') in D as [D _]. apply (P k a). now apply dget_In.
Qed.
Lemma pure_merge_safe w p m w' : sound w -> wf_mdef (p_def p) -> Forall plain_state (sts_list (p_states p)) -> pure_merge w p = Ok (m, w') ->
  safe w w' /\ m < List.length (w_heap w').
Proof. intros S D P H. eapply merge_safe; eauto. Qed.
Lemma plain_state_iff s : plain_state s <-> plain_st s.
Proof.
  split; [intros H; apply Forall_forall; intros [k a] Hi; apply (H k a Hi)|]. intros H k a Hi. unfold plain_st in H. rewrite Forall_forall in H. exact (H (k, a) Hi).
Qed.
Lemma plain_list_iff l : Forall plain_state l <-> plain_list l.
Proof. split; intros H; (eapply Forall_impl; [|exact H]); intros s Hs; apply plain_state_iff; exact Hs. Qed.

(** ** jit, grad, remat *)
Section Body.
Context {A : Type}.
Variables (f : world -> nat -> world * result A).
Hypothesis Hf : runs safe f.
Lemma merge_body w t d ss m w1 : sound w -> wf_mdef d -> Forall plain_state ss -> merge (set_trace w t) d ss = Ok (m, w1) ->
  safe w (set_trace (fst (f w1 m)) (w_trace w)) /\ safe (set_trace w t) (fst (f w1 m)).
Proof.
  intros S D P E. destruct (merge_safe _ _ _ _ _ (trace_sound w t S) D P E) as [S1 V]. pose proof (Hf w1 m (safe_sound _ _ S1) V) as S2.
  pose proof (safe_trans _ _ _ S1 S2) as S3. split; [now apply (bracket w t)|exact S3].
Qed.
End Body.

Lemma sound_untrace w t : sound (set_trace w t) -> sound w.
Proof. intros S. apply (trace_sound _ (w_trace w)) in S. destruct w; exact S. Qed.
Lemma get_state_trace w t m s : sound (set_trace w t) -> get_state (set_trace w t) m = Ok s -> plain_state s.
Proof. intros [S _] H. eapply get_state_plain; eauto. Qed.

Lemma jitted_safe {A} stateful t (f : world -> nat -> world * result A) w p : sound w -> wf_mdef (p_def p) -> Forall plain_state (sts_list (p_states p)) -> runs safe f ->
  safe w (fst (jitted_fn stateful t f w p)) /\ forall s out, snd (jitted_fn stateful t f w p) = Ok (Some s, out) -> plain_state s.
Proof.
  intros S D P Hf. unfold jitted_fn. destruct (pure_merge (set_trace w t) p) as [[m w1]|e] eqn:E; cbn [fst snd]; [|split; [now apply safe_refl|discriminate]].
  destruct (merge_body f Hf w t _ _ m w1 S D P E) as [S1 S2]. destruct (f w1 m) as [w2 [out|e]]; cbn [fst snd] in *; [|split; [exact S1|discriminate]].
  destruct stateful; cbn [fst snd]; [|split; [exact S1|discriminate]]. destruct (get_state (set_trace w2 (w_trace w)) m) as [s|e] eqn:Es; cbn [fst snd]; [|split; [exact S1|discriminate]].
  split; [exact S1|]. intros s' out' [= <- <-]. eapply get_state_plain; [|exact Es]. apply (safe_sound _ _ S1).
Qed.
Lemma jit_run_safe static stateful t f w p args kw : sound w -> wf_mdef (p_def p) -> Forall plain_state (sts_list (p_states p)) -> (forall a k, runs safe (f a k)) ->
  safe w (fst (jit_run static stateful t f w p args kw)) /\ forall s out, snd (jit_run static stateful t f w p args kw) = Ok (Some s, out) -> plain_state s.
Proof.
  intros S D P Hf. unfold jit_run. destruct (existsb _ kw); [split; [now apply safe_refl|discriminate]|]. destruct (negb _); [split; [now apply safe_refl|discriminate]|].
  destruct (jitted_safe stateful t (f args kw) w p S D P (Hf args kw)) as [S1 S2]. destruct (jitted_fn stateful t (f args kw) w p) as [w1 [[s out]|e]]; cbn [fst snd] in *; [|split; [exact S1|discriminate]].
  destruct (forallb leaf_ok _); cbn [fst snd]; [|split; [exact S1|discriminate]]. split; [exact S1|exact S2].
Qed.
Lemma jit_safe static stateful t f w m args kw ss : sound w -> (forall a k, runs safe (f a k)) ->
  safe w (fst (fst (jit_call_args static stateful t f w m args kw ss))).
Proof.
  intros S Hf. pose proof (safe_refl w S) as R. unfold jit_call_args. destruct m as [[]|]; try exact R.
  destruct (match dget "ctx" kw with Some (GCtx x) => _ | _ => _ end) as [[kw'|e] ss']; [|exact R].
  destruct (module_partition w r []) as [p|e] eqn:Ep; [|exact R]. destruct (part_plain _ _ _ _ S Ep) as [D P].
  destruct (jit_run_safe static stateful t f w p args kw' S D P Hf) as [S1 S2]. destruct (jit_run static stateful t f w p args kw') as [w1 [[[s|] out]|e]]; cbn [fst snd] in *; auto.
  pose proof (update_safe_st w1 r (One s) (safe_sound _ _ S1) (Forall_cons _ (S2 s out eq_refl) (Forall_nil _))) as S3.
  destruct (update_state w1 r (UStates (One s))) as [w2 [u|e]]; cbn [fst snd] in *; eapply safe_trans; eauto.
Qed.
Lemma grad_safe stateful has_aux holo ints ai wrt t lg f w m args : sound w -> (forall a, runs safe (f a)) ->
  safe w (fst (grad_args stateful has_aux holo ints ai wrt t lg f w m args)).
Proof.
  intros S Hf. pose proof (safe_refl w S) as R. unfold grad_args. destruct (to_predicate wrt) as [pred|e]; [|exact R]. destruct m as [[]|]; try exact R.
  destruct (module_partition w r [FPred pred; FEllipsis]) as [p|e] eqn:Ep; [|exact R]. destruct (part_plain _ _ _ _ S Ep) as [D P].
  destruct (p_states p) as [x|[|diff [|nondiff [|]]]]; try exact R. destruct (negb _); [exact R|].
  destruct (merge (set_trace w t) (p_def p) [diff; nondiff]) as [[m w1]|e] eqn:E; [|exact R].
  destruct (merge_body (f args) (Hf args) w t _ _ m w1 S D P E) as [S1 S2]. destruct (f args w1 m) as [w2 [out|e]]; cbn [fst snd] in *; [|exact S1].
  set (w3 := set_trace w2 (w_trace w)) in *.
  destruct stateful.
  - cbn. destruct (get_state w3 m) as [s|e] eqn:Es; cbn; [|exact S1].
    destruct (split_out true has_aux ai out) as [[loss aux]|e]; [|exact S1]. destruct (negb (loss_ok holo ai loss)); [exact S1|].
    assert (Q : plain_state s) by (eapply get_state_plain; [apply (safe_sound _ _ S1)|exact Es]).
    pose proof (update_safe_st w3 r (One s) (safe_sound _ _ S1) (Forall_cons _ Q (Forall_nil _))) as S3.
    destruct (update_state w3 r (UStates (One s))) as [w4 [u|e]]; cbn [fst snd] in *; eapply safe_trans; eauto.
  - cbn. destruct (split_out false has_aux ai out) as [[loss aux]|e]; [|exact S1]. destruct (negb (loss_ok holo ai loss)); exact S1.
Qed.
Lemma remat_safe nums t f w r args ctx ss : sound w -> (forall a c, runs safe (f a c)) -> safe w (fst (fst (remat_args nums t f w r args ctx ss))).
Proof.
  intros S Hf. pose proof (safe_refl w S) as R. unfold remat_args. destruct (module_partition w r []) as [p|e] eqn:Ep; [|exact R]. destruct (part_plain _ _ _ _ S Ep) as [D P].
  destruct (match ctx with None => _ | Some _ => _ end) as [[pc|e] ss']; [|exact R]. cbv zeta. destruct (negb (forallb (in_range _) nums)); [exact R|]. destruct (negb _); [exact R|].
  destruct (pure_merge (set_trace w t) p) as [[m w1]|e] eqn:E; [|exact R].
  destruct (merge_body (f args pc) (Hf args pc) w t _ _ m w1 S D P E) as [S1 S2]. destruct (f args pc w1 m) as [w2 [out|e]]; cbn [fst snd] in *; [|exact S1].
  destruct (module_partition w2 m []) as [q|e] eqn:Eq; [|exact S1]. destruct (part_plain _ _ _ _ (safe_sound _ _ S2) Eq) as [_ Q].
  destruct (negb _); [exact S1|].
  pose proof (update_safe_st (set_trace w2 (w_trace w)) r (p_states q) (safe_sound _ _ S1) Q) as S3.
  destruct (update_state (set_trace w2 (w_trace w)) r (UStates (p_states q))) as [w4 [u|e]]; cbn [fst snd] in *; eapply safe_trans; eauto.
Qed.
Lemma new_safe w c : sound w -> In "Module" c -> safe w (snd (new_module w c)).
Proof. intros S H. apply step_safe; auto. now constructor. Qed.
Lemma raw_ok w v : not_module v -> attr_ok w (ARaw v).
Proof. intros H. split; [exact Logic.I|]. intros x [= ->]. destruct H. Qed.
Lemma remat_new_safe ctor cv ov w : sound w -> makes safe ctor -> not_module cv -> not_module ov -> safe w (fst (remat_new ctor cv ov w)).
Proof.
  intros S Hc C O. unfold remat_new. pose proof (new_safe w Remat_cls S) as S0. destruct (new_module w Remat_cls) as [r w0]; cbn [snd] in S0.
  specialize (S0 ltac:(cbn; auto)). destruct (setattr w0 r "options" (ARaw ov)) as [wa|e] eqn:Ea; cbn [rbind]; [|exact S0].
  pose proof (setattr_safe _ _ _ _ _ (safe_sound _ _ S0) (raw_ok _ _ O) Ea) as Sa. pose proof (safe_trans _ _ _ S0 Sa) as S1.
  destruct (setattr wa r "module_constructor" (ARaw cv)) as [w1|e] eqn:Eb; cbn [rbind]; [|exact S0].
  pose proof (setattr_safe _ _ _ _ _ (safe_sound _ _ S1) (raw_ok _ _ C) Eb) as Sb. pose proof (safe_trans _ _ _ S1 Sb) as S2.
  destruct (Hc w1 (safe_sound _ _ S2)) as [S3 V]. destruct (ctor w1) as [w2 [m|e]]; cbn [fst snd] in *; [|eapply safe_trans; eauto]. pose proof (safe_trans _ _ _ S2 S3) as S4.
  destruct (setattr w2 r "remat_module" (ARaw (PyMod m))) as [w3|e] eqn:E3; cbn [fst]; [|exact S4].
  eapply safe_trans; [exact S4|]. eapply setattr_safe; [apply (safe_sound _ _ S4)| |exact E3]. split; [exact Logic.I|]. intros x [= <-]. now apply V.
Qed.

(** ** scan *)
Definition out_plain {Y} (y : outcome Y) : Prop := Forall plain_state (out_axs y) /\ plain_state (out_b_new y) /\ plain_state (out_cs_new y).
Definition in_plain {X} (x : step_of X) : Prop := Forall plain_state (snd (fst x)).
Definition step_ok {X Y} (st : world -> state * pyval -> step_of X -> world * result ((state * pyval) * outcome Y)) : Prop :=
  forall w carry x, sound w -> plain_state (fst carry) -> in_plain x ->
  safe w (fst (st w carry x)) /\ forall c y, snd (st w carry x) = Ok (c, y) -> plain_state (fst c) /\ out_plain y.

Lemma split3_plain l a b c : Forall plain_state l -> split3 l = Some (a, b, c) -> Forall plain_state a /\ plain_state b /\ plain_state c.
Proof.
  intros H E. unfold split3 in E. destruct (rev l) as [|x [|y t]] eqn:R; try discriminate. injection E as <- <- <-.
  apply (f_equal (@rev state)) in R. rewrite rev_involutive in R. subst l. cbn in H. rewrite <- app_assoc in H. apply Forall_app in H as [H1 H2]. cbn in H2.
  inversion H2 as [|? ? H3 H4]; subst. inversion H4; subst. auto.
Qed.
Lemma sub_plain a b : plain_state a -> plain_state (state_sub a b).
Proof. intros H. apply plain_state_iff, plain_sub. now apply plain_state_iff. Qed.
Lemma merge_plain a l : plain_state a -> Forall plain_state l -> plain_state (state_merge a l).
Proof.
  intros H1 H2. destruct l as [|x l]; [exact H1|]. unfold state_merge. apply mk_state_plain.
  assert (P : plain_items (fold_left (fun acc s => dupdate acc s) (a :: x :: l) [])).
  { apply plain_fold; [|constructor]. constructor; [now apply plain_state_items|]. eapply Forall_impl; [|exact H2]; apply plain_state_items. }
  intros k b Hi. unfold plain_items in P. rewrite Forall_forall in P. apply (P (k, b) Hi).
Qed.
Lemma scan_fn_ok {X Y} o (f : scanned_of X Y) d b : (forall pc c xs, runs safe (f pc c xs)) -> wf_mdef d -> plain_state b -> step_ok (scan_fn o f d b).
Proof.
  intros Hf D B w [cs c] [[pc axs] args] S C Hx. cbn [fst snd] in C, Hx. unfold in_plain in Hx. cbn [fst snd] in Hx. pose proof (safe_refl w S) as R. unfold scan_fn.
  destruct (enter_axes o axs) as [axs1|e] eqn:Ee; cbn [fst snd]; [|split; [exact R|discriminate]].
  assert (P1 : Forall plain_state (axs1 ++ [b; cs])). { apply Forall_app. split; [|auto]. apply plain_list_iff. eapply enter_plain; [|exact Ee]. now apply plain_list_iff. }
  destruct (merge w d (axs1 ++ [b; cs])) as [[m w1]|e] eqn:Em; cbn [fst snd]; [|split; [exact R|discriminate]].
  destruct (merge_safe _ _ _ _ _ S D P1 Em) as [S1 V]. pose proof (Hf pc c args w1 m (safe_sound _ _ S1) V) as S2. pose proof (safe_trans _ _ _ S1 S2) as S3.
  destruct (f pc c args w1 m) as [w2 [[c' ys]|e]]; cbn [fst snd] in *; [|split; [exact S3|discriminate]].
  destruct (module_partition w2 m (o_filters o)) as [q|e] eqn:Eq; cbn [fst snd]; [|split; [exact S3|discriminate]]. destruct (part_plain _ _ _ _ (safe_sound _ _ S3) Eq) as [_ Q].
  destruct (split3 (sts_list (p_states q))) as [[[ao bo] co]|] eqn:E3; cbn [fst snd]; [|split; [exact S3|discriminate]]. destruct (split3_plain _ _ _ _ Q E3) as (Qa & Qb & Qc).
  destruct (leave_axes o ao) as [ao'|e] eqn:El; cbn [fst snd]; [|split; [exact S3|discriminate]]. split; [exact S3|]. intros c1 y [= <- <-]. cbn [fst]. split; [now apply sub_plain|].
  split; [|split; apply sub_plain; auto]. apply plain_list_iff. eapply leave_plain; [|exact El]. now apply plain_list_iff.
Qed.
Lemma scan_steps_ok {X Y} (st : world -> state * pyval -> step_of X -> world * result ((state * pyval) * outcome Y)) : step_ok st -> forall l w carry, sound w -> plain_state (fst carry) -> Forall in_plain l ->
  safe w (fst (scan_steps st w carry l)) /\ forall c ys, snd (scan_steps st w carry l) = Ok (c, ys) -> plain_state (fst c) /\ Forall out_plain ys.
Proof.
  intros H. induction l as [|x l IH]; intros w carry S C Hx; cbn [scan_steps fst snd]; [split; [now apply safe_refl|intros c ys [= <- <-]; auto]|].
  inversion Hx as [|? ? X1 X2]; subst. destruct (H w carry x S C X1) as [S1 K]. destruct (st w carry x) as [w1 [[c1 y]|e]]; cbn [fst snd] in *; [|split; [exact S1|discriminate]].
  destruct (K c1 y eq_refl) as [K1 K2]. destruct (same_struct (fst carry) (fst c1)); cbn [fst snd]; [|split; [exact S1|discriminate]].
  destruct (IH w1 c1 (safe_sound _ _ S1) K1 X2) as [S2 L]. destruct (scan_steps st w1 c1 l) as [w2 [[c2 ys]|e]]; cbn [fst snd] in *; (split; [eapply safe_trans; eauto|]); [|discriminate].
  intros c ys' [= <- <-]. destruct (L c2 ys eq_refl). auto.
Qed.
Lemma lax_scan_ok {X Y} rv t (st : world -> state * pyval -> step_of X -> world * result ((state * pyval) * outcome Y)) l w carry : step_ok st -> sound w -> plain_state (fst carry) -> Forall in_plain l ->
  safe w (fst (lax_scan rv t st w carry l)) /\ forall c ys, snd (lax_scan rv t st w carry l) = Ok (c, ys) -> plain_state (fst c) /\ Forall out_plain ys.
Proof.
  intros H S C Hx. unfold lax_scan. assert (X' : Forall in_plain (if rv then rev l else l)) by (destruct rv; [now apply Forall_rev|exact Hx]).
  destruct (scan_steps_ok st H _ (set_trace w t) carry (trace_sound _ _ S) C X') as [S1 K].
  destruct (scan_steps st (set_trace w t) carry (if rv then rev l else l)) as [w1 [[c1 ys]|e]]; cbn [fst snd] in *; (split; [now apply (bracket w t)|]); [|discriminate].
  intros c ys' [= <- <-]. destruct (K c1 ys eq_refl) as [K1 K2]. split; [exact K1|]. destruct rv; [now apply Forall_rev|exact K2].
Qed.
Lemma scan_run_ok {X Y} o t (f : scanned_of X Y) d b w cs c l : (forall pc c xs, runs safe (f pc c xs)) -> wf_mdef d -> plain_state b -> sound w -> plain_state cs -> Forall in_plain l ->
  safe w (fst (scan_run o t f d b w cs c l)) /\
  forall c' outs last, snd (scan_run o t f d b w cs c l) = Ok (c', outs, last) -> plain_state (fst c') /\ Forall out_plain outs /\ Forall out_plain last.
Proof.
  intros Hf D B S C Hx. unfold scan_run. destruct l as [|x rest]; [split; [now apply safe_refl|discriminate]|]. inversion Hx as [|? ? X1 X2]; subst.
  pose proof (scan_fn_ok o f d b Hf D B) as H0. destruct (H0 (set_trace w t) (cs, c) x (trace_sound _ _ S) C X1) as [S1 K].
  destruct (scan_fn o f d b (set_trace w t) (cs, c) x) as [w1 [[c1 y]|e]]; cbn [fst snd] in *; pose proof (bracket _ _ _ S S1) as S2; [|split; [exact S2|discriminate]].
  destruct (out_cs_new y) as [|z zs].
  - destruct (lax_scan_ok (o_reverse o) t _ (x :: rest) (set_trace w1 (w_trace w)) (cs, c) H0 (safe_sound _ _ S2) C Hx) as [S3 L].
    destruct (lax_scan _ _ _ _ _ _) as [w2 [[c2 ys]|e]]; cbn [fst snd] in *; (split; [eapply safe_trans; eauto|]); [|discriminate]. intros c' outs last [= <- <- <-]. destruct (L c2 ys eq_refl). auto.
  - destruct (lax_scan_ok (o_reverse o) t _ [x] (set_trace w1 (w_trace w)) (cs, c) H0 (safe_sound _ _ S2) C (Forall_cons _ X1 (Forall_nil _))) as [S3 L].
    destruct (lax_scan _ _ _ _ _ [x]) as [w2 [[[cs1 c2] ys1]|e]]; cbn [fst snd] in *; pose proof (safe_trans _ _ _ S2 S3) as S4; [|split; [exact S4|discriminate]].
    destruct (L _ _ eq_refl) as [L1 L2]. cbn [fst] in L1. set (bn := match ys1 with y1 :: _ => out_b_new y1 | [] => [] end). set (cn := match ys1 with y1 :: _ => out_cs_new y1 | [] => [] end).
    assert (N : plain_state bn /\ plain_state cn). { unfold bn, cn. destruct L2 as [|y1 l2 (_ & Y2 & Y3) _]; [split; intros k a []|auto]. }
    destruct N as [N1 N2].
    destruct (lax_scan_ok (o_reverse o) t _ rest w2 (state_merge cs1 [cn], c2) (scan_fn_ok o f d (state_merge b [bn]) Hf D (merge_plain _ _ B (Forall_cons _ N1 (Forall_nil _)))) (safe_sound _ _ S4) (merge_plain _ _ L1 (Forall_cons _ N2 (Forall_nil _))) X2) as [S5 L'].
    destruct (lax_scan _ _ _ _ _ rest) as [w3 [[c3 ys]|e]]; cbn [fst snd] in *; (split; [eapply safe_trans; eauto|]); [|discriminate]. intros c' outs last [= <- <- <-]. destruct (L' c3 ys eq_refl). split; [auto|]. split; [apply Forall_app; auto|auto].
Qed.

(** slices and stacks of arrays are plain *)
Lemma with_value_plain a v : wf_attr a -> not_module v -> wf_attr (with_value a v) /\ is_submodule (with_value a v) = false.
Proof. intros W N. destruct a as [x|c]; cbn; [split; [exact Logic.I|]; destruct v; try reflexivity; destruct N|]. split; [|reflexivity]. destruct W as [W1 W2]. now constructor. Qed.
Lemma slice_state_plain J ax s x : arrays_ok J -> plain_state s -> slice_state J ax s = Ok x -> forall i, plain_state (slice_at i x).
Proof.
  intros HJ P E i k a Hi. unfold slice_at in Hi. apply in_map_iff in Hi as ([k' [a' l]] & E1 & Hin). cbn in E1. injection E1 as <- <-.
  assert (G : forall s x, slice_state J ax s = Ok x -> forall k a l, In (k, (a, l)) x -> In (k, a) s /\ exists v, a_slices J ax v = Ok l).
  { clear. induction s as [|[k a] s IH]; intros x E; cbn in E; [injection E as <-; intros ? ? ? []|]. destruct (a_slices J ax (val_of a)) as [l|] eqn:El; [|discriminate]. cbn in E.
    change (rmapM _ s) with (slice_state J ax s) in E. destruct (slice_state J ax s) as [xs|] eqn:Es; [|discriminate]. cbn in E. injection E as <-.
    intros k1 a1 l1 [H|H]; [injection H as <- <- <-; split; [now left|eauto]|]. destruct (IH xs eq_refl _ _ _ H). split; [now right|auto]. }
  destruct (G _ _ E _ _ _ Hin) as [H1 [v Hv]]. apply with_value_plain; [apply (P _ _ H1)|]. destruct (nth_in_or_default i l PyNone) as [H|H]; [eapply ao_slices; eauto|rewrite H; exact Logic.I].
Qed.
Lemma slice_states_plain J : arrays_ok J -> forall l axes sl, Forall plain_state l -> slice_states J axes l = Ok sl -> forall i, Forall plain_state (map (slice_at i) sl).
Proof.
  intros HJ. induction l as [|s l IH]; intros axes sl P E i; destruct axes as [|[g ax] axes]; cbn in E; try (injection E as <-; constructor).
  destruct (slice_state J ax s) as [x|] eqn:E1; [|discriminate]. cbn in E. destruct (slice_states J axes l) as [xs|] eqn:E2; [|discriminate]. cbn in E. injection E as <-. inversion P; subst. cbn. constructor; [eapply slice_state_plain; eauto|eapply IH; eauto].
Qed.
Lemma stack_states_plain J ax l x : arrays_ok J -> Forall plain_state l -> stack_states J ax l = Ok x -> plain_state x.
Proof.
  intros HJ P E. unfold stack_states in E. destruct l as [|s rest]; [discriminate|]. destruct (forallb _ rest); [|discriminate]. injection E as <-. inversion P; subst.
  intros k a Hi. apply in_map_iff in Hi as ([k' a'] & E1 & Hin). cbn in E1. injection E1 as <- <-. apply with_value_plain; [apply (H1 _ _ Hin)|]. apply HJ.
Qed.
Lemma nth_plain i (l : list state) : Forall plain_state l -> plain_state (nth i l []).
Proof. intros H. destruct (nth_in_or_default i l []) as [K|K]; [rewrite Forall_forall in H; auto|rewrite K; intros k a []]. Qed.
Lemma stack_axes_plain J : arrays_ok J -> forall axes i l x, Forall (Forall plain_state) l -> stack_axes J axes i l = Ok x -> Forall plain_state x.
Proof.
  intros HJ. induction axes as [|[g ax] axes IH]; intros i l x P E; cbn in E; [injection E as <-; constructor|].
  destruct (stack_states J ax (map (fun x => nth i x []) l)) as [s|] eqn:E1; [|discriminate]. cbn in E. destruct (stack_axes J axes (S i) l) as [ss|] eqn:E2; [|discriminate]. cbn in E. injection E as <-.
  constructor; [|eapply IH; eauto]. eapply stack_states_plain; [exact HJ| |exact E1]. apply Forall_forall. intros y Hy. apply in_map_iff in Hy as (z & <- & Hz). rewrite Forall_forall in P. now apply nth_plain, P.
Qed.
Lemma stack_or_empty_plain J l x : arrays_ok J -> Forall plain_state l -> stack_or_empty J l = Ok x -> plain_state x.
Proof. intros HJ P E. destruct l; [injection E as <-; intros k a []|]. eapply stack_states_plain; eauto. Qed.

Lemma scan_core_safe {X Y Z} J o t (f : scanned_of X Y) w r c cut (join : list Y -> result Z) ctx ss : sound w -> arrays_ok J -> (forall pc c xs, runs safe (f pc c xs)) -> safe w (fst (fst (scan_core J o t f w r c cut join ctx ss))).
Proof.
  intros S HJ Hf. pose proof (safe_refl w S) as R. unfold scan_core. destruct (module_partition w r (o_filters o)) as [q|e] eqn:Eq; [|exact R]. destruct (part_plain _ _ _ _ S Eq) as [D Q].
  destruct (split3 (sts_list (p_states q))) as [[[axs b] cs]|] eqn:E3; [|exact R]. destruct (split3_plain _ _ _ _ Q E3) as (Qa & Qb & Qc).
  destruct (slice_states J (o_axes o) axs) as [sl|e] eqn:Es; cbn [rbind]; [|exact R]. destruct cut as [[lens xsl]|e]; cbn [rbind fst snd]; [|exact R].
  destruct (infer_length (o_length o) (leaf_lengths sl lens)) as [n|e]; cbn [rbind]; [|exact R]. destruct (scan_ctx (w_trace w) (o_split o) ctx ss) as [[pc|e] ss']; [|exact R].
  assert (Hx : Forall in_plain (scan_input n pc sl xsl)). { apply Forall_forall. intros x Hi. unfold scan_input in Hi. apply in_map_iff in Hi as (i & <- & _). unfold in_plain. cbn. eapply slice_states_plain; eauto. }
  destruct (scan_run_ok o t f (p_def q) b w cs c (scan_input n pc sl xsl) Hf D Qb S Qc Hx) as [S1 K].
  destruct (scan_run o t f (p_def q) b w cs c (scan_input n pc sl xsl)) as [w1 [[[[cs' c'] outs] last]|e]]; cbn [fst snd] in *; [|exact S1].
  destruct (K _ _ _ eq_refl) as (K1 & K2 & K3). cbn [fst] in K1.
  destruct (stack_axes J (o_axes o) 0 (map out_axs outs)) as [axs'|e] eqn:F1; cbn [rbind]; [|exact S1].
  destruct (stack_or_empty J (map out_b_new last)) as [bn|e] eqn:F2; cbn [rbind]; [|exact S1]. destruct (stack_or_empty J (map out_cs_new last)) as [cn|e] eqn:F3; cbn [rbind]; [|exact S1].
  destruct (join (map out_ys outs)) as [ys|e]; cbn [rbind]; [|exact S1].
  assert (U : Forall plain_state (axs' ++ [cs'; bn; cn])).
  { apply Forall_app. split; [eapply stack_axes_plain; [exact HJ| |exact F1]; apply Forall_forall; intros y Hy; apply in_map_iff in Hy as (z & <- & Hz); rewrite Forall_forall in K2; apply (K2 z Hz)|].
    constructor; [exact K1|]. constructor; [eapply stack_or_empty_plain; [exact HJ| |exact F2]|constructor; [eapply stack_or_empty_plain; [exact HJ| |exact F3]|constructor]];
      apply Forall_forall; intros y Hy; apply in_map_iff in Hy as (z & <- & Hz); rewrite Forall_forall in K3; apply (K3 z Hz). }
  pose proof (update_safe_st w1 r (Many (axs' ++ [cs'; bn; cn])) (safe_sound _ _ S1) U) as S2.
  destruct (update_state w1 r (UStates (Many (axs' ++ [cs'; bn; cn])))) as [w2 [u|e]]; cbn [fst snd] in *; eapply safe_trans; eauto.
Qed.
Lemma scan_safe J o t f w r c xs ctx ss : sound w -> arrays_ok J -> (forall pc c xs, runs safe (f pc c xs)) -> safe w (fst (fst (scan_apply J o t f w r c xs ctx ss))).
Proof. intros S HJ Hf. now apply scan_core_safe. Qed.

Definition lane_ok (l : lane) : Prop := wf_mdef (fst l) /\ Forall plain_state (fst (fst (snd l))) /\ plain_state (snd (fst (snd l))) /\ plain_state (snd (snd l)).
(** a constructor, used where [n] objects exist *)
Definition made (n : nat) (c : world -> world * result nat) : Prop :=
  forall w, sound w -> n <= List.length (w_heap w) -> safe w (fst (c w)) /\ forall m, snd (c w) = Ok m -> m < List.length (w_heap (fst (c w))).
Lemma init_lane_ok o ctor pc w : sound w -> made (List.length (w_heap w)) (ctor pc) -> safe w (fst (init_lane o ctor pc w)) /\ forall l, snd (init_lane o ctor pc w) = Ok l -> lane_ok l.
Proof.
  intros S Hc. unfold init_lane. destruct (Hc w S (le_n _)) as [S1 V]. destruct (ctor pc w) as [w1 [r|e]]; cbn [fst snd] in *; (split; [exact S1|]); [|discriminate].
  intros l H. destruct (module_partition w1 r (o_filters o)) as [q|] eqn:Eq; [|discriminate]. cbn [rbind] in H. destruct (part_plain _ _ _ _ (safe_sound _ _ S1) Eq) as [D Q].
  destruct (split3 (sts_list (p_states q))) as [[[axs b] cs]|] eqn:E3; [|discriminate]. injection H as <-. destruct (split3_plain _ _ _ _ Q E3) as (Qa & Qb & Qc). split; cbn; auto.
Qed.
Lemma vmap_init_ok J o t ctor n ctxs w : arrays_ok J -> sound w -> (forall pc, made (List.length (w_heap w)) (ctor pc)) ->
  safe w (fst (vmap_init J o t ctor n ctxs w)) /\ forall l, snd (vmap_init J o t ctor n ctxs w) = Ok l -> lane_ok l.
Proof.
  intros HJ S Hc. unfold vmap_init. destruct n as [|n]; [split; [now apply safe_refl|discriminate]|].
  destruct (init_lane_ok o ctor (ctxs 0) (set_trace w t) (trace_sound _ _ S) (Hc _)) as [S1 K]. destruct (init_lane o ctor (ctxs 0) (set_trace w t)) as [w1 [[d [[axs b] c]]|e]]; cbn [fst snd] in *;
    (split; [now apply (bracket w t)|]); [|discriminate]. intros l H. destruct (K _ eq_refl) as (K1 & K2 & K3 & K4). cbn [fst snd] in *.
  destruct (rmapM _ (seq 1 n)) as [rest|] eqn:Er; [|discriminate]. cbn [rbind] in H. destruct (forallb _ rest); [|discriminate].
  destruct (stack_axes J (o_axes o) 0 _) as [axs'|] eqn:Ea; [|discriminate]. cbn [rbind] in H. injection H as <-. split; [exact K1|]. cbn. split; [|auto].
  eapply stack_axes_plain; [exact HJ| |exact Ea]. constructor; [exact K2|]. apply Forall_forall. intros y Hy. apply in_map_iff in Hy as (z & <- & Hz).
  assert (G : forall l rest, rmapM (fun i => snd (init_lane o ctor (ctxs i) (set_trace w t))) l = Ok rest -> Forall lane_ok rest).
  { induction l as [|i l IH]; intros rs E; cbn in E; [injection E as <-; constructor|]. destruct (init_lane_ok o ctor (ctxs i) (set_trace w t) (trace_sound _ _ S) (Hc _)) as [_ K'].
    destruct (snd (init_lane o ctor (ctxs i) (set_trace w t))) as [x|]; [|discriminate]. cbn in E. destruct (rmapM _ l) as [xs|]; [|discriminate]. cbn in E. injection E as <-. constructor; auto. }
  pose proof (G _ _ Er) as GF. rewrite Forall_forall in GF. apply (GF z Hz).
Qed.
Definition scan_init_out (J : arrays) (o : scan_opts) (t : trace_state) (ctor : constructor) (w : world) (pc : option (pctx * (string -> bool))) : world * result lane :=
  match pc, o_axes o, o_length o with
  | None, [], _ => init_lane o ctor None w
  | _, _, None => (w, Err ValueError)
  | _, _, Some n => vmap_init J o t ctor n (fun i => option_map (fun pp => lane_keys (snd pp) n (fst pp) i) pc) w
  end.
Definition scan_init_rest (J : arrays) (o : scan_opts) (t : trace_state) (ctor : constructor) (w : world) (ctx : option context) (ss : list stream) : world * list stream * result nat :=
  match scan_ctx (w_trace w) (o_split o) ctx ss with
  | (Err e, ss') => (w, ss', Err e)
  | (Ok pc, ss') =>
      match scan_init_out J o t ctor w pc with
      | (w1, Err e) => (w1, ss', Err e)
      | (w1, Ok (d, (axs, b, c))) =>
          match (do axs' <- leave_axes o axs; merge w1 d (axs' ++ [b; c])) with
          | Err e => (w1, ss', Err e)
          | Ok (m, w2) => (w2, ss', Ok m)
          end
      end
  end.
Lemma scan_init_safe J o t ctor w ctx ss : arrays_ok J -> sound w -> (forall pc, made (List.length (w_heap w)) (ctor pc)) ->
  safe w (fst (fst (scan_init J o t ctor w ctx ss))) /\ forall m, snd (scan_init J o t ctor w ctx ss) = Ok m -> m < List.length (w_heap (fst (fst (scan_init J o t ctor w ctx ss)))).
Proof.
  intros HJ S Hc. pose proof (safe_refl w S) as R.
  assert (E : scan_init J o t ctor w ctx ss = (w, ss, Err ValueError) \/ scan_init J o t ctor w ctx ss = scan_init_rest J o t ctor w ctx ss).
  { unfold scan_init, scan_init_rest, scan_init_out. destruct (o_axes o); [now right|]. destruct (o_length o); [now right|now left]. }
  destruct E as [-> | ->]; [split; [exact R|discriminate]|]. unfold scan_init_rest.
  destruct (scan_ctx (w_trace w) (o_split o) ctx ss) as [[pc|e] ss']; cbn [fst snd]; [|split; [exact R|discriminate]]. cbv zeta.
  assert (K : safe w (fst (scan_init_out J o t ctor w pc)) /\ forall l, snd (scan_init_out J o t ctor w pc) = Ok l -> lane_ok l).
  { unfold scan_init_out. destruct pc as [pp|]; destruct (o_axes o) as [|a0 l0]; destruct (o_length o) as [n|]; cbn [fst snd]; try (split; [exact R|discriminate]); try (apply vmap_init_ok; auto); apply init_lane_ok; auto. }
  destruct (scan_init_out J o t ctor w pc) as [w1 [[d [[axs b] c]]|e]].
  2:{ cbn [fst snd] in *. split; [apply K|discriminate]. }
  cbn [fst snd] in *. destruct K as [S1 K]. destruct (K _ eq_refl) as (K1 & K2 & K3 & K4). cbn [fst snd] in *. destruct (leave_axes o axs) as [axs'|e] eqn:El; cbn [rbind fst snd]; [|split; [exact S1|discriminate]].
  destruct (merge w1 d (axs' ++ [b; c])) as [[m w2]|e] eqn:Em; cbn [fst snd]; [|split; [exact S1|discriminate]].
  assert (P1 : Forall plain_state (axs' ++ [b; c])). { apply Forall_app. split; [|auto]. apply plain_list_iff. eapply leave_plain; [|exact El]. now apply plain_list_iff. }
  destruct (merge_safe _ _ _ _ _ (safe_sound _ _ S1) K1 P1 Em) as [S2 V]. split; [eapply safe_trans; eauto|]. intros m' [= <-]. exact V.
Qed.

Lemma decorated_safe J o t f w r ctx ss : arrays_ok J -> sound w -> (forall pc, runs safe (f pc)) -> r < List.length (w_heap w) ->
  safe w (fst (fst (decorated_init J o t f w r ctx ss))).
Proof.
  intros HJ S Hf V. unfold decorated_init. destruct (scan_init_safe J o t (init_of f r) w ctx ss HJ S) as [S1 K].
  { intros pc w0 S0 L. unfold init_of. pose proof (Hf pc w0 r S0 ltac:(lia)) as S1. destruct (f pc w0 r) as [w1 [u|e]]; cbn [fst snd] in *; (split; [exact S1|]); [|discriminate].
    intros m [= <-]. apply (safe_valid _ _ _ S1). lia. }
  destruct (scan_init J o t (init_of f r) w ctx ss) as [[w1 ss'] [m|e]]; cbn [fst snd] in *; [|exact S1].
  pose proof (update_safe_mod w1 r m (safe_sound _ _ S1) (K m eq_refl)) as S2. destruct (update_state w1 r (UModule m)) as [w2 res]; cbn [fst snd] in *. eapply safe_trans; eauto.
Qed.
Lemma makes_made c : makes safe c -> forall n, made n c.
Proof. intros H n w S _. now apply H. Qed.
Lemma scan_new_safe J o t ctor cv ov w ctx ss : arrays_ok J -> sound w -> (forall pc, makes safe (ctor pc)) -> not_module cv -> not_module ov ->
  safe w (fst (fst (scan_new J o t ctor cv ov w ctx ss))).
Proof.
  intros HJ S Hc C O. unfold scan_new, scan_start. pose proof (safe_refl w S) as R. pose proof (new_safe w Scan_cls S) as S0. destruct (new_module w Scan_cls) as [r w0]; cbn [snd] in S0.
  specialize (S0 ltac:(cbn; auto)). destruct (setattr w0 r "module_constructor" (ARaw cv)) as [wa|e] eqn:Ea; cbn [rbind]; [|exact R].
  pose proof (setattr_safe _ _ _ _ _ (safe_sound _ _ S0) (raw_ok _ _ C) Ea) as Sa. pose proof (safe_trans _ _ _ S0 Sa) as S1.
  destruct (setattr wa r "options" (ARaw ov)) as [w1|e] eqn:Eb; cbn [rbind]; [|exact R].
  pose proof (setattr_safe _ _ _ _ _ (safe_sound _ _ S1) (raw_ok _ _ O) Eb) as Sb. pose proof (safe_trans _ _ _ S1 Sb) as S2.
  destruct (scan_init_safe J o t ctor w1 ctx ss HJ (safe_sound _ _ S2) (fun pc => makes_made _ (Hc pc) _)) as [S3 V].
  destruct (scan_init J o t ctor w1 ctx ss) as [[w2 ss'] [m|e]]; cbn [fst snd] in *; [|eapply safe_trans; eauto]. pose proof (safe_trans _ _ _ S2 S3) as S4.
  destruct (setattr w2 r "scan_module" (ARaw (PyMod m))) as [w3|e] eqn:E3; cbn [fst]; [|exact S4].
  eapply safe_trans; [exact S4|]. eapply setattr_safe; [apply (safe_sound _ _ S4)| |exact E3]. split; [exact Logic.I|]. intros x [= <-]. now apply V.
Qed.

(** ** init, apply *)
Lemma set_init_trace b w r w' : set_init_all b w r = Ok w' -> w_trace w' = w_trace w.
Proof.
  unfold set_init_all, for_each. generalize (dfs_fuel w) as fuel. intros fuel.
  assert (G : forall fuel w r vis w1 v1, on_all (fun w => w) (set_initializing b) "Module" fuel w r vis = Ok (w1, v1) -> w_trace w1 = w_trace w).
  { clear. induction fuel as [|fuel IH]; intros w r vis w1 v1 H; [discriminate|]. cbn [on_all] in H. destruct (get_obj w r) as [o|] eqn:Ho; [|discriminate].
    destruct (nmem (m_id o) vis); [now injection H as <- _|].
    assert (F : forall l w vis w1 v1, on_all_fields (on_all (fun w => w) (set_initializing b) "Module" fuel) l w vis = Ok (w1, v1) -> w_trace w1 = w_trace w).
    { induction l as [|[n [v|c]] l IHl]; intros w0 vis0 w2 v2 E; cbn in E; [now injection E as <- _|destruct v; try (eapply IHl; eauto; fail)|eapply IHl; eauto].
      destruct (on_all _ _ _ fuel w0 r0 vis0) as [[w3 v3]|] eqn:E3; [|discriminate]. cbn in E. rewrite (IHl _ _ _ _ E). eapply IH; eauto. }
    destruct (smem "Module" (m_cls o)).
    - unfold set_initializing at 1 in H. rewrite Ho in H. cbn [rbind] in H. destruct (get_obj (put_obj w r (set_init o b)) r); [|discriminate]. now apply F in H.
    - cbn [rbind] in H. destruct (get_obj w r); [|discriminate]. now apply F in H. }
  destruct (on_all _ _ _ fuel w r []) as [[w1 v1]|] eqn:E; [|discriminate]. cbn. intros [= <-]. eapply G; eauto.
Qed.
Lemma init_safe {A} (f : world -> nat -> world * result A) w r : sound w -> runs safe f -> r < List.length (w_heap w) -> safe w (fst (init_call w r (fun w => f w r))).
Proof.
  intros S Hf V. unfold init_call. destruct (set_init_all true w r) as [w1|e] eqn:E1; [|now apply safe_refl].
  assert (S1 : safe w w1). { apply step_safe; auto; [eapply st_init; eauto|eapply set_init_trace; eauto]. }
  pose proof (Hf w1 r (safe_sound _ _ S1) (safe_valid _ _ _ S1 V)) as S2. destruct (f w1 r) as [w2 res]; cbn [fst] in S2. pose proof (safe_trans _ _ _ S1 S2) as S3.
  destruct (set_init_all false w2 r) as [w3|e] eqn:E3; cbn [fst]; [|exact S3]. eapply safe_trans; [exact S3|]. apply step_safe; [eapply st_init; eauto|eapply set_init_trace; eauto|apply (safe_sound _ _ S3)].
Qed.
Lemma mdef_apply_safe {A} (f : world -> nat -> world * result A) w d ss : sound w -> runs safe f -> wf_mdef d -> Forall plain_state ss -> safe w (fst (mdef_apply w d ss f)).
Proof.
  intros S Hf D P. unfold mdef_apply. destruct (merge w d ss) as [[m w1]|e] eqn:E; [|now apply safe_refl]. destruct (merge_safe _ _ _ _ _ S D P E) as [S1 V].
  pose proof (Hf w1 m (safe_sound _ _ S1) V) as S2. pose proof (safe_trans _ _ _ S1 S2) as S3. destruct (f w1 m) as [w2 [out|e]]; cbn [fst] in *; [|exact S3]. destruct (module_partition w2 m []); exact S3.
Qed.
Lemma pure_call_safe {A} (f : world -> nat -> world * result A) w p : sound w -> runs safe f -> wf_mdef (p_def p) -> Forall plain_state (sts_list (p_states p)) -> safe w (fst (pure_call w p f)).
Proof.
  intros S Hf D P. unfold pure_call. destruct (pure_merge w p) as [[m w1]|e] eqn:E; [|now apply safe_refl]. destruct (merge_safe _ _ _ _ _ S D P E) as [S1 V].
  eapply safe_trans; [exact S1|]. apply Hf; [apply (safe_sound _ _ S1)|exact V].
Qed.
Lemma module_apply_safe {A} (f : world -> nat -> world * result A) w r : sound w -> runs safe f -> safe w (fst (module_apply w r f)).
Proof.
  intros S Hf. unfold module_apply. destruct (clone w r) as [[m w1]|e] eqn:E; [|now apply safe_refl]. unfold clone in E.
  destruct (module_partition w r []) as [p|] eqn:Ep; [|discriminate]. cbn [rbind] in E. destruct (part_plain _ _ _ _ S Ep) as [D P]. destruct (merge_safe _ _ _ _ _ S D P E) as [S1 V].
  pose proof (Hf w1 m (safe_sound _ _ S1) V) as S2. destruct (f w1 m) as [w2 [out|e]]; cbn [fst] in *; eapply safe_trans; eauto.
Qed.

(** ** constructors *)
Lemma assign_all_safe r items : forall w w', sound w -> Forall (fun ka => attr_ok w (snd ka)) items -> assign_all w r items = Ok w' -> safe w w'.
Proof.
  induction items as [|[n a] items IH]; intros w w' S P E; cbn in E; [injection E as <-; now apply safe_refl|]. inversion P as [|? ? P1 P2]; subst.
  destruct (setattr w r n a) as [w1|] eqn:E1; [|discriminate]. cbn in E. pose proof (setattr_safe _ _ _ _ _ S P1 E1) as S1. eapply safe_trans; [exact S1|]. apply IH; [apply (safe_sound _ _ S1)| |exact E].
  eapply Forall_impl; [|exact P2]. intros x Hx. eapply safe_attr; eauto.
Qed.
Lemma sequence_safe w xs r w' : sound w -> Forall (attr_ok w) xs -> new_sequence w xs = Ok (r, w') -> safe w w'.
Proof.
  intros S P E. unfold new_sequence in E. pose proof (new_safe w Sequence_cls S) as S0. destruct (new_module w Sequence_cls) as [r0 w0]; cbn [snd] in S0.
  specialize (S0 ltac:(cbn; auto)). destruct (assign_all w0 r0 (numbered 0 xs)) as [w2|] eqn:E2; [|discriminate]. cbn [rbind] in E.
  destruct (setattr w2 r0 "_length" _) as [w3|] eqn:E3; [|discriminate]. cbn [rbind] in E. injection E as _ <-.
  assert (S2 : safe w0 w2).
  { eapply assign_all_safe; [apply (safe_sound _ _ S0)| |exact E2]. clear E2 E3. generalize 0 as i. induction P as [|x xs Hx P IH]; intros i; cbn; constructor; auto. cbn. eapply safe_attr; [exact S0|exact Hx]. }
  pose proof (safe_trans _ _ _ S0 S2) as S4. eapply safe_trans; [exact S4|]. eapply setattr_safe; [apply (safe_sound _ _ S4)| |exact E3]. now apply raw_ok.
Qed.
Lemma dict_safe w items r w' : sound w -> Forall (fun ka => attr_ok w (snd ka)) items -> new_dict w items = Ok (r, w') -> safe w w'.
Proof.
  intros S P E. unfold new_dict in E. pose proof (new_safe w Dict_cls S) as S0. destruct (new_module w Dict_cls) as [r0 w0]; cbn [snd] in S0.
  specialize (S0 ltac:(cbn; auto)). destruct (assign_all w0 r0 items) as [w2|] eqn:E2; [|discriminate]. cbn [rbind] in E. injection E as _ <-.
  eapply safe_trans; [exact S0|]. eapply assign_all_safe; [apply (safe_sound _ _ S0)| |exact E2]. eapply Forall_impl; [|exact P]. intros x Hx. eapply safe_attr; eauto.
Qed.

Lemma assign_safe w r n a : sound w -> attr_ok w a -> safe w (fst (assign w r n a)).
Proof. intros S A. unfold assign. destruct (setattr w r n a) as [w'|] eqn:E; cbn; [eapply setattr_safe; eauto|now apply safe_refl]. Qed.
Definition env_ok (w : world) (env : dict (option attr)) : Prop := forall n a, dget n env = Some (Some a) -> attr_ok w a.
Definition field_ok (w : world) (f : fdecl) : Prop :=
  (forall v, f_default f = Default v -> attr_ok w (ARaw v)) /\ (forall g, f_default f = Factory g -> yields safe g) /\ (forall c s, f_kind f = Some (KVar c s) -> variable_class c).
Lemma init_field_safe env w r n f : sound w -> env_ok w env -> field_ok w f -> safe w (fst (init_field env w r n f)).
Proof.
  intros S En (F1 & F2 & _). unfold init_field. pose proof (safe_refl w S) as R.
  assert (G : forall g, f_default f = Factory g -> safe w (fst (match g w with (w1, Ok a) => assign w1 r n a | (w1, Err e) => (w1, Err e) end))).
  { intros g Hg. destruct (F2 g Hg w S) as [S1 K]. destruct (g w) as [w1 [a|e]]; cbn [fst snd] in *; [|exact S1]. eapply safe_trans; [exact S1|]. apply assign_safe; [apply (safe_sound _ _ S1)|now apply K]. }
  destruct (f_init f).
  - destruct (dget n env) as [[a|]|] eqn:E; [apply assign_safe; auto; eapply En; eauto|..]; (destruct (f_default f) as [|v|g] eqn:D; [exact R|apply assign_safe; auto|now apply G]).
  - destruct (f_default f) as [|v|g] eqn:D; [exact R|exact R|now apply G].
Qed.
Lemma field_mono w w' f : safe w w' -> field_ok w f -> field_ok w' f.
Proof. intros S (A & B & C). split; [|split; auto]. intros v Hv. eapply safe_attr; eauto. Qed.
Lemma init_fields_safe env r fs : forall w, sound w -> env_ok w env -> (forall n f, In (n, f) fs -> field_ok w f) -> safe w (fst (init_fields env r fs w)).
Proof.
  induction fs as [|[n f] fs IH]; intros w S En Hf; cbn [init_fields]; [now apply safe_refl|]. pose proof (init_field_safe env w r n f S En (Hf n f (or_introl eq_refl))) as S1.
  destruct (init_field env w r n f) as [w1 [u|e]]; cbn [fst] in S1; [|exact S1]. eapply safe_trans; [exact S1|]. apply IH; [apply (safe_sound _ _ S1)| |].
  - intros m a Hm. eapply safe_attr; eauto.
  - intros m g Hm. eapply field_mono; [exact S1|]. eapply Hf. right. exact Hm.
Qed.
Lemma put_vars_safe w r o n c : sound w -> get_obj w r = Some o -> In n (keys (m_vars o)) -> wf_container c -> safe w (put_obj w r (set_vars o (dset n (ACont c) (m_vars o)))).
Proof.
  intros [W M] O I C. pose proof (wf_objs _ W _ _ O) as Wo. split; [|reflexivity]. apply same_objs_good; auto.
  - apply put_vars_wf; auto; [apply NoDup_keys_dset; apply Wo|..].
    + rewrite In_keys_dset. intros [E|E]; [subst n|]; now apply (wfo_reserved _ _ Wo).
    + intros m y. rewrite dget_dset. destruct (String.eqb m n); [discriminate|]. apply (wfo_refs _ _ Wo).
    + intros m a. rewrite dget_dset. destruct (String.eqb m n); [intros [= <-]; exact C|]. apply (wfo_attrs _ _ Wo).
  - cbn. now rewrite list_set_length.
  - intros x ox Hx. destruct (Nat.eq_dec r x) as [<-|Hne].
    + eexists. split; [eapply get_put_same; eauto|]. assert (ox = o) by congruence. subst. auto.
    + exists ox. rewrite get_put_other; auto.
Qed.
Lemma wrap_vars_safe r fs : forall w, sound w -> (forall n f, In (n, f) fs -> forall c s, f_kind f = Some (KVar c s) -> variable_class c) -> safe w (fst (wrap_vars r fs w)).
Proof.
  induction fs as [|[n f] fs IH]; intros w S Hf; cbn [wrap_vars]; [now apply safe_refl|]. assert (Hf' : forall n f, In (n, f) fs -> forall c s, f_kind f = Some (KVar c s) -> variable_class c) by (intros; eapply Hf; [right|]; eauto).
  pose proof (safe_refl w S) as R. destruct (f_kind f) as [k|] eqn:Fk; [|now apply IH]. destruct (get_obj w r) as [o|] eqn:O; [|exact R]. destruct (dget n (m_vars o)) as [a|] eqn:D; [|exact R].
  destruct (call_kind k a) as [c|e] eqn:Ck; [|exact R].
  assert (Wk : wf_kind k) by (intros c0 s0 ->; eapply Hf; [left; reflexivity|exact Fk]).
  assert (Wc : wf_container c).
  { destruct (kind_call k a Wk) as [[_ E]|[_ E]]; [eapply wfo_attrs; [apply (wf_objs _ (proj1 S) _ _ O)|exact D]| |congruence]. rewrite E in Ck. injection Ck as <-. now apply kind_wf. }
  assert (I : In n (keys (m_vars o))) by (eapply dget_In_keys; eauto).
  pose proof (put_vars_safe w r o n c S O I Wc) as S1. eapply safe_trans; [exact S1|]. apply IH; [apply (safe_sound _ _ S1)|exact Hf'].
Qed.
Lemma bind_params_ok w ps : forall args kw env, Forall (attr_ok w) args -> (forall k a, dget k kw = Some a -> attr_ok w a) -> bind_params ps args kw = Ok env -> env_ok w env.
Proof.
  induction ps as [|[n f] ps IH]; intros args kw env A K E; cbn in E; [destruct args; [injection E as <-; intros m a Hm; discriminate|discriminate]|].
  assert (G : forall x args' l, Forall (attr_ok w) args' -> bind_params ps args' kw = Ok l -> (forall a, x = Some a -> attr_ok w a) -> env_ok w ((n, x) :: l)).
  { intros x args' l A' E' X m a. cbn. destruct (String.eqb m n); [intros [= ->]; now apply X|]. intros Hm. eapply IH; eauto. }
  destruct args as [|a args].
  - destruct (dget n kw) as [a|] eqn:Ek.
    + destruct (bind_params ps [] kw) as [l|] eqn:El; [|discriminate]. cbn in E. injection E as <-. eapply G; eauto. intros b [= <-]. eapply K; eauto.
    + destruct (has_default f); [|discriminate]. destruct (bind_params ps [] kw) as [l|] eqn:El; [|discriminate]. cbn in E. injection E as <-. eapply G; eauto. discriminate.
  - destruct (dmem n kw); [discriminate|]. inversion A; subst. destruct (bind_params ps args kw) as [l|] eqn:El; [|discriminate]. cbn in E. injection E as <-. eapply G; eauto. intros b [= <-]. assumption.
Qed.
Lemma construct_safe d args kw w : sound w -> class_ok safe w d -> good_call w args kw -> safe w (fst (construct d args kw w)).
Proof.
  intros S (C1 & C2 & C3 & C4) [G1 G2]. unfold construct. destruct (dmem "self" kw); [now apply safe_refl|].
  pose proof (new_safe w (d_cls d) S C1) as S0. destruct (new_module w (d_cls d)) as [r w0] eqn:En; cbn [snd] in S0.
  assert (V : r < List.length (w_heap w0)). { unfold new_module in En. injection En as <- <-. cbn. rewrite app_length. cbn. lia. }
  assert (K : safe w0 (fst (generated_init d args kw w0 r))).
  { unfold generated_init, bind_call. destruct (forallb _ (keys kw)); cbn [fst]; [|apply safe_refl; apply (safe_sound _ _ S0)].
    destruct (bind_params (params (d_fields d)) args kw) as [env|e] eqn:Eb; cbn [fst]; [|apply safe_refl; apply (safe_sound _ _ S0)].
    assert (En0 : env_ok w0 env). { intros m a Hm. eapply safe_attr; [exact S0|]. eapply bind_params_ok; eauto. }
    assert (S1 : safe w0 (fst (init_fields env r (d_fields d) w0))).
    { apply init_fields_safe; [apply (safe_sound _ _ S0)|exact En0|]. intros n f Hn. destruct (C3 n f Hn) as [K1 K2]. split; [|split; auto]. intros v Hv. eapply safe_attr; [exact S0|]. eapply C2; eauto. }
    destruct (init_fields env r (d_fields d) w0) as [w1 [u|e]]; cbn [fst] in *; [|exact S1]. destruct (d_post d) as [p|]; [|exact S1].
    eapply safe_trans; [exact S1|]. apply (C4 p eq_refl); [apply (safe_sound _ _ S1)|eapply safe_valid; eauto]. }
  destruct (generated_init d args kw w0 r) as [w1 [u|e]]; cbn [fst] in *; pose proof (safe_trans _ _ _ S0 K) as S1; [|exact S1].
  pose proof (wrap_vars_safe r (d_fields d) w1 (safe_sound _ _ S1) (fun n f Hn => proj2 (C3 n f Hn))) as S2.
  destruct (wrap_vars r (d_fields d) w1) as [w2 [u2|e]]; cbn [fst] in *; eapply safe_trans; eauto.
Qed.
Lemma deepcopy_safe tc w r m w' : sound w -> r < List.length (w_heap w) -> closed w r -> deepcopy tc w r = Ok (m, w') -> safe w w'.
Proof.
  intros [W M] V C E. destruct (deepcopy_ok w r tc C) as (m1 & w1 & f & E1 & Hd & Htr & Hl & Hu). rewrite E in E1. injection E1 as <- <-.
  split; [|apply (dc_world _ _ _ _ _ Hd)]. constructor.
  - eapply heap_le; eauto.
  - intros x o Hx. destruct (get_obj w x) as [o0|] eqn:Ho.
    + pose proof (dc_kept _ _ _ _ _ Hd x o0 Ho) as K. assert (o0 = o) by congruence. subst. eapply M; eauto.
    + destruct (dc_only _ _ _ _ _ Hd x o Hx Ho) as (y & Hy & <-). destruct (get_obj_ex _ _ (C y Hy)) as [p Hp]. destruct (dc_same _ _ _ _ _ Hd y p Hy Hp) as (o' & Ho' & Hc & _).
      assert (o' = o) by congruence. subst. rewrite Hc. eapply M; eauto.
  - split; [exact Hu|]. intros x o Ho. exists o. split; [now apply (dc_kept _ _ _ _ _ Hd)|auto].
Qed.

(** ** all histories *)
Lemma history_safe : forall w w', history w w' -> sound w -> safe w w'.
Proof.
  fix IH 3. intros w w' H S. destruct H.
  - now apply safe_refl.
  - pose proof (IH _ _ H S) as S1. eapply safe_trans; [exact S1|]. exact (IH _ _ H0 (safe_sound _ _ S1)).
  - now apply step_safe.
  - apply jit_safe; [exact S|]. intros a k w0 r0 S0 V0. exact (IH _ _ (H a k w0 r0 S0 V0) S0).
  - apply grad_safe; [exact S|]. intros a w0 r0 S0 V0. exact (IH _ _ (H a w0 r0 S0 V0) S0).
  - apply remat_safe; [exact S|]. intros a c w0 r0 S0 V0. exact (IH _ _ (H a c w0 r0 S0 V0) S0).
  - apply remat_new_safe; auto. intros w0 S0. destruct (H w0 S0) as [K L]. split; [exact (IH _ _ K S0)|exact L].
  - apply scan_safe; [exact S|exact H|]. intros pc c0 xs0 w0 r0 S0 V0. exact (IH _ _ (H0 pc c0 xs0 w0 r0 S0 V0) S0).
  - apply scan_init_safe; [exact H|exact S|]. intros pc w0 S0 _. destruct (H0 pc w0 S0) as [K L]. split; [exact (IH _ _ K S0)|exact L].
  - apply decorated_safe; [exact H|exact S| |exact H1]. intros pc w0 r0 S0 V0. exact (IH _ _ (H0 pc w0 r0 S0 V0) S0).
  - apply scan_new_safe; auto. intros pc w0 S0. destruct (H0 pc w0 S0) as [K L]. split; [exact (IH _ _ K S0)|exact L].
  - apply init_safe; [exact S| |exact H0]. intros w0 r0 S0 V0. exact (IH _ _ (H w0 r0 S0 V0) S0).
  - apply mdef_apply_safe; auto. intros w0 r0 S0 V0. exact (IH _ _ (H w0 r0 S0 V0) S0).
  - apply module_apply_safe; auto. intros w0 r0 S0 V0. exact (IH _ _ (H w0 r0 S0 V0) S0).
  - apply pure_call_safe; auto. intros w0 r0 S0 V0. exact (IH _ _ (H w0 r0 S0 V0) S0).
  - eapply sequence_safe; eauto.
  - eapply dict_safe; eauto.
  - apply construct_safe; [exact S| |exact H0]. destruct H as (C1 & C2 & C3 & C4). split; [exact C1|]. split; [exact C2|]. split.
    + intros n f Hn. destruct (C3 n f Hn) as [K1 K2]. split; [|exact K2]. intros g Hg w0 S0. destruct (K1 g Hg w0 S0) as [L1 L2]. split; [exact (IH _ _ L1 S0)|exact L2].
    + intros p Hp w0 r0 S0 V0. exact (IH _ _ (C4 p Hp w0 r0 S0 V0) S0).
  - eapply deepcopy_safe; eauto.
Qed.

(** programs make histories *)
Lemma run_history {A} (p : prog A) : ok_prog p -> forall w env, sound w -> Forall (fun x => x < List.length (w_heap w)) env -> history w (fst (run p w env)).
Proof.
  induction 1 as [res|c k Hc Hk IH]; intros w env S V; cbn [run]; [apply h_none|].
  assert (G : exists w' env' a, exec w env c = (w', env', a) /\ history w w' /\ ok_ans a /\ Forall (fun x => x < List.length (w_heap w')) env').
  { assert (Vn : forall i x, nth_error env i = Some x -> x < List.length (w_heap w)) by (intros i x Hi; rewrite Forall_forall in V; apply V; eapply nth_error_In; eauto).
    assert (Keep : forall w', safe w w' -> Forall (fun x => x < List.length (w_heap w')) env) by (intros w' S'; eapply Forall_impl; [|exact V]; intros x Hx; eapply safe_valid; eauto).
    destruct c as [i n|i n a|i n j|i n|c|i|i j|i|i x]; cbn [exec].
    - destruct (nth_error env i) as [x|] eqn:Ei; [|do 3 eexists; split; [reflexivity|split; [apply h_none|split; [exact Logic.I|exact V]]]].
      destruct (get_obj w x) as [o|] eqn:Ho; [|do 3 eexists; split; [reflexivity|split; [apply h_none|split; [exact Logic.I|exact V]]]].
      destruct (dget n (m_vars o)) as [a|] eqn:D; [|do 3 eexists; split; [reflexivity|split; [apply h_none|split; [exact Logic.I|exact V]]]].
      pose proof (wfo_attrs _ _ (wf_objs _ (proj1 S) _ _ Ho) _ _ D) as Wa.
      destruct a as [[| | | | |y|]|]; (do 3 eexists; split; [reflexivity|split; [apply h_none|split; [try exact Logic.I; (split; [exact Wa|reflexivity])|try exact V]]]).
      apply Forall_app. split; [exact V|]. constructor; [|constructor]. exact (wfo_refs _ _ (wf_objs _ (proj1 S) _ _ Ho) _ _ D).
    - destruct (nth_error env i) as [x|] eqn:Ei; [|do 3 eexists; split; [reflexivity|split; [apply h_none|split; [exact Logic.I|exact V]]]].
      destruct Hc as [Hc1 Hc2]. assert (Ao : attr_ok w a) by (split; [exact Hc1|]; intros y ->; discriminate).
      destruct (setattr w x n a) as [w'|e] eqn:E; (do 3 eexists; split; [reflexivity|]); [|split; [apply h_none|split; [exact Logic.I|exact V]]].
      split; [|split; [exact Logic.I|apply Keep; eapply setattr_safe; eauto]]. apply h_step; [econstructor; eauto|apply (setattr_shape _ _ _ _ _ E)].
    - destruct (nth_error env i) as [x|] eqn:Ei; [|do 3 eexists; split; [reflexivity|split; [apply h_none|split; [exact Logic.I|exact V]]]].
      destruct (nth_error env j) as [y|] eqn:Ej; [|do 3 eexists; split; [reflexivity|split; [apply h_none|split; [exact Logic.I|exact V]]]].
      assert (Ao : attr_ok w (ARaw (PyMod y))) by (split; [exact Logic.I|]; intros z [= <-]; eapply Vn; eauto).
      assert (T : exists w' env' a, match setattr w x n (ARaw (PyMod y)) with Ok w' => (w', env, ADone) | Err e => (w, env, ARaised e) end = (w', env', a) /\ history w w' /\ ok_ans a /\ Forall (fun x => x < List.length (w_heap w')) env').
      { destruct (setattr w x n (ARaw (PyMod y))) as [w'|e] eqn:E; (do 3 eexists; split; [reflexivity|]); [|split; [apply h_none|split; [exact Logic.I|exact V]]].
        split; [|split; [exact Logic.I|apply Keep; eapply setattr_safe; eauto]]. apply h_step; [econstructor; eauto|apply (setattr_shape _ _ _ _ _ E)]. }
      destruct (get_obj w x) as [o|]; [|do 3 eexists; split; [reflexivity|split; [apply h_none|split; [exact Logic.I|exact V]]]].
      destruct (dget n (m_vars o)) as [[]|]; try exact T. do 3 eexists; split; [reflexivity|split; [apply h_none|split; [exact Logic.I|exact V]]].
    - destruct (nth_error env i) as [x|] eqn:Ei; [|do 3 eexists; split; [reflexivity|split; [apply h_none|split; [exact Logic.I|exact V]]]].
      destruct (delattr w x n) as [w'|e] eqn:E; (do 3 eexists; split; [reflexivity|]); [|split; [apply h_none|split; [exact Logic.I|exact V]]].
      assert (T : w_trace w' = w_trace w) by (destruct (delattr_inv _ _ _ _ E) as (o & _ & _ & ->); reflexivity).
      split; [|split; [exact Logic.I|apply Keep; apply step_safe; [eapply st_delattr; eauto|exact T|exact S]]]. apply h_step; [eapply st_delattr; eauto|exact T].
    - unfold new_module. do 3 eexists; split; [reflexivity|]. pose proof (h_step _ _ (st_new w c Hc) eq_refl) as Hh. split; [exact Hh|]. split; [exact Logic.I|].
      apply Forall_app. cbn. rewrite app_length. cbn. split; [eapply Forall_impl; [|exact V]; cbn; intros; lia|constructor; [lia|constructor]].
    - destruct (nth_error env i) as [x|] eqn:Ei; [|do 3 eexists; split; [reflexivity|split; [apply h_none|split; [exact Logic.I|exact V]]]].
      destruct (get_obj w x); do 3 eexists; (split; [reflexivity|split; [apply h_none|split; [exact Logic.I|exact V]]]).
    - destruct (nth_error env i) as [x|]; [destruct (nth_error env j)|]; do 3 eexists; (split; [reflexivity|split; [apply h_none|split; [exact Logic.I|exact V]]]).
    - destruct (nth_error env i) as [x|] eqn:Ei; [|do 3 eexists; split; [reflexivity|split; [apply h_none|split; [exact Logic.I|exact V]]]].
      destruct (get_state w x) as [s|e] eqn:Es; do 3 eexists; (split; [reflexivity|split; [apply h_none|split; [|exact V]]]); [|exact Logic.I]. apply plain_state_iff. eapply get_state_plain; [apply S|exact Es].
    - destruct (nth_error env i) as [m|] eqn:Ei; [|do 3 eexists; split; [reflexivity|split; [apply h_none|split; [exact Logic.I|exact V]]]].
      assert (P : Forall plain_state (sts_list x)) by (apply plain_list_iff; exact Hc).
      pose proof (update_safe_st w m x S P) as S1. destruct (update_state w m (UStates x)) as [w' [u|e]] eqn:E; cbn [fst] in S1; do 3 eexists;
        (split; [reflexivity|]); (split; [apply h_step; [eapply (st_update w m (UStates x)); [exact P|exact E]|apply S1]|]); (split; [exact Logic.I|now apply Keep]). }
  destruct G as (w' & env' & a & E & H1 & H2 & H3). rewrite E. eapply h_then; [exact H1|]. apply IH; [exact H2| |exact H3]. apply (safe_sound w). now apply history_safe.
Qed.
