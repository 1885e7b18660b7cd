(** Histories of calls, direct and through transforms. *)
From Coq Require Import ZArith Lia.
From Verif Require Import PyBase PyBaseFacts ValuesM Spec_Eq FiltersM StateM ModuleM ContextM TransformM JitArgsM SpmdM ScanM RematArgsM.
From Verif Require Import Spec_State State_proofs Spec_Module Spec_Prog Spec_JitArgs Spec_RematArgs Spec_Mixed.
From Verif Require Import Graph_facts Dfs_proofs Bisim_proofs Write_proofs Laws_proofs Clone_proofs Prog_proofs Transform_proofs Context_proofs Scan_proofs JitArgs_proofs RematArgs_proofs.
Local Open Scope string_scope.
Local Open Scope list_scope.

(** ** assignments keep the trace of an object *)
Definition traces_kept (w w' : world) : Prop := forall x o, get_obj w x = Some o -> exists o', get_obj w' x = Some o' /\ m_trace o' = m_trace o.
Lemma set_path_traces w p a : forall r w', set_path w r p a = Ok w' -> traces_kept w w'.
Proof.
  induction p as [|m p IH]; intros r w' H x o Ho; [discriminate|]. destruct p as [|m' p].
  - cbn [set_path] in H. apply setattr_inv in H as (o1 & a' & G1 & _ & _ & _ & ->). destruct (Nat.eq_dec r x) as [<-|Hn].
    + rewrite (get_put_same _ _ _ _ G1). eexists. split; [reflexivity|]. assert (o1 = o) by congruence. now subst.
    + rewrite get_put_other by exact Hn. eauto.
  - change (set_path w r (m :: m' :: p) a) with
      (match get_obj w r with None => Err OutOfModel | Some o => match dget m (m_vars o) with
         | Some (ARaw (PyMod r')) => set_path w r' (m' :: p) a | Some _ => Err OutOfModel
         | None => if String.eqb m "_module__state" then Err OutOfModel else Err KeyError end end) in H.
    destruct (get_obj w r) as [o1|]; [|discriminate]. destruct (dget m (m_vars o1)) as [[[]|]|]; try discriminate.
    + eapply IH; eauto.
    + destruct (String.eqb m "_module__state"); discriminate.
Qed.
Lemma update_loop_traces items : forall w r w' res, update_loop w r items = (w', res) -> traces_kept w w'.
Proof.
  induction items as [|[k a] items IH]; intros w r w' res H x o Ho; cbn in H; [injection H as <- <-; eauto|].
  destruct (set_path w r (split_slash k) a) as [w1|e] eqn:E; [|injection H as <- <-; eauto].
  destruct (set_path_traces _ _ _ _ _ E _ _ Ho) as (o1 & Ho1 & E1). destruct (IH _ _ _ _ H _ _ Ho1) as (o2 & Ho2 & E2). exists o2. split; [exact Ho2|congruence].
Qed.
Lemma update_traces w r u w' res : update_state w r (UStates u) = (w', res) -> traces_kept w w'.
Proof.
  unfold update_state. destruct (get_state w r); [|intros [= <- <-] x o; eauto]. intros H. eapply update_loop_traces. exact H.
Qed.
Lemma jit_traces {A} (f : prog A) w r t stateful w4 res :
  ok_prog f -> wf_world w -> valid w r -> names_ok w r -> live w r -> jit_call stateful t (user_fun f) w r = (w4, res) -> traces_kept w w4.
Proof.
  intros Hf Hw Hr Hno Hlive H x o Ho. destruct (partition_all w r Hw Hr) as (p & s & Hp & Es).
  destruct (inner_run f w r [] p t [s] Hf Hw Hr Hno Hlive Hp) as (m & w1 & wd' & w2 & res' & Hm & E1 & E2 & W1 & W2 & V2 & Vd & N1 & N2 & Hun & Hst).
  { rewrite Es. reflexivity. }
  apply Hun in Ho. unfold jit_call, jitted_fn in H. rewrite Hp in H. unfold pure_merge in H. rewrite Es in H. cbn [sts_list] in H.
  rewrite Hm, E2 in H. destruct res' as [out|e]; [|injection H as <- <-; eauto].
  destruct stateful; [|injection H as <- <-; eauto].
  destruct (get_state (set_trace w2 (w_trace w)) m) as [u|e]; [|injection H as <- <-; eauto].
  destruct (update_state (set_trace w2 (w_trace w)) r (UStates (One u))) as [w5 [[]|e]] eqn:E; injection H as <- <-; eapply update_traces; eauto.
Qed.

(** ** grad *)
Definition undone (w w' : world) : Prop := all_unchanged w w' /\ w_trace w' = w_trace w /\ wf_world w' /\ w_nodes w' = w_nodes w.
Lemma grad_traces (f : prog pyval) w r wrt t g has_aux pred w4 res :
  ok_prog f -> wf_world w -> valid w r -> names_ok w r -> live w r -> to_predicate wrt = Ok pred ->
  grad_call true has_aux wrt t g (user_fun f) w r = (w4, res) -> traces_kept w w4.
Proof.
  intros Hf Hw Hr Hno Hlive Hpr H x o Ho. destruct (grad_parts w r wrt pred Hw Hr Hpr) as (diff & nondiff & p & Hp & Es & Hfl).
  destruct (inner_run f w r _ p t [diff; nondiff] Hf Hw Hr Hno Hlive Hp) as (m & w1 & wd' & w2 & res' & Hm & E1 & E2 & W1 & W2 & V2 & Vd & N1 & N2 & Hun & Hst).
  { rewrite Es. reflexivity. }
  apply Hun in Ho. unfold grad_call in H. rewrite Hpr in H. cbn [rbind] in H. rewrite Hp, Es, Hm, E2 in H.
  destruct res' as [out|e]; [|injection H as <- <-; eauto].
  destruct (if has_aux then _ else _) as [aux|e]; [|injection H as <- <-; eauto].
  destruct (get_state (set_trace w2 (w_trace w)) m) as [u|e]; [|injection H as <- <-; eauto].
  destruct (update_state (set_trace w2 (w_trace w)) r (UStates (One u))) as [w5 [[]|e]] eqn:E; injection H as <- <-; eapply update_traces; eauto.
Qed.
Lemma grad_undone (f : prog pyval) w r wrt t g stateful has_aux wd res aux pred :
  ok_prog f -> wf_world w -> valid w r -> names_ok w r -> live w r -> to_predicate wrt = Ok pred ->
  user_fun f w r = (wd, res) -> (stateful = false \/ exists e, res = Err e) -> (forall out, res = Ok out -> aux_of stateful has_aux out = Ok aux) ->
  exists w4 diff, module_filter w r wrt [] = Ok (One diff) /\
    grad_call stateful has_aux wrt t g (user_fun f) w r = (w4, match res with Ok _ => Ok (grad_tree g diff, aux) | Err e => Err e end) /\ undone w w4.
Proof.
  intros Hf Hw Hr Hno Hlive Hpr Hrun Hs Haux. destruct (grad_parts w r wrt pred Hw Hr Hpr) as (diff & nondiff & p & Hp & Es & Hfl).
  destruct (inner_run f w r _ p t [diff; nondiff] Hf Hw Hr Hno Hlive Hp) as (m & w1 & wd' & w2 & res' & Hm & E1 & E2 & W1 & W2 & V2 & Vd & N1 & N2 & Hun & Hst).
  { rewrite Es. reflexivity. }
  rewrite Hrun in E1. injection E1 as <- <-.
  exists (set_trace w2 (w_trace w)), diff. split; [exact Hfl|]. unfold grad_call. rewrite Hpr. cbn [rbind]. rewrite Hp, Es, Hm, E2.
  split; [|unfold undone; auto using set_trace_wf]. destruct res as [out|e]; [|reflexivity].
  destruct Hs as [->|[e ?]]; [|discriminate]. specialize (Haux out eq_refl). unfold aux_of in Haux. rewrite Haux. reflexivity.
Qed.

(** ** what holds of a module holds of a bisimilar one *)
Lemma pair_undone w w' wd R : pair w wd R -> undone w w' -> pair w' wd R.
Proof.
  intros [B Wf Wf' N Li Li'] (U & T & W2 & N2). constructor; auto; try congruence.
  - destruct B as [B1 B2 B3]. constructor; auto. intros x y H. destruct (B1 x y H) as (o & o' & A1 & A2 & A3). exists o, o'. split; [now apply U|auto].
  - intros x y o H Ho. rewrite T. apply (Li x y o H). destruct (bi_obj _ _ _ B x y H) as (o1 & o' & A1 & _). rewrite (U _ _ A1) in Ho. congruence.
Qed.
Lemma pair_sym w w' R : pair w w' R -> pair w' w (fun x y => R y x).
Proof. intros [B Wf Wf' N Li Li']. constructor; auto. - now apply bisim_sym. - intros x y o H. now apply (Li' y x). - intros x y o H. now apply (Li y x). Qed.

Section Same.
Variables (w wd : world) (R : nat -> nat -> Prop) (r : nat).
Hypothesis P : pair w wd R.
Hypothesis Hr : R r r.

Lemma same_valid : valid w r.
Proof. exact (proj1 (bisim_valid _ _ _ _ _ (pr_bi _ _ _ P) Hr)). Qed.
Lemma same_names : names_ok wd r -> names_ok w r.
Proof. intros H. eapply (bisim_names wd w); [apply bisim_sym; apply P|symmetry; apply P|exact Hr|exact H]. Qed.
Lemma same_live : live w r.
Proof.
  intros x o Hx Ho. destruct (bisim_reaches _ _ _ _ _ _ (pr_bi _ _ _ P) Hr Hx) as (y & _ & Hxy). exact (pr_live _ _ _ P x y o Hxy Ho).
Qed.
Lemma same_state : get_state w r = get_state wd r.
Proof. eapply bisim_get_state; [apply P|apply P|apply P|apply P|exact Hr]. Qed.
Lemma same_jax : names_ok wd r -> jax_module wd r -> jax_module w r.
Proof.
  intros N J. assert (V : valid w r) by exact same_valid. assert (Vd : valid wd r) by exact (proj2 (bisim_valid _ _ _ _ _ (pr_bi _ _ _ P) Hr)).
  destruct (get_state_total w r (pr_wf _ _ _ P) V) as (s & S & _).
  apply (state_ok_iff w r s (pr_wf _ _ _ P) V (same_names N) S). apply (state_ok_iff wd r s (pr_wf' _ _ _ P) Vd N); [|exact J]. now rewrite <- same_state.
Qed.
Lemma same_filter wrt : module_filter w r wrt [] = module_filter wd r wrt [].
Proof. unfold module_filter. now rewrite same_state. Qed.
End Same.

Lemma node_rel w wd R x y n a : pair w wd R -> R x y -> is_submodule a = false -> node_attr wd y n a -> node_attr w x n a.
Proof.
  intros P H S (o & Ho & D & _ & t & T1 & T2). destruct (bi_obj _ _ _ (pr_bi _ _ _ P) _ _ H) as (o1 & o2 & A & B & _ & _ & E).
  assert (o2 = o) by congruence. subst o2. specialize (E n). rewrite D in E. exists o1. split; [exact A|].
  apply orel_flip in E. apply orel_val in E; [|exact S]. split; [exact E|]. split; [exact S|]. exists t. split; [|exact T2]. rewrite (pr_nodes _ _ _ P). exact T1.
Qed.

Lemma same_nodes_only w wd R w1 wd1 R1 r : pair w wd R -> R r r -> pair w1 wd1 R1 -> (forall x y, R x y -> R1 x y) -> w_nodes w1 = w_nodes w ->
  nodes_only wd wd1 r -> nodes_only w w1 r.
Proof.
  intros P Hr P1 I Nt [_ H]. split; [exact Nt|]. intros x Hx.
  destruct (bisim_reaches _ _ _ _ _ _ (pr_bi _ _ _ P) Hr Hx) as (y & Hy & Hxy). destruct (H y Hy) as (od & od1 & A & B & C & D & E).
  destruct (bi_obj _ _ _ (pr_bi _ _ _ P) _ _ Hxy) as (o & od' & A1 & A2 & A3 & A4 & A5). assert (od' = od) by congruence. subst od'.
  destruct (bi_obj _ _ _ (pr_bi _ _ _ P1) _ _ (I _ _ Hxy)) as (o1 & od1' & B1 & B2 & B3 & B4 & B5). assert (od1' = od1) by congruence. subst od1'.
  exists o, o1. split; [exact A1|]. split; [exact B1|]. split; [congruence|]. split; [congruence|]. intros n.
  specialize (E n). specialize (A5 n). specialize (B5 n).
  destruct (dget n (m_vars od)) as [a|] eqn:Da.
  - destruct (dget n (m_vars od1)) as [b|] eqn:Db; [|contradiction]. destruct E as [<-|(E1 & E2 & E3)].
    + destruct (is_submodule a) eqn:Es.
      * apply is_sub_inv in Es as [z ->]. apply orel_flip in A5, B5. apply orel_mod in A5 as (z1 & -> & Z1). apply orel_mod in B5 as (z2 & -> & Z2).
        left. do 2 f_equal. eapply (bi_inj _ _ _ (pr_bi _ _ _ P1)); [apply I; exact Z1|exact Z2].
      * apply orel_flip in A5, B5. apply orel_val in A5; [|exact Es]. apply orel_val in B5; [|exact Es]. rewrite A5, B5. now left.
    + assert (Sa : is_submodule a = false) by (destruct E1 as (? & _ & _ & ? & _); assumption).
      assert (Sb : is_submodule b = false) by (destruct E2 as (? & _ & _ & ? & _); assumption).
      apply orel_flip in A5, B5. apply orel_val in A5; [|exact Sa]. apply orel_val in B5; [|exact Sb]. rewrite A5, B5. right.
      split; [eapply node_rel; eauto|]. split; [eapply node_rel; eauto|exact E3].
  - pose proof (proj2 (orel_dom _ _ _ A5) eq_refl) as Dw. rewrite Dw. destruct (dget n (m_vars od1)) as [b|] eqn:Db.
    + assert (Sb : is_submodule b = false) by (destruct E as (? & _ & _ & ? & _); assumption).
      apply orel_flip in B5. apply orel_val in B5; [|exact Sb]. rewrite B5. eapply node_rel; eauto.
    + rewrite (proj2 (orel_dom _ _ _ B5) eq_refl). exact Logic.I.
Qed.

(** one run of a function, next to the direct one *)
Lemma side_run {A} (f : prog A) w wd R r wd1 res : ok_prog f -> pair w wd R -> R r r -> user_fun f wd r = (wd1, res) ->
  exists w1 R1, user_fun f w r = (w1, res) /\ pair w1 wd1 R1 /\ (forall x y, R x y -> R1 x y) /\ w_trace w1 = w_trace w /\ w_trace wd1 = w_trace wd /\ w_nodes w1 = w_nodes w /\
  (forall x o, get_obj w x = Some o -> (forall y, ~ R x y) -> get_obj w1 x = Some o /\ forall y, ~ R1 x y).
Proof.
  intros Hf P Hr E. destruct (run_pair f Hf w wd R [r] [r] P) as (w1 & wd1' & res' & R1 & E1 & E2 & M); [constructor; [exact Hr|constructor]|].
  unfold user_fun in *. rewrite E in E2. injection E2 as <- <-. exists w1, R1. split; [exact E1|]. destruct M as [M1 M2 M3 M4 M5 M6 M7 M8 M9 M10]. do 5 (split; [assumption|]).
  intros x o Ho Hn. assert (Hx := get_obj_lt _ _ _ Ho). split; [rewrite M4; auto|]. intros y Hy. apply M3 in Hy as [Hy|[Hy _]]; [now apply (Hn y)|lia].
Qed.
(** a stateful transform that carries the effect over *)
Lemma carried w w1 wd1 R1 r w4 : pair w1 wd1 R1 -> R1 r r -> live w r -> valid w r ->
  wf_world w4 -> w_trace w4 = w_trace w -> w_nodes w4 = w_nodes w1 -> traces_kept w w4 ->
  bisim w4 w1 (fun x y => x = y /\ reaches w r x) ->
  exists R4, pair w4 wd1 R4 /\ R4 r r /\ (forall x y, R4 x y -> R1 x y).
Proof.
  intros P1 Hr L V W4 T4 N4 K B. exists (fun x z => exists y, (x = y /\ reaches w r x) /\ R1 y z). split.
  - constructor.
    + eapply bisim_comp; [exact B|apply P1].
    + exact W4.
    + apply P1.
    + rewrite N4. apply P1.
    + intros x z o (y & (-> & Hx) & _) Ho. destruct Hx as [p Hp]. destruct (follow_valid _ _ _ _ Hp) as [o0 Ho0].
      destruct (K _ _ Ho0) as (o' & Ho' & E). assert (o' = o) by congruence. subst o'. rewrite E, T4. eapply L; [exists p; exact Hp|exact Ho0].
    + intros x z o (y & _ & H) Ho. exact (pr_live' _ _ _ P1 y z o H Ho).
  - split; [|intros x z (y & (-> & _) & H); exact H]. exists r. split; [|exact Hr]. split; [reflexivity|]. destruct (get_obj_ex _ _ V) as [o Ho]. eapply reaches_refl; exact Ho.
Qed.

Lemma aux_iff stateful has_aux out aux : aux_of stateful has_aux out = Ok aux <-> if has_aux then exists loss v, out = PyTuple [loss; v] /\ aux = Some v else aux = None.
Proof.
  unfold aux_of. destruct has_aux; [|split; [intros [= <-]; reflexivity|intros ->; reflexivity]]. split.
  - unfold unpack2. destruct out as [| | |s|[|l [|v [|]]]| |]; cbn [rmap rbind snd]; try discriminate.
    + destruct (stateful && _)%bool; discriminate.
    + destruct stateful; discriminate.
    + destruct stateful; discriminate.
    + intros [= <-]. eauto.
    + destruct stateful; discriminate.
  - intros (loss & v & -> & ->). reflexivity.
Qed.

Theorem mixed_run r l : forall wd ss wd2 ss2 xs, plainly r wd ss l wd2 ss2 xs -> forall w R, pair w wd R -> R r r -> w_trace w = w_trace wd ->
  exists w2 R2, do_steps r l w ss = (w2, ss2, xs) /\ pair w2 wd2 R2 /\ R2 r r /\ w_trace w2 = w_trace wd2 /\
    (forall x o, get_obj w x = Some o -> (forall y, ~ R x y) -> get_obj w2 x = Some o).
Proof.
  intros wd ss wd2 ss2 xs H.
  induction H as [wd ss|wd ss k pc ss1 wd1 res l wd2 ss2 xs C Hf Hrun _ IH
    |wd ss static stateful t k wd1 res l wd2 ss2 xs Kc Kn Kh Ka Nd Hf Hrun Hk Hx _ IH
    |wd ss a t k pc ss1 wd1 res l wd2 ss2 xs Kk C Kn Ka Nd Hf Hrun Hk Hx _ IH
    |wd ss stateful has_aux wrt t g f pred diff wd1 res x l wd2 ss2 xs Hp Hd Nd Hf Hrun Hk Hg _ IH]; intros w R P Hr T.
  - exists w, R. auto.
  - destruct (side_run (body k pc) w wd R r wd1 res Hf P Hr Hrun) as (w1 & R1 & E & P1 & I1 & T1 & Td1 & N1 & Fr).
    destruct (IH w1 R1 P1 (I1 _ _ Hr)) as (w2 & R2 & F & G1 & G2 & G3 & G4). { congruence. }
    exists w2, R2. split; [|split; [exact G1|split; [exact G2|split; [exact G3|intros x o Ho Hn; destruct (Fr x o Ho Hn); auto]]]]. cbn [do_steps do_step]. rewrite T, (ctx_given_is _ _ _ _ _ C), E, F. reflexivity.
  - destruct (side_run (body k None) w wd R r wd1 res Hf P Hr Hrun) as (w1 & R1 & E & P1 & I1 & T1 & Td1 & N1 & Fr).
    assert (W : wf_world w) by apply P. assert (V := same_valid w wd R r P Hr). assert (N := same_names w wd R r P Hr Nd). assert (L := same_live w wd R r P Hr).
    destruct Ka as (Ka1 & Ka2 & Ka3). assert (G : args_ok w r static (k_args k) (k_kwargs k)) by (split; [eapply same_jax; eauto|auto]).
    set (F := fun a kw => k_fun k a kw None).
    assert (S : exists w4 R4, jit_call_args static stateful t (fun a kw => user_fun (F a kw)) w (ARaw (PyMod r)) (k_args k) (k_kwargs k) ss = (w4, ss, res) /\
      pair w4 (next stateful wd wd1 res) R4 /\ R4 r r /\ w_trace w4 = w_trace w /\
      (forall x o, get_obj w x = Some o -> (forall y, ~ R x y) -> get_obj w4 x = Some o /\ forall y, ~ R4 x y)).
    { assert (Q : (stateful = false \/ exists e, res = Err e) \/ exists out, stateful = true /\ res = Ok out).
      { destruct res as [out|e]; [|left; right; eauto]. destruct stateful; [right; eauto|left; now left]. }
      destruct Q as [Q|(out & -> & ->)].
      - destruct (through_undone static stateful t F w r (k_args k) (k_kwargs k) ss Hf W V N L Kn Kh G w1 res E Q) as (w4 & E4 & U).
        { intros out ->. apply (Hx out eq_refl). }
        exists w4, R. split; [exact E4|]. split; [|split; [exact Hr|split; [apply U|intros z o Hz Hn; split; [now apply U|exact Hn]]]].
        replace (next stateful wd wd1 res) with wd by (destruct Q as [-> |[e ->]]; [destruct res; reflexivity|reflexivity]).
        now apply (pair_undone w w4).
      - destruct (Hk out eq_refl eq_refl) as [HN Nd1]. destruct (Hx out eq_refl) as [Ho Hm].
        assert (N1' := same_names w1 wd1 R1 r P1 (I1 _ _ Hr) Nd1). assert (HN' := same_nodes_only w wd R w1 wd1 R1 r P Hr P1 I1 N1 HN).
        destruct (jit_same (F (k_args k) (k_kwargs k)) w r t w1 out Hf W V N L E HN' N1') as (w4 & E4 & W4 & T4 & N4 & B4 & Fr4).
        destruct (carried w w1 wd1 R1 r w4 P1 (I1 _ _ Hr) L V W4 T4) as (R4 & P4 & Hr4 & I4); [congruence|eapply jit_traces; [..|exact E4]; eauto|exact B4|].
        assert (Fr5 : forall z o, get_obj w z = Some o -> (forall y, ~ R z y) -> get_obj w4 z = Some o /\ forall y, ~ R4 z y) by (intros z o Hz Hn; split; [apply Fr4; [exact Hz|]; intros Hre; destruct (bisim_reaches _ _ _ _ _ _ (pr_bi _ _ _ P) Hr Hre) as (y & _ & Hy); exact (Hn y Hy)|intros y Hy; apply I4 in Hy; exact (proj2 (Fr z o Hz Hn) y Hy)]).
        exists w4, R4. split; [|auto]. rewrite (through_ok static true t F w r (k_args k) (k_kwargs k) ss Hf W V N L Kn Kh G w1 out E (fun _ => N1') Ho), E4; [reflexivity|].
        intros _. eapply same_jax; [exact P1|exact (I1 _ _ Hr)|exact Nd1|apply Hm; reflexivity]. }
    destruct S as (w4 & R4 & E4 & P4 & Hr4 & T4 & FrS). destruct (IH w4 R4 P4 Hr4) as (w2 & R2 & F2 & G2 & G3 & G4 & G5).
    { unfold next. destruct res; [destruct stateful|]; congruence. }
    exists w2, R2. split; [|split; [exact G2|split; [exact G3|split; [exact G4|intros z o Ho Hn; destruct (FrS z o Ho Hn); auto]]]]. cbn [do_steps do_step]. fold (F). change (fun a kw => user_fun (k_fun k a kw None)) with (fun a kw => user_fun (F a kw)). rewrite E4, F2. reflexivity.
  - destruct (side_run (body k pc) w wd R r wd1 res Hf P Hr Hrun) as (w1 & R1 & E & P1 & I1 & T1 & Td1 & N1 & Fr).
    assert (W : wf_world w) by apply P. assert (V := same_valid w wd R r P Hr). assert (N := same_names w wd R r P Hr Nd). assert (L := same_live w wd R r P Hr).
    destruct Ka as (Ka1 & Ka2). assert (G : remat_args_ok w r a (k_args k)) by (split; [eapply same_jax; eauto|auto]).
    set (F := fun x c => k_fun k x [] c). unfold body in Hf, E. rewrite Kk in Hf, E. rewrite <- T in C.
    assert (S : exists w4 R4, remat_args (remat_options a) t (fun x c => user_fun (F x c)) w r (k_args k) (k_ctx k) ss = (w4, ss1, res) /\
      pair w4 (next true wd wd1 res) R4 /\ R4 r r /\ w_trace w4 = w_trace w /\
      (forall x o, get_obj w x = Some o -> (forall y, ~ R x y) -> get_obj w4 x = Some o /\ forall y, ~ R4 x y)).
    { destruct res as [out|e].
      - destruct (Hk out eq_refl eq_refl) as [HN Nd1]. destruct (Hx out eq_refl) as [Ho Hm].
        assert (N1' := same_names w1 wd1 R1 r P1 (I1 _ _ Hr) Nd1). assert (HN' := same_nodes_only w wd R w1 wd1 R1 r P Hr P1 I1 N1 HN).
        destruct (jit_same (F (k_args k) pc) w r t w1 out Hf W V N L E HN' N1') as (w4 & E4 & W4 & T4 & N4 & B4 & Fr4).
        destruct (carried w w1 wd1 R1 r w4 P1 (I1 _ _ Hr) L V W4 T4) as (R4 & P4 & Hr4 & I4); [congruence|eapply jit_traces; [..|exact E4]; eauto|exact B4|].
        assert (Fr5 : forall z o, get_obj w z = Some o -> (forall y, ~ R z y) -> get_obj w4 z = Some o /\ forall y, ~ R4 z y) by (intros z o Hz Hn; split; [apply Fr4; [exact Hz|]; intros Hre; destruct (bisim_reaches _ _ _ _ _ _ (pr_bi _ _ _ P) Hr Hre) as (y & _ & Hy); exact (Hn y Hy)|intros y Hy; apply I4 in Hy; exact (proj2 (Fr z o Hz Hn) y Hy)]).
        exists w4, R4. split; [|auto]. rewrite (rthrough_ok a t F w r (k_args k) (k_ctx k) ss pc ss1 Hf W V N L C (nums_in _ _ Kn) G w1 out E N1' Ho), E4; [reflexivity|].
        eapply same_jax; [exact P1|exact (I1 _ _ Hr)|exact Nd1|apply Hm; reflexivity].
      - destruct (rthrough_undone a t F w r (k_args k) (k_ctx k) ss pc ss1 Hf W V N L C (nums_in _ _ Kn) G w1 e E) as (w4 & E4 & U).
        exists w4, R. split; [exact E4|]. split; [now apply (pair_undone w w4)|]. split; [exact Hr|split; [apply U|intros z o Hz Hn; split; [now apply U|exact Hn]]]. }
    destruct S as (w4 & R4 & E4 & P4 & Hr4 & T4 & FrS). destruct (IH w4 R4 P4 Hr4) as (w2 & R2 & F2 & G2 & G3 & G4 & G5).
    { unfold next. destruct res; congruence. }
    exists w2, R2. split; [|split; [exact G2|split; [exact G3|split; [exact G4|intros z o Ho Hn; destruct (FrS z o Ho Hn); auto]]]]. cbn [do_steps do_step]. change (fun x c => user_fun (k_fun k x [] c)) with (fun x c => user_fun (F x c)). rewrite E4, F2. reflexivity.
  - destruct (side_run f w wd R r wd1 res Hf P Hr Hrun) as (w1 & R1 & E & P1 & I1 & T1 & Td1 & N1 & Fr).
    assert (W : wf_world w) by apply P. assert (V := same_valid w wd R r P Hr). assert (N := same_names w wd R r P Hr Nd). assert (L := same_live w wd R r P Hr).
    rewrite <- (same_filter w wd R r P Hr) in Hd.
    assert (S : exists w4 R4, grad_call stateful has_aux wrt t g (user_fun f) w r = (w4, x) /\
      pair w4 (next stateful wd wd1 res) R4 /\ R4 r r /\ w_trace w4 = w_trace w /\
      (forall x o, get_obj w x = Some o -> (forall y, ~ R x y) -> get_obj w4 x = Some o /\ forall y, ~ R4 x y)).
    { assert (Q : (stateful = false \/ exists e, res = Err e) \/ exists out, stateful = true /\ res = Ok out).
      { destruct res as [out|e]; [|left; right; eauto]. destruct stateful; [right; eauto|left; now left]. }
      destruct Q as [Q|(out & -> & ->)].
      - assert (A : exists aux, (forall out, res = Ok out -> aux_of stateful has_aux out = Ok aux) /\ x = match res with Ok _ => Ok (grad_tree g diff, aux) | Err e => Err e end).
        { destruct res as [out|e]; cbn in Hg.
          - destruct Hg as (aux & grads & -> & -> & Ha). exists aux. split; [intros o [= <-]; now apply aux_iff|reflexivity].
          - exists None. split; [discriminate|exact Hg]. }
        destruct A as (aux & A1 & ->).
        destruct (grad_undone f w r wrt t g stateful has_aux w1 res aux pred Hf W V N L Hp E Q A1) as (w4 & diff' & D' & E4 & U).
        rewrite Hd in D'. injection D' as <-. exists w4, R. split; [exact E4|]. split; [|split; [exact Hr|split; [apply U|intros z o Hz Hn; split; [now apply U|exact Hn]]]].
        replace (next stateful wd wd1 res) with wd by (destruct Q as [-> |[e ->]]; [destruct res; reflexivity|reflexivity]).
        now apply (pair_undone w w4).
      - destruct (Hk out eq_refl eq_refl) as [HN Nd1]. cbn in Hg. destruct Hg as (aux & grads & -> & -> & Ha). apply (aux_iff true) in Ha.
        assert (N1' := same_names w1 wd1 R1 r P1 (I1 _ _ Hr) Nd1). assert (HN' := same_nodes_only w wd R w1 wd1 R1 r P Hr P1 I1 N1 HN).
        destruct (grad_same f w r wrt t g has_aux w1 out aux pred Hf W V N L Hp E Ha HN' N1') as (w4 & diff' & D' & E4 & W4 & T4 & N4 & B4 & Fr4).
        rewrite Hd in D'. injection D' as <-.
        destruct (carried w w1 wd1 R1 r w4 P1 (I1 _ _ Hr) L V W4 T4) as (R4 & P4 & Hr4 & I4); [congruence|eapply grad_traces; [..|exact E4]; eauto|exact B4|].
        assert (Fr5 : forall z o, get_obj w z = Some o -> (forall y, ~ R z y) -> get_obj w4 z = Some o /\ forall y, ~ R4 z y) by (intros z o Hz Hn; split; [apply Fr4; [exact Hz|]; intros Hre; destruct (bisim_reaches _ _ _ _ _ _ (pr_bi _ _ _ P) Hr Hre) as (y & _ & Hy); exact (Hn y Hy)|intros y Hy; apply I4 in Hy; exact (proj2 (Fr z o Hz Hn) y Hy)]).
        exists w4, R4. auto. }
    destruct S as (w4 & R4 & E4 & P4 & Hr4 & T4 & FrS). destruct (IH w4 R4 P4 Hr4) as (w2 & R2 & F2 & G2 & G3 & G4 & G5).
    { unfold next. destruct res; [destruct stateful|]; congruence. }
    exists w2, R2. split; [|split; [exact G2|split; [exact G3|split; [exact G4|intros z o Ho Hn; destruct (FrS z o Ho Hn); auto]]]]. cbn [do_steps do_step]. rewrite E4, F2. reflexivity.
Qed.

Lemma pair_refl w r : wf_world w -> valid w r -> live w r -> pair w w (fun x y => x = y /\ reaches w r x).
Proof.
  intros W V L. constructor; auto.
  - constructor.
    + intros x y [<- Hx]. destruct Hx as [p Hp]. destruct (follow_valid _ _ _ _ Hp) as [o Ho]. exists o, o. do 4 (split; [auto|]).
      intros n. destruct (dget n (m_vars o)) as [a|] eqn:D; [|exact Logic.I]. destruct (is_submodule a) eqn:S; [|now apply orel_refl_val].
      apply is_sub_inv in S as [z ->]. cbn. split; [reflexivity|]. eapply reaches_trans; [exists p; exact Hp|]. eapply reaches_child; [exact W|]. exists o. split; [exact Ho|exact D].
    + intros x y y' [<- _] [<- _]. reflexivity.
    + intros x x' y [-> _] [-> _]. reflexivity.
  - intros x y o [<- H]. now apply L.
  - intros x y o [<- H]. now apply L.
Qed.
