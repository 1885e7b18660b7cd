(** Nest_proofs: transforms inside transforms. *)
From Coq Require Import ZArith Permutation Lia.
From Verif Require Import PyBase PyBaseFacts ValuesM Spec_Eq ValuesFacts FiltersM StateM Spec_State State_proofs ModuleM PureM ContextM JitArgsM SpmdM ScanM RematArgsM
  Spec_Module Spec_Prog Spec_JitArgs Spec_RematArgs Spec_Mixed
  Graph_facts Dfs_proofs Build_proofs Bisim_proofs Skel_proofs RoundTrip_proofs Clone_proofs Update_proofs Write_proofs
  Laws_proofs Prog_proofs TransformM Transform_proofs History_proofs Leaf_proofs Scan_proofs Container_proofs ScanDeco_proofs Spec_Functional Functional_proofs
  JitArgs_proofs RematArgs_proofs Mixed_proofs GradFunM Spec_GradFun GradFun_proofs Spec_Scan ScanPair_proofs NestM Spec_Nest.
Local Open Scope string_scope.
Local Open Scope list_scope.

(** ** going in: the copy inside, next to the module itself *)
Record entered (v wd : world) (rd : nat) (v1 : world) (Ri : nat -> nat -> Prop) : Prop := {
  en_pair : pair v1 wd Ri;
  en_root : Ri (List.length (w_heap v)) rd;
  en_rel : forall x y, Ri x y -> List.length (w_heap v) <= x /\ reaches wd rd y;
  en_all : forall y, reaches wd rd y -> exists x, Ri x y;
  en_old : all_unchanged v v1;
  en_len : List.length (w_heap v) <= List.length (w_heap v1)
}.

Lemma enter v wd rd p t : wf_world wd -> valid wd rd -> names_ok wd rd -> live wd rd -> wf_world v -> w_nodes v = w_nodes wd -> parts_of p wd rd ->
  exists v1 Ri, pure_merge (set_trace v t) p = Ok (List.length (w_heap v), v1) /\ entered v wd rd v1 Ri.
Proof.
  intros Hw Hr Hno Hlive Hv Hn Hp.
  destruct (parts_merge p wd rd (set_trace v t) Hw Hr Hno Hp) as (L & w1 & objs & Hg & Hm & HM).
  pose proof (merged_root _ _ _ _ _ _ _ Hr Hg HM) as Hroot. pose proof (mg_bisim _ _ _ _ _ HM) as HB.
  assert (Hw1 : wf_world w1) by (eapply merged_wf; [exact Hw|apply set_trace_wf; exact Hv|exact Hr|exact Hg|exact HM]).
  assert (HP : pair wd w1 (copyR L (List.length (w_heap (set_trace v t))))).
  { constructor; auto.
    - rewrite (mg_nodes _ _ _ _ _ HM). cbn. now symmetry.
    - intros x y o [Hx _] Ho. eapply Hlive; [|exact Ho]. now apply (graph_reaches _ _ _ _ Hw Hr Hg).
    - intros x y o Hxy Ho. rewrite (mg_trace _ _ _ _ _ HM).
      assert (Hy : List.length (w_heap (set_trace v t)) <= y). { destruct Hxy as [_ ->]. unfold phi. lia. }
      unfold get_obj in Ho. rewrite (mg_heap _ _ _ _ _ HM), nth_error_app2 in Ho by exact Hy.
      apply nth_error_In in Ho. pose proof (mg_otrace _ _ _ _ _ HM) as F. rewrite Forall_forall in F. apply F. exact Ho. }
  exists w1, (fun x y => copyR L (List.length (w_heap (set_trace v t))) y x). split; [exact Hm|]. constructor.
  - now apply pair_sym.
  - exact Hroot.
  - intros x y [Hy ->]. split; [cbn; unfold phi; lia|]. now apply (graph_reaches _ _ _ _ Hw Hr Hg).
  - intros y Hy. destruct (bisim_reaches _ _ _ _ _ _ (pr_bi _ _ _ HP) Hroot Hy) as (x & _ & Hx). eauto.
  - intros x o Ho. unfold get_obj in *. rewrite (mg_heap _ _ _ _ _ HM). apply nth_prefix. exact Ho.
  - rewrite (mg_heap _ _ _ _ _ HM), app_length. cbn. lia.
Qed.

Lemma reaches_or w r y : wf_world w -> valid w r -> reaches w r y \/ ~ reaches w r y.
Proof.
  intros W V. destruct (graph_exists w r W V) as (d & L & G). destruct (in_dec Nat.eq_dec y L) as [I|I].
  - left. now apply (graph_reaches _ _ _ _ W V G).
  - right. intros H. apply I. now apply (graph_reaches _ _ _ _ W V G).
Qed.

Lemma orel_then R (Q : nat -> Prop) a b c : orel R a b -> orel (fun x y => x = y /\ Q x) b c -> orel R a c.
Proof.
  intros H G. destruct b as [b|].
  - destruct (is_submodule b) eqn:E.
    + apply is_sub_inv in E as [x ->]. apply orel_mod in G as (y & -> & <- & _). exact H.
    + apply orel_val in G; [|exact E]. now rewrite G.
  - now rewrite (proj1 (orel_dom _ _ _ G) eq_refl).
Qed.

(** ** coming out *)
Section Leave.
Variables (w wd : world) (R : nat -> nat -> Prop) (r rd : nat).
Hypothesis P : pair w wd R.
Hypothesis Hr : R r rd.
Variables (w1 : world) (Ri : nat -> nat -> Prop).
Hypothesis EN : entered w wd rd w1 Ri.
Variables (w2 wd2 : world) (R2 : nat -> nat -> Prop).
Hypothesis M : moves w1 wd Ri w2 wd2 R2.
Let m := List.length (w_heap w).
Let w3 := set_trace w2 (w_trace w).

Lemma lv_undone : undone w w3.
Proof.
  split; [|split; [reflexivity|split]].
  - intros x o Ho. unfold w3. rewrite set_trace_get. assert (H1 := en_old _ _ _ _ _ EN x o Ho).
    rewrite (mv_fr _ _ _ _ _ _ M); [exact H1|eapply get_obj_lt; exact H1|]. intros y Hy. apply (en_rel _ _ _ _ _ EN) in Hy as [Hy _]. apply get_obj_lt in Ho. unfold valid in Ho. lia.
  - apply set_trace_wf. apply (mv_pair _ _ _ _ _ _ M).
  - cbn. rewrite (mv_nt _ _ _ _ _ _ M), (pr_nodes _ _ _ (en_pair _ _ _ _ _ EN)). symmetry. apply P.
Qed.
Lemma lv_len : List.length (w_heap w) <= List.length (w_heap w3).
Proof. cbn. pose proof (en_len _ _ _ _ _ EN). pose proof (mv_len _ _ _ _ _ _ M). lia. Qed.
Lemma lv_back : moves w wd R w3 wd R.
Proof.
  pose proof lv_undone as U. constructor; auto.
  - eapply pair_undone; [exact P|exact U].
  - intros x Hx _. destruct (get_obj_ex _ _ Hx) as [o Ho]. destruct U as [U _]. rewrite (U _ _ Ho). now symmetry.
  - exact lv_len.
  - apply U.
Qed.

Lemma lv_state : exists s, get_state wd2 rd = Ok s /\ get_state w2 m = Ok s /\ get_state w3 m = Ok s /\ valid w2 m /\ valid wd2 rd.
Proof.
  pose proof (mv_pair _ _ _ _ _ _ M) as P2. pose proof (mv_incl _ _ _ _ _ _ M _ _ (en_root _ _ _ _ _ EN)) as Hm.
  destruct (bisim_valid _ _ _ _ _ (pr_bi _ _ _ P2) Hm) as [Vm Vr].
  destruct (get_state_total wd2 rd (pr_wf' _ _ _ P2) Vr) as (s & Hs & _). exists s. split; [exact Hs|].
  assert (E : get_state w2 m = Ok s). { rewrite <- Hs. eapply bisim_get_state; [apply P2..|exact Hm]. }
  split; [exact E|]. split; [|auto]. unfold w3. rewrite set_trace_state; [exact E|apply P2|exact Vm].
Qed.

Lemma lv_carried s : names_ok wd rd -> nodes_only wd wd2 rd -> names_ok wd2 rd -> get_state wd2 rd = Ok s ->
  exists w4, update_state w3 r (UStates (One s)) = (w4, Ok tt) /\ moves w wd R w4 wd2 R.
Proof.
  intros N NO N2 Hs. pose proof (mv_pair _ _ _ _ _ _ M) as P2.
  assert (V : valid wd rd) by exact (proj2 (bisim_valid _ _ _ _ _ (pr_bi _ _ _ P) Hr)).
  assert (L : live wd rd).
  { intros y o Hy Ho. destruct (bisim_reaches _ _ _ _ _ _ (bisim_sym _ _ _ (pr_bi _ _ _ P)) Hr Hy) as (x & _ & Hx). exact (pr_live' _ _ _ P x y o Hx Ho). }
  destruct (transfer wd wd2 wd rd s) as (wd4 & F1 & F2 & F3 & F4 & F5 & F6); auto; try apply P; try apply P2; try (intros ? ? H; exact H).
  pose proof lv_back as B. pose proof (mv_pair _ _ _ _ _ _ B) as PB.
  destruct (pair_update w3 wd R r rd (One s)) as (w4 & wd4' & res & G1 & G2 & MU); auto.
  { constructor; [|constructor]. eapply state_plain; [exact (pr_wf' _ _ _ P2)|exact Hs]. }
  rewrite F1 in G2. injection G2 as <- <-. exists w4. split; [exact G1|].
  pose proof (moves_trans _ _ _ _ _ _ _ _ _ B MU) as MW. pose proof (mv_pair _ _ _ _ _ _ MW) as P4.
  assert (OUT : forall y, y < List.length (w_heap wd) -> ~ reaches wd rd y -> get_obj wd2 y = get_obj wd y).
  { intros y Hy Hn. apply (mv_fr' _ _ _ _ _ _ M); [exact Hy|]. intros x Hx. apply (en_rel _ _ _ _ _ EN) in Hx as [_ Hx]. contradiction. }
  assert (DEC : forall y, reaches wd rd y \/ ~ reaches wd rd y) by (intros y; exact (reaches_or wd rd y (pr_wf' _ _ _ P) V)).
  constructor; try apply MW; auto.
  - constructor.
    + constructor; [|apply (bi_fun _ _ _ (pr_bi _ _ _ P))|apply (bi_inj _ _ _ (pr_bi _ _ _ P))].
      intros x y Hxy. destruct (bi_obj _ _ _ (pr_bi _ _ _ P4) x y Hxy) as (o & o4 & A1 & A2 & A3 & A4 & A5).
      destruct (DEC y) as [Hy|Hy].
      * destruct (bi_obj _ _ _ F5 y y (conj eq_refl Hy)) as (o4' & o2 & C1 & C2 & C3 & C4 & C5). assert (o4' = o4) by congruence. subst o4'.
        exists o, o2. split; [exact A1|]. split; [exact C2|]. split; [congruence|]. split; [congruence|]. intros n. exact (orel_then _ _ _ _ _ (A5 n) (C5 n)).
      * destruct (bi_obj _ _ _ (pr_bi _ _ _ P) x y Hxy) as (_ & od & _ & D2 & _). assert (Hlt := get_obj_lt _ _ _ D2).
        assert (o4 = od) by (rewrite (F6 _ _ D2 Hy) in A2; congruence). subst o4.
        exists o, od. split; [exact A1|]. split; [rewrite OUT by assumption; exact D2|]. auto.
    + apply P4.
    + apply P2.
    + rewrite (pr_nodes _ _ _ P4). symmetry. destruct NO as [NO _]. congruence.
    + apply (pr_live _ _ _ P4).
    + intros x y o Hxy Ho. rewrite (mv_tr' _ _ _ _ _ _ M). destruct (DEC y) as [Hy|Hy].
      * destruct (en_all _ _ _ _ _ EN y Hy) as (z & Hz). rewrite <- (mv_tr' _ _ _ _ _ _ M). eapply (pr_live' _ _ _ P2); [apply (mv_incl _ _ _ _ _ _ M); exact Hz|exact Ho].
      * destruct (bi_obj _ _ _ (pr_bi _ _ _ P) x y Hxy) as (_ & od & _ & D2 & _). rewrite OUT in Ho; [|eapply get_obj_lt; exact D2|exact Hy].
        eapply (pr_live' _ _ _ P); eauto.
  - intros y Hy Hn. apply (mv_fr' _ _ _ _ _ _ M); [exact Hy|]. intros z Hz. apply (en_rel _ _ _ _ _ EN) in Hz as [_ Hz].
    destruct (bisim_reaches _ _ _ _ _ _ (bisim_sym _ _ _ (pr_bi _ _ _ P)) Hr Hz) as (x & _ & Hx). exact (Hn x Hx).
  - apply (mv_len' _ _ _ _ _ _ M).
  - apply (mv_tr' _ _ _ _ _ _ M).
Qed.
End Leave.

(** ** one call *)
Section Call.
Variables (w wd : world) (R : nat -> nat -> Prop) (r rd : nat).
Hypothesis P : pair w wd R.
Hypothesis Hr : R r rd.
Hypothesis Nd : names_ok wd rd.

Lemma c_valid : valid w r.
Proof. exact (proj1 (bisim_valid _ _ _ _ _ (pr_bi _ _ _ P) Hr)). Qed.
Lemma c_valid' : valid wd rd.
Proof. exact (proj2 (bisim_valid _ _ _ _ _ (pr_bi _ _ _ P) Hr)). Qed.
Lemma c_names : names_ok w r.
Proof. eapply (bisim_names wd w); [apply bisim_sym; apply P|symmetry; apply P|exact Hr|exact Nd]. Qed.
Lemma c_live : live wd rd.
Proof.
  intros y o Hy Ho. destruct (bisim_reaches _ _ _ _ _ _ (bisim_sym _ _ _ (pr_bi _ _ _ P)) Hr Hy) as (x & _ & Hx). exact (pr_live' _ _ _ P x y o Hx Ho).
Qed.
Lemma c_state : get_state w r = get_state wd rd.
Proof. eapply bisim_get_state; [apply P..|exact Hr]. Qed.
Lemma c_part fs : module_partition w r fs = module_partition wd rd fs.
Proof.
  unfold module_partition. rewrite c_state. assert (E : get_module_def w r = get_module_def wd rd) by (eapply bisim_module_def; [apply P..|exact Hr]). now rewrite E.
Qed.
Lemma c_enter fs p t : module_partition w r fs = Ok p ->
  exists v1 Ri, pure_merge (set_trace w t) p = Ok (List.length (w_heap w), v1) /\ entered w wd rd v1 Ri.
Proof.
  intros H. rewrite c_part in H. apply enter; auto using c_valid', c_live; try apply P.
  eapply partition_parts; [exact (pr_wf' _ _ _ P)|exact c_valid'|exact H].
Qed.

Variables (fn : world -> nat -> world * result pyval) (wd1 : world) (res : result pyval).
Hypothesis B : forall v1 Ri, pair v1 wd Ri -> Ri (List.length (w_heap w)) rd ->
  exists v2 R2, fn v1 (List.length (w_heap w)) = (v2, res) /\ moves v1 wd Ri v2 wd1 R2.

Lemma jit_step stateful t : jax_module wd rd -> kept stateful wd wd1 rd res -> crosses stateful wd1 rd (rmap GVal res) ->
  exists w4, jit_call_args [] stateful t (fun _ _ => to_arg fn) w (ARaw (PyMod r)) [] [] [] = (w4, [], rmap GVal res) /\
    moves w wd R w4 (next stateful wd wd1 res) R.
Proof.
  intros J K X. destruct (partition_one w r (pr_wf _ _ _ P) c_valid) as (s & d & Hs & _ & Hp).
  destruct (c_enter _ _ t Hp) as (v1 & Ri & Hm & EN). destruct (B v1 Ri (en_pair _ _ _ _ _ EN) (en_root _ _ _ _ _ EN)) as (v2 & R2 & E & M).
  rewrite (call_plain _ _ _ _ _ _ _ _ _ _ (fun x (H : dget "ctx" [] = Some (GCtx x)) => eq_ind None (fun e => match e with Some _ => False | None => True end) Logic.I _ H) Hp).
  unfold jit_run. cbn [existsb flat_map app p_states sts_list]. rewrite !app_nil_r.
  assert (LO : forallb leaf_ok (state_leaves s) = true).
  { apply (state_ok_iff wd rd s (pr_wf' _ _ _ P) c_valid' Nd); [now rewrite <- c_state|exact J]. }
  rewrite LO. cbn [negb]. unfold jitted_fn. rewrite Hm. unfold to_arg. rewrite E.
  destruct res as [out|e]; cbn [rmap rbind next].
  2:{ exists (set_trace v2 (w_trace w)). split; [reflexivity|]. eapply lv_back; eauto. }
  destruct (X (GVal out) eq_refl) as [X1 X2].
  assert (AO : forallb leaf_ok (arg_leaves (GVal out)) = true) by (now apply jax_arg_iff).
  destruct stateful.
  - destruct (K out eq_refl eq_refl) as [NO N1]. destruct (lv_state w wd rd v1 Ri EN v2 wd1 R2 M) as (u & U1 & U2 & U3 & V2 & V1).
    rewrite U3. rewrite forallb_app, AO.
    rewrite (proj2 (state_ok_iff wd1 rd u (pr_wf' _ _ _ (mv_pair _ _ _ _ _ _ M)) V1 N1 U1) (X2 eq_refl)). cbn [andb].
    destruct (lv_carried w wd R r rd P Hr v1 Ri EN v2 wd1 R2 M u Nd NO N1 U1) as (w4 & F & G). rewrite F. exists w4. auto.
  - cbn [app]. rewrite AO. exists (set_trace v2 (w_trace w)). split; [reflexivity|]. eapply lv_back; eauto.
Qed.

Lemma remat_step a t fx ctx ss pc ss' : (forall v m, fx pc v m = fn v m) -> ctx_given (w_trace w) ctx ss pc ss' ->
  jax_module wd rd -> nums_ok a 0 -> kept true wd wd1 rd res -> crosses true wd1 rd (rmap GVal res) ->
  exists w4, remat_args (remat_options a) t (fun _ pc => to_arg (fx pc)) w r [] ctx ss = (w4, ss', rmap GVal res) /\
    moves w wd R w4 (next true wd wd1 res) R.
Proof.
  intros HX GC J NA K X. destruct (remat_unfold a t (fun _ pc => to_arg (fx pc)) w r [] ctx ss pc ss' (pr_wf _ _ _ P) c_valid GC) as (s & d & Hs & _ & Hp & ->).
  destruct (c_enter _ _ t Hp) as (v1 & Ri & Hm & EN). destruct (B v1 Ri (en_pair _ _ _ _ _ EN) (en_root _ _ _ _ _ EN)) as (v2 & R2 & E & M).
  pose proof (nums_in a 0 NA) as RG. cbn [List.length]. rewrite (range_ok a _ RG). cbn [negb].
  assert (LO : forallb leaf_ok (dyn_leaves (remat_options a) 2 0 (rgiven s pc [])) = true).
  { apply rgiven_args; [reflexivity|exact RG|]. split; [|intros [|i] x; discriminate]. intros _.
    apply (state_ok_iff wd rd s (pr_wf' _ _ _ P) c_valid' Nd); [now rewrite <- c_state|exact J]. }
  rewrite LO. cbn [negb]. rewrite Hm. unfold to_arg. rewrite HX, E.
  destruct res as [out|e]; cbn [rmap rbind next].
  2:{ exists (set_trace v2 (w_trace w)). split; [reflexivity|]. eapply lv_back; eauto. }
  destruct (X (GVal out) eq_refl) as [X1 X2].
  assert (AO : forallb leaf_ok (arg_leaves (GVal out)) = true) by (now apply jax_arg_iff).
  destruct (K out eq_refl eq_refl) as [NO N1]. destruct (lv_state w wd rd v1 Ri EN v2 wd1 R2 M) as (u & U1 & U2 & U3 & V2 & V1).
  destruct (partition_one v2 _ (pr_wf _ _ _ (mv_pair _ _ _ _ _ _ M)) V2) as (u' & dq & U' & _ & ->). assert (u' = u) by congruence. subst u'.
  cbn [p_states sts_list flat_map]. rewrite app_nil_r, forallb_app, AO.
  rewrite (proj2 (state_ok_iff wd1 rd u (pr_wf' _ _ _ (mv_pair _ _ _ _ _ _ M)) V1 N1 U1) (X2 eq_refl)). cbn [andb negb].
  destruct (lv_carried w wd R r rd P Hr v1 Ri EN v2 wd1 R2 M u Nd NO N1 U1) as (w4 & F & G). rewrite F. exists w4. auto.
Qed.

Lemma aux_same (stateful has_aux : bool) out :
  (if has_aux then rmap (fun la => Some (snd la)) (unpack2 stateful out) else Ok (@None pyval)) = aux_wanted stateful has_aux out.
Proof.
  unfold aux_wanted, unpack2. destruct has_aux; [|reflexivity].
  destruct out as [| | |s|[|x [|y [|z l]]]| |]; try reflexivity; try (destruct stateful; reflexivity).
  cbn [rmap rbind]. destruct (stateful && negb (Nat.eqb (String.length s) 2)); reflexivity.
Qed.

Lemma grad_step stateful has_aux wrt pred t D diff loss : values D ->
  In "jax.Array" (w_nodes wd) -> to_predicate wrt = Ok pred -> module_filter wd rd wrt [] = Ok (One diff) ->
  (forall p nondiff d, module_partition w r [FPred pred; FEllipsis] = Ok p -> p_states p = Many [diff; nondiff] -> array_point diff d ->
     grad_fn stateful has_aux t fn w nondiff (p_def p) d = loss d) ->
  let g := gradient stateful has_aux D loss diff res in
  kept stateful wd wd1 rd g ->
  exists w4, grad_call_fn stateful has_aux wrt t D fn w r = (w4, g) /\ moves w wd R w4 (next stateful wd wd1 g) R.
Proof.
  intros [HD _] J Hpr Hd HL g K. destruct (grad_parts w r wrt pred (pr_wf _ _ _ P) c_valid Hpr) as (diff' & nondiff & p & Hp & Es & Hf).
  assert (diff' = diff). { unfold module_filter in Hf, Hd. rewrite c_state in Hf. rewrite Hd in Hf. now injection Hf as <-. } subst diff'.
  destruct (c_enter _ _ t Hp) as (v1 & Ri & Hm & EN). destruct (B v1 Ri (en_pair _ _ _ _ _ EN) (en_root _ _ _ _ _ EN)) as (v2 & R2 & E & M).
  unfold pure_merge in Hm. rewrite Es in Hm. cbn [sts_list] in Hm.
  unfold grad_call_fn, grad_call. rewrite Hpr. cbn [rbind]. rewrite Hp, Es, Hm, E. unfold g, gradient in *. clear g.
  destruct res as [out|e]; cbn [rbind next].
  2:{ exists (set_trace v2 (w_trace w)). split; [reflexivity|]. eapply lv_back; eauto. }
  cbv zeta. cbn [rbind] in K. rewrite aux_same. destruct (aux_wanted stateful has_aux out) as [aux|e]; cbn [rbind next] in *.
  2:{ exists (set_trace v2 (w_trace w)). split; [reflexivity|]. eapply lv_back; eauto. }
  assert (GT : grad_tree (D (grad_fn stateful has_aux t fn w nondiff (p_def p)) diff) diff = map (fun ka => (fst ka, with_value (snd ka) (D loss diff (fst ka) (snd ka)))) diff).
  { unfold grad_tree. apply map_ext. intros [k a]. cbn [fst snd]. do 2 f_equal. apply HD. intros x Hx. now apply HL. }
  rewrite GT. destruct stateful.
  - destruct (K _ eq_refl eq_refl) as [NO N1]. destruct (lv_state w wd rd v1 Ri EN v2 wd1 R2 M) as (u & U1 & U2 & U3 & V2 & V1).
    rewrite U3. destruct (lv_carried w wd R r rd P Hr v1 Ri EN v2 wd1 R2 M u Nd NO N1 U1) as (w4 & F & G). rewrite F. exists w4. auto.
  - exists (set_trace v2 (w_trace w)). split; [reflexivity|]. eapply lv_back; eauto.
Qed.
End Call.

(** ** the Contexts held *)
Definition same_ctx (t td : trace_state) (x y : context) : Prop := x_rngs x = x_rngs y /\ x_flags x = x_flags y /\ x_trace x = t /\ x_trace y = td.
Record same_cw (f fd : cworld) : Prop := {
  sc_streams : cw_streams f = cw_streams fd;
  sc_pures : cw_pures f = cw_pures fd;
  sc_ctxs : Forall2 (same_ctx (cw_trace f) (cw_trace fd)) (cw_ctxs f) (cw_ctxs fd)
}.
Definition frames (w : world) (f : cworld) (wd : world) (fd : cworld) : Prop := same_cw f fd /\ cw_trace f = w_trace w /\ cw_trace fd = w_trace wd.

Lemma trace_ok_refl t : trace_ok t t = true.
Proof. unfold trace_ok. now rewrite !Nat.eqb_refl. Qed.
Lemma nth_ctx (Q : context -> context -> Prop) l l' i : Forall2 Q l l' ->
  match nth_error l i, nth_error l' i with Some x, Some y => Q x y | None, None => True | _, _ => False end.
Proof. intros H. revert i. induction H as [|x y l l2 Hxy _ IH]; intros [|i]; cbn; auto. apply IH. Qed.
Lemma make_rng_same blake t td x y name ss : same_ctx t td x y -> make_rng blake t x name ss = make_rng blake td y name ss.
Proof. intros (A & _ & B & C). unfold make_rng. rewrite A, B, C, !trace_ok_refl. reflexivity. Qed.
Lemma partition_same t td x y ss : same_ctx t td x y -> context_partition t x ss = context_partition td y ss.
Proof. intros (A & A2 & B & C). unfold context_partition. rewrite A, A2, B, C, !trace_ok_refl. reflexivity. Qed.
Lemma add_same f fd x y : same_cw f fd -> same_ctx (cw_trace f) (cw_trace fd) x y -> same_cw (add_ctx f x) (add_ctx fd y).
Proof. intros [A B C] H. constructor; cbn; auto. apply Forall2_app; auto. Qed.
Lemma set_same f fd ss : same_cw f fd -> same_cw (set_streams f ss) (set_streams fd ss).
Proof. intros [A B C]. constructor; cbn; auto. Qed.
Lemma crun_same blake f fd o : same_cw f fd -> not_trace o ->
  exists f2 fd2 out, crun1 blake f o = (f2, out) /\ crun1 blake fd o = (fd2, out) /\ same_cw f2 fd2 /\ cw_trace f2 = cw_trace f /\ cw_trace fd2 = cw_trace fd.
Proof.
  intros HS HO. destruct o as [p fl rs|c name|c|c|i|t]; [..|contradiction]; cbn [crun1]; rewrite <- ?(sc_streams _ _ HS).
  - destruct (args_exist _ _); [|exists f, fd; eexists; auto]. unfold new_context. destruct (make_streams _ _) as [ns ss].
    do 3 eexists. do 2 (split; [reflexivity|]). split; [|auto]. apply add_same; [now apply set_same|]. split; [reflexivity|]. auto.
  - pose proof (nth_ctx _ _ _ c (sc_ctxs _ _ HS)) as N. destruct (nth_error (cw_ctxs f) c) as [x|], (nth_error (cw_ctxs fd) c) as [y|]; try contradiction; [|exists f, fd; eexists; auto].
    rewrite (make_rng_same blake _ _ _ _ name (cw_streams f) N). destruct (make_rng blake (cw_trace fd) y name (cw_streams f)) as [[k|e] ss];
      do 3 eexists; do 2 (split; [reflexivity|]); (split; [now apply set_same|auto]).
  - pose proof (nth_ctx _ _ _ c (sc_ctxs _ _ HS)) as N. destruct (nth_error (cw_ctxs f) c) as [x|], (nth_error (cw_ctxs fd) c) as [y|]; try contradiction; [|exists f, fd; eexists; auto].
    do 3 eexists. do 2 (split; [reflexivity|]). split; [|auto]. apply add_same; [exact HS|]. destruct N as (A & B & _). split; [exact A|]. cbn. auto.
  - pose proof (nth_ctx _ _ _ c (sc_ctxs _ _ HS)) as N. destruct (nth_error (cw_ctxs f) c) as [x|], (nth_error (cw_ctxs fd) c) as [y|]; try contradiction; [|exists f, fd; eexists; auto].
    rewrite (partition_same _ _ _ _ (cw_streams f) N). destruct (context_partition (cw_trace fd) y (cw_streams f)) as [[q|e] ss];
      do 3 eexists; do 2 (split; [reflexivity|]); (split; [|auto]); [|now apply set_same].
    destruct HS as [A B C]. constructor; cbn; auto. now rewrite B.
  - rewrite <- (sc_pures _ _ HS). destruct (nth_error (cw_pures f) i) as [q|]; [|exists f, fd; eexists; auto]. unfold pctx_merge.
    destruct (merge_streams _ _ _) as [[ns ss]|e]; cbn [rbind]; [|exists f, fd; eexists; auto].
    do 3 eexists. do 2 (split; [reflexivity|]). split; [|auto]. apply add_same; [now apply set_same|]. split; [reflexivity|]. auto.
Qed.
Lemma frame_of_same w wd pc : match frame_of (w_trace w) pc, frame_of (w_trace wd) pc with Ok f, Ok fd => frames w f wd fd | Err e, Err e' => e = e' | _, _ => False end.
Proof.
  destruct pc as [q|]; cbn [frame_of]; [|split; [|auto]; constructor; cbn; auto]. unfold pctx_merge. destruct (merge_streams _ _ _) as [[ns ss]|e]; cbn [rbind]; [|reflexivity].
  split; [|auto]. constructor; cbn; auto. constructor; [|constructor]. split; [reflexivity|]. cbn. auto.
Qed.
Lemma frames_move w wd R w2 wd2 R2 f fd : moves w wd R w2 wd2 R2 -> frames w f wd fd -> frames w2 f wd2 fd.
Proof. intros M (A & B & C). split; [exact A|]. rewrite (mv_tr _ _ _ _ _ _ M), (mv_tr' _ _ _ _ _ _ M). auto. Qed.
Lemma frames_set w wd f fd ss : frames w f wd fd -> frames w (set_streams f ss) wd (set_streams fd ss).
Proof. intros (A & B & C). split; [now apply set_same|]. auto. Qed.
Lemma frames_streams w wd f fd : frames w f wd fd -> cw_streams f = cw_streams fd.
Proof. intros (A & _). apply A. Qed.
Definition same_given (t td : trace_state) (x y : option context) : Prop :=
  match x, y with Some x, Some y => same_ctx t td x y | None, None => True | _, _ => False end.
Lemma held_same w wd f fd ctx xd : frames w f wd fd -> held fd ctx = Some xd -> exists x, held f ctx = Some x /\ same_given (w_trace w) (w_trace wd) x xd.
Proof.
  intros (A & B & C) H. destruct ctx as [c|]; cbn in *; [|injection H as <-; exists None; split; [reflexivity|exact Logic.I]].
  pose proof (nth_ctx _ _ _ c (sc_ctxs _ _ A)) as N. rewrite B, C in N. destruct (nth_error (cw_ctxs f) c) as [x|], (nth_error (cw_ctxs fd) c) as [y|]; try contradiction; [|discriminate].
  injection H as <-. exists (Some x). split; [reflexivity|exact N].
Qed.
Lemma forked_same t td x y ss : same_given t td x y -> forked t x ss = forked td y ss.
Proof. destruct x as [x|], y as [y|]; cbn; try contradiction; auto. intros H. now rewrite (partition_same _ _ _ _ ss H). Qed.
Lemma scan_ctx_same t td sp x y ss : same_given t td x y -> scan_ctx t sp x ss = scan_ctx td sp y ss.
Proof. destruct x as [x|], y as [y|]; cbn; try contradiction; auto. intros H. now rewrite (partition_same _ _ _ _ ss H). Qed.
Lemma forked_given t x ss pc ss' : forked t x ss = (Ok pc, ss') -> ctx_given t x ss pc ss'.
Proof.
  unfold forked, ctx_given. destruct x as [x|]; [|intros [= <- <-]; auto]. destruct (context_partition t x ss) as [[q|e] z]; [|discriminate]. intros [= <- <-]. eauto.
Qed.
Lemma frames_start w f : frame_ok w f -> frames w f w f.
Proof.
  intros [A B]. split; [|auto]. constructor; auto. rewrite A. induction (cw_ctxs f) as [|x l IH]; constructor; [|apply IH; now inversion B].
  apply Forall_inv in B. split; [reflexivity|]. auto.
Qed.

(** ** the whole program *)
Section Programs.
Variable blake : string -> nat.
Notation nrun := (nrun blake).
Notation plain := (plain blake).
Notation fits := (fits blake).
Definition runs (p : nprog) : Prop := forall w wd R env envd f fd, pair w wd R -> Forall2 R env envd -> frames w f wd fd -> In "jax.Array" (w_nodes wd) -> fits p wd envd fd ->
  exists w2 wd2 res R2, nrun p w env f = (w2, res) /\ plain p wd envd fd = (wd2, res) /\ moves w wd R w2 wd2 R2 /\ Forall2 R2 env envd.

Lemma runs_in body pc : runs body -> forall v wd Ri m rd, pair v wd Ri -> Ri m rd -> In "jax.Array" (w_nodes wd) -> fits_in (fits body) pc wd rd ->
  exists v2 wd1 res R2, in_frame (nrun body) pc v m = (v2, res) /\ in_frame (plain body) pc wd rd = (wd1, res) /\ moves v wd Ri v2 wd1 R2.
Proof.
  intros H v wd Ri m rd P Hr J F. unfold in_frame, fits_in in *. pose proof (frame_of_same v wd pc) as E.
  destruct (frame_of (w_trace v) pc) as [f|e], (frame_of (w_trace wd) pc) as [fd|e'] eqn:Ed; try contradiction.
  - destruct (H v wd Ri [m] [rd] f fd P) as (v2 & wd2 & res' & R2 & E1 & E2 & M & _); auto. exists v2, wd2, res', R2. auto.
  - subst e'. exists v, wd, (Err e), Ri. auto using moves_refl.
Qed.
Lemma runs_body body pc w wd rd wd1 res : runs body -> In "jax.Array" (w_nodes wd) -> fits_in (fits body) pc wd rd -> in_frame (plain body) pc wd rd = (wd1, res) ->
  forall v1 Ri, pair v1 wd Ri -> Ri (List.length (w_heap w)) rd ->
  exists v2 R2, in_frame (nrun body) pc v1 (List.length (w_heap w)) = (v2, res) /\ moves v1 wd Ri v2 wd1 R2.
Proof.
  intros H J F E v1 Ri P Hr. destruct (runs_in body pc H v1 wd Ri _ rd P Hr J F) as (v2 & wd2 & res' & R2 & E1 & E2 & M).
  rewrite E in E2. injection E2 as <- <-. eauto.
Qed.

Lemma body_loss body w wd R r rd pred p diff nondiff d stateful has_aux t : runs body -> pair w wd R -> R r rd -> names_ok wd rd -> In "jax.Array" (w_nodes wd) ->
  (forall d w1, array_point diff d -> update_state wd rd (UStates (One d)) = (w1, Ok tt) -> fits_in (fits body) None w1 rd) ->
  module_partition w r [FPred pred; FEllipsis] = Ok p -> p_states p = Many [diff; nondiff] -> array_point diff d ->
  grad_fn stateful has_aux t (in_frame (nrun body) None) w nondiff (p_def p) d = the_loss has_aux (fun v => in_frame (plain body) None v rd) wd rd d.
Proof.
  intros H P Hr Nd J HF Hp Es Hd. rewrite (c_part _ _ _ _ _ P Hr) in Hp.
  destruct (point_update wd rd pred p diff nondiff d (pr_wf' _ _ _ P) (c_valid' _ _ _ _ _ P Hr) Nd (c_live _ _ _ _ _ P Hr) J Hp Es (proj1 Hd))
    as (wu & E & Wu & Vu & Nu & Lu & Qu & PA).
  assert (Nn : w_nodes w = w_nodes wu) by (rewrite Qu; apply P).
  destruct (enter w wu rd _ t Wu Vu Nu Lu (pr_wf _ _ _ P) Nn PA) as (v1 & Ri & Hm & EN).
  unfold pure_merge in Hm. cbn [p_def p_states sts_list] in Hm.
  destruct (in_frame (plain body) None wu rd) as [wd1 res] eqn:Eb.
  assert (Ju : In "jax.Array" (w_nodes wu)) by now rewrite Qu.
  destruct (runs_body body None w wu rd wd1 res H Ju (HF d wu Hd E) Eb v1 Ri (en_pair _ _ _ _ _ EN) (en_root _ _ _ _ _ EN)) as (v2 & R2 & E2 & M).
  unfold grad_fn, the_loss. rewrite Hm, E, E2, Eb. destruct res as [out|e]; [|reflexivity].
  destruct (lv_state w wu rd v1 Ri EN v2 wd1 R2 M) as (u & _ & _ & U & _).
  replace (if stateful then rmap (fun _ : state => tt) (get_state (set_trace v2 (w_trace w)) (List.length (w_heap w))) else Ok tt) with (@Ok unit tt).
  2:{ destruct stateful; [|reflexivity]. rewrite U. reflexivity. }
  unfold loss_of. destruct has_aux; [|reflexivity]. unfold unpack2.
  destruct out as [|b|z|x|l|x|c i]; try reflexivity.
  - destruct (stateful && negb (Nat.eqb (String.length x) 2)); reflexivity.
  - destruct l as [|a [|b [|c l]]]; try reflexivity; destruct stateful; reflexivity.
Qed.

Lemma of_arg_val (res : result pyval) : of_arg (rmap GVal res) = res.
Proof. destruct res; reflexivity. Qed.
Lemma crosses_res st w1 r (res : result pyval) : crosses st w1 r (rmap GVal res) -> ok_res res.
Proof. intros X v ->. exact (proj1 (X (GVal v) eq_refl)). Qed.
Lemma gradient_ok stateful has_aux D loss diff res : values D -> Forall (fun ka => plain_attr (snd ka)) diff -> ok_grads (gradient stateful has_aux D loss diff res).
Proof.
  intros [_ HD] F grads aux. unfold gradient. destruct res as [out|e]; cbn [rbind]; [|discriminate].
  destruct (aux_wanted stateful has_aux out) as [ax|e]; cbn [rbind]; [|discriminate]. intros [= <- _].
  apply Forall_map. revert F; apply Forall_impl. intros [k b] [A1 A2]. cbn [fst snd]. split.
  - destruct b as [v|c]; [exact Logic.I|exact A1].
  - destruct b as [v|c]; [|reflexivity]. cbn. destruct (D loss diff k (ARaw v)) eqn:E; try reflexivity. now apply HD in E.
Qed.
Lemma nth_rel (R : nat -> nat -> Prop) env envd i rd : Forall2 R env envd -> nth_error envd i = Some rd -> exists r, nth_error env i = Some r /\ R r rd.
Proof.
  intros H. revert i. induction H as [|x y l l' Hxy _ IH]; intros [|i]; cbn; try discriminate.
  - intros [= <-]. eauto.
  - apply IH.
Qed.

Lemma arrays_only_iff l : arrays_only l = true <-> forall v, In v l -> jax_arg (GVal v).
Proof.
  unfold arrays_only. rewrite forallb_forall. split.
  - intros H v Hv. apply jax_arg_iff. apply forallb_forall. intros x Hx. apply H. apply in_flat_map. eauto.
  - intros H x Hx. apply in_flat_map in Hx as (v & Hv & Hx). specialize (H v Hv). apply jax_arg_iff in H. rewrite forallb_forall in H. auto.
Qed.

(** a scanned body, on a module and on one that looks like it *)
Lemma scanned_both body nt : In "jax.Array" nt -> (forall c xs, (forall v, In v (c :: xs) -> jax_arg (GVal v)) -> ok_nprog (body c xs)) ->
  (forall c xs, (forall v, In v (c :: xs) -> jax_arg (GVal v)) -> runs (body c xs)) ->
  forall pc c xs v vd R m md, pair v vd R -> R m md -> w_nodes vd = nt -> (arrays_only (c :: xs) = true -> fits_in (fits (body c xs)) pc vd md) ->
  exists v2 vd2 res R2, scan_body (fun pc c xs => in_frame (nrun (body c xs)) pc) pc c xs v m = (v2, res) /\
    scan_body (fun pc c xs => in_frame (plain (body c xs)) pc) pc c xs vd md = (vd2, res) /\ moves v vd R v2 vd2 R2 /\
    forall c' ys, res = Ok (c', ys) -> jax_arg (GVal c').
Proof.
  intros J0 Hb IHb pc c0 xs0 v vd R0 m md P0 Hm Nn Hf. unfold scan_body. destruct (arrays_only (c0 :: xs0)) eqn:Ea; cbn [negb].
  2:{ exists v, vd, (Err TypeError), R0. do 2 (split; [reflexivity|]). split; [now apply moves_refl|discriminate]. }
  destruct (runs_in (body c0 xs0) pc (IHb c0 xs0 (proj1 (arrays_only_iff _) Ea)) v vd R0 m md P0 Hm) as (v2 & vd2 & res & R2 & G1 & G2 & M); auto.
  { now rewrite Nn. }
  rewrite G1, G2. destruct res as [out|e]; [|exists v2, vd2, (Err e), R2; do 3 (split; [auto|]); discriminate].
  destruct (unpack2 true out) as [[c' y]|e]; [|exists v2, vd2, (Err e), R2; do 3 (split; [auto|]); discriminate].
  cbn zeta. destruct (arrays_only (c' :: _)) eqn:Eo; [|exists v2, vd2, (Err TypeError), R2; do 3 (split; [auto|]); discriminate].
  eexists v2, vd2, _, R2. do 2 (split; [reflexivity|]). split; [exact M|]. intros c1 ys [= <- _]. exact (proj1 (arrays_only_iff _) Eo c' (or_introl eq_refl)).
Qed.

Theorem nest_pair p : ok_nprog p -> runs p.
Proof.
  induction 1 as [res|c k Hc Hk IH|st t i body k Hb IHb Hk IH|o k Ho Hk IH|a t i ctx body k Hb IHb Hk IH|st ha wrt t D i body k HD Hb IHb Hk IH|J o t i c xs ctx body k HJ Hb IHb Hk IH];
    intros w wd R env envd f fd P He Hf J0 F; cbn [nrun plain fits] in *.
  - exists w, wd, res, R. auto using moves_refl.
  - destruct (exec_pair w wd R env envd c P He Hc) as (w2 & env2 & wd2 & envd2 & a & R2 & E1 & E2 & Ha & M & He2).
    rewrite E1, E2 in *. destruct (IH a Ha w2 wd2 R2 env2 envd2 f fd) as (w3 & wd3 & res & R3 & G1 & G2 & M2 & _); auto.
    + apply M.
    + eapply frames_move; eauto.
    + rewrite <- (pr_nodes _ _ _ (mv_pair _ _ _ _ _ _ M)), (mv_nt _ _ _ _ _ _ M), (pr_nodes _ _ _ P). exact J0.
    + exists w3, wd3, res, R3. split; [exact G1|]. split; [exact G2|]. split; [eapply moves_trans; eauto|].
      eapply Forall2_impl; [|exact He]. intros x y Hxy. apply (mv_incl _ _ _ _ _ _ M2). now apply (mv_incl _ _ _ _ _ _ M).
  - destruct F as (rd & Ei & Nd & Jm & Fb & F). destruct (nth_rel _ _ _ _ _ He Ei) as (r & Er & Hr). rewrite Er, Ei.
    destruct (in_frame (plain body) None wd rd) as [wd1 res] eqn:Eb. destruct F as (K & X & F).
    destruct (jit_step w wd R r rd P Hr Nd (in_frame (nrun body) None) wd1 res) with (stateful := st) (t := t) as (w4 & E4 & M4); auto.
    { exact (runs_body body None w wd rd wd1 res IHb J0 Fb Eb). }
    rewrite E4, of_arg_val. destruct (IH res (crosses_res _ _ _ _ X) w4 _ R env envd f fd (mv_pair _ _ _ _ _ _ M4) He) as (w3 & wd3 & res' & R3 & G1 & G2 & M2 & He3); auto.
    + eapply frames_move; eauto.
    + rewrite <- (pr_nodes _ _ _ (mv_pair _ _ _ _ _ _ M4)), (mv_nt _ _ _ _ _ _ M4), (pr_nodes _ _ _ P). exact J0.
    + exists w3, wd3, res', R3. split; [exact G1|]. split; [exact G2|]. split; [eapply moves_trans; eauto|exact He3].
  - destruct (crun_same blake f fd o (proj1 Hf) Ho) as (f2 & fd2 & out & E1 & E2 & S2 & T1 & T2). rewrite E1. rewrite E2 in *.
    destruct (IH out w wd R env envd f2 fd2 P He) as (w3 & wd3 & res' & R3 & G1 & G2 & M2 & He3); auto.
    { destruct Hf as (_ & A & B). split; [exact S2|]. split; congruence. }
    exists w3, wd3, res', R3. auto.
  - destruct F as (rd & xd & Ei & Ex & Nd & Jm & NA & F). destruct (nth_rel _ _ _ _ _ He Ei) as (r & Er & Hr). rewrite Er, Ei.
    destruct (held_same _ _ _ _ _ _ Hf Ex) as (x & Hx & Sx). rewrite Hx, Ex.
    rewrite (frames_streams _ _ _ _ Hf). rewrite <- (forked_same _ _ _ _ (cw_streams fd) Sx) in *.
    destruct (forked (w_trace w) x (cw_streams fd)) as [[pc|e] ss] eqn:Ek.
    2:{ destruct (partition_one w r (pr_wf _ _ _ P) (c_valid _ _ _ _ _ P Hr)) as (s & d & _ & _ & Hp).
      assert (E4 : remat_args (remat_options a) t (fun _ pc => to_arg (in_frame (nrun body) pc)) w r [] x (cw_streams fd) = (w, ss, Err e)).
      { unfold remat_args. rewrite Hp. unfold forked in Ek. rewrite Ek. reflexivity. }
      rewrite E4. cbn [of_arg rbind].
      destruct (IH (Err e) (fun v (E : Err e = Ok v) => match E with end) w wd R env envd _ _ P He (frames_set _ _ _ _ ss Hf) J0 F) as (w3 & wd3 & res' & R3 & G1 & G2 & M2 & He3).
      exists w3, wd3, res', R3. auto. }
    destruct F as (Fb & F). destruct (in_frame (plain body) pc wd rd) as [wd1 res] eqn:Eb. destruct F as (K & X & F).
    destruct (remat_step w wd R r rd P Hr Nd (in_frame (nrun body) pc) wd1 res) with (a := a) (t := t) (fx := in_frame (nrun body)) (ctx := x) (ss := cw_streams fd) (pc := pc) (ss' := ss) as (w4 & E4 & M4); auto.
    { exact (runs_body body pc w wd rd wd1 res IHb J0 Fb Eb). }
    { now apply forked_given. }
    rewrite E4, of_arg_val. destruct (IH res (crosses_res _ _ _ _ X) w4 _ R env envd (set_streams f ss) (set_streams fd ss) (mv_pair _ _ _ _ _ _ M4) He) as (w3 & wd3 & res' & R3 & G1 & G2 & M2 & He3); auto.
    + eapply frames_move; [exact M4|]. now apply frames_set.
    + rewrite <- (pr_nodes _ _ _ (mv_pair _ _ _ _ _ _ M4)), (mv_nt _ _ _ _ _ _ M4), (pr_nodes _ _ _ P). exact J0.
    + exists w3, wd3, res', R3. split; [exact G1|]. split; [exact G2|]. split; [eapply moves_trans; eauto|exact He3].
  - destruct F as (rd & diff & Ei & Nd & Hd & (pred & Hpr) & Fb & FL & F). destruct (nth_rel _ _ _ _ _ He Ei) as (r & Er & Hr). rewrite Er, Ei, Hd.
    destruct (in_frame (plain body) None wd rd) as [wd1 res] eqn:Eb. destruct F as (K & F).
    assert (HL : forall p nondiff d, module_partition w r [FPred pred; FEllipsis] = Ok p -> p_states p = Many [diff; nondiff] -> array_point diff d ->
      grad_fn st ha t (in_frame (nrun body) None) w nondiff (p_def p) d = the_loss ha (fun v => in_frame (plain body) None v rd) wd rd d).
    { intros p nondiff d Hp Es Hpt. eapply body_loss; eauto. }
    destruct (grad_step w wd R r rd P Hr Nd (in_frame (nrun body) None) wd1 res (runs_body body None w wd rd wd1 res IHb J0 Fb Eb)
      st ha wrt pred t D diff _ HD J0 Hpr Hd HL K) as (w4 & E4 & M4).
    rewrite E4.
    assert (PD : Forall (fun ka => plain_attr (snd ka)) diff).
    { destruct (grad_parts wd rd wrt pred (pr_wf' _ _ _ P) (c_valid' _ _ _ _ _ P Hr) Hpr) as (diff' & nondiff & p & Hp & Es & Hf0). rewrite Hd in Hf0. injection Hf0 as <-.
      destruct (parts_two wd rd pred p (pr_wf' _ _ _ P) (c_valid' _ _ _ _ _ P Hr) Hp) as (s & d1 & n1 & Gs & Ws & Es' & W1 & _ & D1 & _).
      rewrite Es in Es'. injection Es' as <- <-. apply Forall_forall. intros [k0 a] Hi. apply (get_state_plain wd rd s (pr_wf' _ _ _ P) Gs k0 a).
      apply dget_In. apply D1. apply In_dget; [now apply wf_NoDup|exact Hi]. }
    destruct (IH _ (gradient_ok st ha D (the_loss ha (fun v => in_frame (plain body) None v rd) wd rd) diff res HD PD) w4 _ R env envd f fd (mv_pair _ _ _ _ _ _ M4) He) as (w3 & wd3 & res' & R3 & G1 & G2 & M2 & He3); auto.
    + eapply frames_move; eauto.
    + rewrite <- (pr_nodes _ _ _ (mv_pair _ _ _ _ _ _ M4)), (mv_nt _ _ _ _ _ _ M4), (pr_nodes _ _ _ P). exact J0.
    + exists w3, wd3, res', R3. split; [exact G1|]. split; [exact G2|]. split; [eapply moves_trans; eauto|exact He3].
  - destruct F as (rd & xd & Ei & Ex & Fc & F). destruct (nth_rel _ _ _ _ _ He Ei) as (r & Er & Hr). rewrite Er, Ei.
    destruct (held_same _ _ _ _ _ _ Hf Ex) as (x & Hx & Sx). rewrite Hx, Ex. rewrite (frames_streams _ _ _ _ Hf).
    destruct (apply_both J o _ _ _ (fun c => jax_arg (GVal c)) (w_nodes wd) HJ (scanned_both body (w_nodes wd) J0 Hb IHb) w wd R r rd P Hr eq_refl t c xs x xd (cw_streams fd))
      as (w4 & wd4 & res & ss & E1 & E2 & M4 & HK); auto.
    { now apply scan_ctx_same. }
    rewrite E1. rewrite E2 in *. destruct (IH res HK w4 wd4 R env envd (set_streams f ss) (set_streams fd ss) (mv_pair _ _ _ _ _ _ M4) He) as (w3 & wd3 & res' & R3 & G1 & G2 & M2 & He3); auto.
    + eapply frames_move; [exact M4|]. now apply frames_set.
    + rewrite <- (pr_nodes _ _ _ (mv_pair _ _ _ _ _ _ M4)), (mv_nt _ _ _ _ _ _ M4), (pr_nodes _ _ _ P). exact J0.
    + exists w3, wd3, res', R3. split; [exact G1|]. split; [exact G2|]. split; [eapply moves_trans; eauto|exact He3].
Qed.

End Programs.

(** the start: every module held, as it is *)
Lemma pair_start w env : wf_world w -> (forall r, In r env -> valid w r /\ live w r) -> pair w w (fun x y => x = y /\ exists r, In r env /\ reaches w r x).
Proof.
  intros W H. constructor; auto.
  - constructor.
    + intros x y [<- (r & Hr & Hx)]. destruct Hx as [p Hp]. destruct (follow_valid _ _ _ _ Hp) as [o Ho]. exists o, o. do 4 (split; [auto|]).
      intros n. destruct (dget n (m_vars o)) as [a|] eqn:D; [|exact Logic.I]. destruct (is_submodule a) eqn:S; [|now apply orel_refl_val].
      apply is_sub_inv in S as [z ->]. cbn. split; [reflexivity|]. exists r. split; [exact Hr|]. eapply reaches_trans; [exists p; exact Hp|]. eapply reaches_child; [exact W|]. exists o. split; [exact Ho|exact D].
    + intros x y y' [<- _] [<- _]. reflexivity.
    + intros x x' y [-> _] [-> _]. reflexivity.
  - intros x y o [<- (r & Hr & Hx)]. now apply (H r Hr).
  - intros x y o [<- (r & Hr & Hx)]. now apply (H r Hr).
Qed.
