(** jit and grad. *)
From Coq Require Import Permutation Lia.
From Verif Require Import PyBase PyBaseFacts ValuesM Spec_Eq ValuesFacts FiltersM StateM Spec_State State_proofs ModuleM Spec_Module Spec_History Spec_Prog
  Graph_facts Dfs_proofs Build_proofs Bisim_proofs Skel_proofs RoundTrip_proofs Clone_proofs Update_proofs Write_proofs History_proofs
  Laws_proofs Grow_proofs Prog_proofs TransformM.
Local Open Scope string_scope.
Local Open Scope list_scope.

Lemma set_trace_get w t x : get_obj (set_trace w t) x = get_obj w x.
Proof. reflexivity. Qed.

Lemma set_trace_wf w t : wf_world w -> wf_world (set_trace w t).
Proof. intros [H1 H2]. constructor; [exact H1|]. intros r o Ho. destruct (H2 r o Ho). constructor; auto. Qed.

Lemma set_trace_bisim w t : wf_world w -> bisim w (set_trace w t) (fun x y => x = y /\ valid w x).
Proof. intros Hw. apply extends_bisim; [|exact Hw]. exists []. cbn. now rewrite app_nil_r. Qed.

Lemma set_trace_state w t r : wf_world w -> valid w r -> get_state (set_trace w t) r = get_state w r.
Proof.
  intros Hw Hr. symmetry. eapply bisim_get_state; [exact Hw|now apply set_trace_wf|now apply set_trace_bisim|reflexivity|]. cbn. auto.
Qed.

(** the copy made inside the transform, seen next to the module itself *)
Lemma inner_pair w r fs p t states : wf_world w -> valid w r -> names_ok w r -> live w r -> module_partition w r fs = Ok p ->
  Permutation states (sts_list (p_states p)) ->
  exists m w1 R, merge (set_trace w t) (p_def p) states = Ok (m, w1) /\ pair w w1 R /\ R r m /\
    (forall x y, R x y -> reaches w r x /\ List.length (w_heap w) <= y) /\ all_unchanged w w1 /\ w_trace w1 = t /\ valid w1 m.
Proof.
  intros Hw Hr Hno Hlive Hp Hperm.
  destruct (partition_merge_bisim w r fs p (set_trace w t) states Hw Hr Hno Hp Hperm) as (d & L & w1 & objs & Hg & Ed & Hm & HM).
  pose proof (merged_root _ _ _ _ _ _ _ Hr Hg HM) as Hroot. pose proof (mg_bisim _ _ _ _ _ HM) as HB.
  assert (Hw1 : wf_world w1) by (eapply merged_wf; [exact Hw|apply set_trace_wf; exact Hw|exact Hr|exact Hg|exact HM]).
  exists (List.length (w_heap w)), w1, (copyR L (List.length (w_heap w))). rewrite Ed. split; [exact Hm|].
  split.
  { constructor; auto.
    - rewrite (mg_nodes _ _ _ _ _ HM). reflexivity.
    - intros x y o [Hx _] Ho. eapply Hlive; [|exact Ho]. now apply (graph_reaches _ _ _ _ Hw Hr Hg).
    - intros x y o Hxy Ho. rewrite (mg_trace _ _ _ _ _ HM).
      assert (Hy : List.length (w_heap w) <= y). { destruct Hxy as [_ ->]. unfold phi. lia. }
      unfold get_obj in Ho. rewrite (mg_heap _ _ _ _ _ HM), nth_error_app2 in Ho by exact Hy.
      apply nth_error_In in Ho. pose proof (mg_otrace _ _ _ _ _ HM) as F. rewrite Forall_forall in F. apply F. exact Ho. }
  split; [exact Hroot|]. split.
  { intros x y [Hx ->]. split; [now apply (graph_reaches _ _ _ _ Hw Hr Hg)|]. unfold phi. lia. }
  split. { intros x o Ho. eapply extends_get; [eapply merged_extends; exact HM|exact Ho]. }
  split; [apply HM|]. apply (bisim_valid _ _ _ _ _ HB Hroot).
Qed.

(** running a program directly and inside *)
Lemma inner_run {A} (f : prog A) w r fs p t states : ok_prog f -> wf_world w -> valid w r -> names_ok w r -> live w r ->
  module_partition w r fs = Ok p -> Permutation states (sts_list (p_states p)) ->
  exists m w1 wd w2 res, merge (set_trace w t) (p_def p) states = Ok (m, w1) /\ user_fun f w r = (wd, res) /\ user_fun f w1 m = (w2, res) /\
    wf_world wd /\ wf_world w2 /\ valid w2 m /\ valid wd r /\ w_nodes wd = w_nodes w /\ w_nodes w2 = w_nodes w /\
    all_unchanged w (set_trace w2 (w_trace w)) /\ get_state (set_trace w2 (w_trace w)) m = get_state wd r.
Proof.
  intros Hf Hw Hr Hno Hlive Hp Hperm.
  destruct (inner_pair w r fs p t states Hw Hr Hno Hlive Hp Hperm) as (m & w1 & R & Hm & HP & Hrm & HR & Hun & Ht & Hv).
  destruct (run_pair f Hf w w1 R [r] [m] HP) as (wd & w2 & res & R2 & E1 & E2 & M). { constructor; [exact Hrm|constructor]. }
  pose proof (mv_pair _ _ _ _ _ _ M) as HP2. pose proof (mv_incl _ _ _ _ _ _ M _ _ Hrm) as Hrm2.
  destruct (bisim_valid _ _ _ _ _ (pr_bi _ _ _ HP2) Hrm2) as [Vr Vm].
  exists m, w1, wd, w2, res. split; [exact Hm|]. split; [exact E1|]. split; [exact E2|].
  split; [apply HP2|]. split; [apply HP2|]. split; [exact Vm|]. split; [exact Vr|]. split; [apply (mv_nt _ _ _ _ _ _ M)|].
  split. { rewrite <- (pr_nodes _ _ _ HP2). apply (mv_nt _ _ _ _ _ _ M). }
  split.
  { intros x o Ho. rewrite set_trace_get. assert (Hx1 := Hun x o Ho). rewrite (mv_fr' _ _ _ _ _ _ M); [exact Hx1|eapply get_obj_lt; exact Hx1|].
    intros y Hy. apply HR in Hy as [_ Hy]. apply get_obj_lt in Ho. lia. }
  rewrite set_trace_state by (auto; apply HP2). symmetry.
  eapply bisim_get_state; [apply HP2|apply HP2|apply HP2|apply HP2|exact Hrm2].
Qed.

Lemma partition_all w r : wf_world w -> valid w r -> exists p s, module_partition w r [] = Ok p /\ p_states p = One s.
Proof.
  intros Hw Hr. destruct (partition_ok_iff_state w r [] Hw Hr) as (d & s & _ & _ & _ & H). cbn in H. exists (mkPure (One s) d), s. auto.
Qed.

(** [nodes_only], [names_ok], [live] only look below [r] *)
Lemma unchanged_follow w w' : wf_world w -> all_unchanged w w' -> forall p x, valid w x -> follow w' x p = follow w x p.
Proof.
  intros Hw H. induction p as [|n p IH]; intros x Hx; destruct (get_obj_ex _ _ Hx) as [o Ho]; cbn; rewrite Ho, (H _ _ Ho); [reflexivity|].
  destruct (dget n (m_vars o)) as [[[]|]|] eqn:E; try reflexivity. apply IH. exact (wfo_refs _ _ (wf_objs _ Hw _ _ Ho) _ _ E).
Qed.
Lemma unchanged_reaches w w' r x : wf_world w -> all_unchanged w w' -> valid w r -> reaches w' r x <-> reaches w r x.
Proof. intros Hw H Hr. unfold reaches. split; intros [p Hp]; exists p; [rewrite <- (unchanged_follow w w')|rewrite (unchanged_follow w w')]; auto. Qed.
Lemma unchanged_get w w' r x : all_unchanged w w' -> reaches w r x -> get_obj w' x = get_obj w x.
Proof. intros H [p Hp]. destruct (get_obj w x) as [o|] eqn:E; [apply H; exact E|]. apply follow_valid in Hp as [o Ho]. congruence. Qed.

Lemma unchanged_names w w' r : wf_world w -> valid w r -> all_unchanged w w' -> w_nodes w' = w_nodes w -> names_ok w r -> names_ok w' r.
Proof.
  intros Hw Hr H Hn Hno x o n a Hx Ho Hd. apply (unchanged_reaches w w') in Hx; auto.
  assert (Ho2 : get_obj w x = Some o) by (rewrite <- (unchanged_get w w' r x H Hx); exact Ho).
  destruct (Hno x o n a Hx Ho2 Hd) as (A & B & C). split; [exact A|].
  split; intros (o' & E1 & E2 & E3 & E4); (assert (o' = o) by congruence); subst o'.
  - apply B. exists o. rewrite <- Hn. auto.
  - apply C. exists o. rewrite <- Hn. auto.
Qed.

(** transferring the effect *)
Lemma transfer w wd w3 r s : wf_world w -> valid w r -> names_ok w r -> live w r -> wf_world wd -> names_ok wd r ->
  nodes_only w wd r -> wf_world w3 -> all_unchanged w w3 -> w_trace w3 = w_trace w -> w_nodes w3 = w_nodes w ->
  get_state wd r = Ok s ->
  exists w4, update_state w3 r (UStates (One s)) = (w4, Ok tt) /\ wf_world w4 /\ w_trace w4 = w_trace w /\ w_nodes w4 = w_nodes w /\
    bisim w4 wd (fun x y => x = y /\ reaches w r x) /\
    (forall x o, get_obj w x = Some o -> ~ reaches w r x -> get_obj w4 x = Some o).
Proof.
  intros Hw Hr Hno Hlive Hwd Hnod HN Hw3 Hun Htr Hnt Hs.
  assert (Hreach : forall x, reaches w3 r x <-> reaches w r x) by (intros x; now apply unchanged_reaches).
  assert (HN3 : nodes_only w3 wd r).
  { destruct HN as [N1 N2]. split; [congruence|]. intros x Hx. apply Hreach in Hx. destruct (N2 x Hx) as (o & o1 & A & B & C & D & E).
    exists o, o1. split; [now apply Hun|]. split; [exact B|]. split; [exact C|]. split; [exact D|]. intros n. specialize (E n).
    destruct (dget n (m_vars o)) as [a|] eqn:Ea; [|exact E]. destruct (dget n (m_vars o1)) as [b|]; [|exact E].
    destruct E as [E|(E1 & E2 & E3)]; [now left|right]. split; [|auto]. destruct E1 as (o2 & F1 & F2 & F3 & F4).
    exists o2. rewrite Hnt. split; [now apply Hun|]. auto. }
  destruct (update_carries w3 wd r s Hw3 Hwd) as (w4 & H1 & H2 & H3 & H4 & H5 & H6 & _); auto.
  - destruct (get_obj_ex _ _ Hr) as [o Ho]. eapply get_obj_lt. apply Hun. exact Ho.
  - apply (unchanged_names w w3); auto.
  - intros x o Hx Ho. apply Hreach in Hx. rewrite (unchanged_get w w3 r x Hun Hx) in Ho. rewrite Htr. eapply Hlive; eauto.
  - exists w4. split; [exact H1|]. split; [exact H2|]. split; [congruence|]. split; [congruence|]. split.
    { destruct H3 as [B1 B2 B3]. constructor.
      - intros x y [-> Hx]. destruct (B1 y y) as (o & o' & C1 & C2 & C3 & C4 & C5). { split; [reflexivity|now apply Hreach]. }
        exists o, o'. repeat (split; [assumption|]). intros n. specialize (C5 n).
        destruct (dget n (m_vars o)) as [[[]|]|], (dget n (m_vars o')) as [[[]|]|]; cbn in *; try tauto.
        destruct C5 as [C5 C6]. split; [exact C5|now apply Hreach].
      - intros x y y' [-> _] [-> _]. reflexivity.
      - intros x x' y [-> _] [-> _]. reflexivity. }
    intros x o Ho Hx. rewrite H4; [now apply Hun|]. intros G. apply Hreach in G. contradiction.
Qed.

(** ** jit *)
Theorem jit_same {A} (f : prog A) w r t wd out :
  ok_prog f -> wf_world w -> valid w r -> names_ok w r -> live w r ->
  user_fun f w r = (wd, Ok out) -> nodes_only w wd r -> names_ok wd r ->
  exists w4, jit_call true t (user_fun f) w r = (w4, Ok out) /\ wf_world w4 /\ w_trace w4 = w_trace w /\ w_nodes w4 = w_nodes w /\
    bisim w4 wd (fun x y => x = y /\ reaches w r x) /\
    (forall x o, get_obj w x = Some o -> ~ reaches w r x -> get_obj w4 x = Some o).
Proof.
  intros Hf Hw Hr Hno Hlive Hrun HN Hnod. destruct (partition_all w r Hw Hr) as (p & s & Hp & Es).
  destruct (inner_run f w r [] p t [s] Hf Hw Hr Hno Hlive Hp) as (m & w1 & wd' & w2 & res & Hm & E1 & E2 & W1 & W2 & V2 & Vd & N1 & N2 & Hun & Hst).
  { rewrite Es. reflexivity. }
  rewrite Hrun in E1. injection E1 as <- <-.
  destruct (get_state_total wd r W1 Vd) as (sd & Hsd & _).
  destruct (transfer w wd (set_trace w2 (w_trace w)) r sd Hw Hr Hno Hlive W1 Hnod HN) as (w4 & F & G); auto using set_trace_wf.
  exists w4. split; [|exact G]. unfold jit_call, jitted_fn. rewrite Hp. unfold pure_merge. rewrite Es. cbn [sts_list].
  rewrite Hm, E2, Hst, Hsd, F. reflexivity.
Qed.

Theorem jit_raises {A} (f : prog A) w r t stateful wd e :
  ok_prog f -> wf_world w -> valid w r -> names_ok w r -> live w r -> user_fun f w r = (wd, Err e) ->
  exists w4, jit_call stateful t (user_fun f) w r = (w4, Err e) /\ all_unchanged w w4 /\ w_trace w4 = w_trace w.
Proof.
  intros Hf Hw Hr Hno Hlive Hrun. destruct (partition_all w r Hw Hr) as (p & s & Hp & Es).
  destruct (inner_run f w r [] p t [s] Hf Hw Hr Hno Hlive Hp) as (m & w1 & wd' & w2 & res & Hm & E1 & E2 & W1 & W2 & V2 & Vd & N1 & N2 & Hun & Hst).
  { rewrite Es. reflexivity. }
  rewrite Hrun in E1. injection E1 as <- <-. exists (set_trace w2 (w_trace w)). split; [|split; [exact Hun|reflexivity]].
  unfold jit_call, jitted_fn. rewrite Hp. unfold pure_merge. rewrite Es. cbn [sts_list]. rewrite Hm, E2. reflexivity.
Qed.

Theorem jit_stateless {A} (f : prog A) w r t wd res :
  ok_prog f -> wf_world w -> valid w r -> names_ok w r -> live w r -> user_fun f w r = (wd, res) ->
  exists w4, jit_call false t (user_fun f) w r = (w4, res) /\ all_unchanged w w4 /\ w_trace w4 = w_trace w.
Proof.
  intros Hf Hw Hr Hno Hlive Hrun. destruct (partition_all w r Hw Hr) as (p & s & Hp & Es).
  destruct (inner_run f w r [] p t [s] Hf Hw Hr Hno Hlive Hp) as (m & w1 & wd' & w2 & res' & Hm & E1 & E2 & W1 & W2 & V2 & Vd & N1 & N2 & Hun & Hst).
  { rewrite Es. reflexivity. }
  rewrite Hrun in E1. injection E1 as <- <-. exists (set_trace w2 (w_trace w)).
  unfold jit_call, jitted_fn. rewrite Hp. unfold pure_merge. rewrite Es. cbn [sts_list]. rewrite Hm, E2.
  destruct res; (split; [reflexivity|split; [exact Hun|reflexivity]]).
Qed.

(** attributes never disappear *)
Lemma put_kept w x o n a x' o' n' : get_obj w x = Some o -> get_obj w x' = Some o' -> In n' (keys (m_vars o')) ->
  exists o2, get_obj (put_obj w x (set_vars o (dset n a (m_vars o)))) x' = Some o2 /\ In n' (keys (m_vars o2)).
Proof.
  intros Ho Ho' Hn. destruct (Nat.eq_dec x x') as [<-|Hne].
  - rewrite (get_put_same _ _ _ _ Ho). eexists. split; [reflexivity|]. assert (o' = o) by congruence. subst o'. cbn.
    apply In_keys_dset. now right.
  - rewrite get_put_other by assumption. eauto.
Qed.

Lemma set_path_kept w p a : forall r w', set_path w r p a = Ok w' -> forall x o n, get_obj w x = Some o -> In n (keys (m_vars o)) ->
  exists o', get_obj w' x = Some o' /\ In n (keys (m_vars o')).
Proof.
  induction p as [|m p IH]; intros r w' H x o n Ho Hn; [discriminate|]. destruct p as [|m' p].
  - cbn [set_path] in H. apply setattr_inv in H as (o1 & a' & G1 & _ & _ & _ & ->). eapply put_kept; eauto.
  - change (set_path w r (m :: m' :: p) a) with
      (match get_obj w r with None => Err OutOfModel | Some o => match dget m (m_vars o) with
         | Some (ARaw (PyMod r')) => set_path w r' (m' :: p) a | Some _ => Err OutOfModel
         | None => if String.eqb m "_module__state" then Err OutOfModel else Err KeyError end end) in H.
    destruct (get_obj w r) as [o1|]; [|discriminate]. destruct (dget m (m_vars o1)) as [[[]|]|]; try discriminate.
    + eapply IH; eauto.
    + destruct (String.eqb m "_module__state"); discriminate.
Qed.

Lemma update_loop_kept items : forall w r w' res, update_loop w r items = (w', res) -> forall x o n, get_obj w x = Some o -> In n (keys (m_vars o)) ->
  exists o', get_obj w' x = Some o' /\ In n (keys (m_vars o')).
Proof.
  induction items as [|[k a] items IH]; intros w r w' res H x o n Ho Hn; cbn in H; [injection H as <- <-; eauto|].
  destruct (set_path w r (split_slash k) a) as [w1|e] eqn:E; [|injection H as <- <-; eauto].
  destruct (set_path_kept _ _ _ _ _ E _ _ _ Ho Hn) as (o1 & Ho1 & Hn1). eauto.
Qed.

Lemma update_states_kept w r u w' res : update_state w r (UStates u) = (w', res) -> forall x o n, get_obj w x = Some o -> In n (keys (m_vars o)) ->
  exists o', get_obj w' x = Some o' /\ In n (keys (m_vars o')).
Proof.
  unfold update_state. destruct (get_state w r); [|intros [= <- <-]; eauto]. intros H. eapply update_loop_kept. exact H.
Qed.

Theorem jit_keeps {A} (f : prog A) w r t stateful w4 res :
  ok_prog f -> wf_world w -> valid w r -> names_ok w r -> live w r -> jit_call stateful t (user_fun f) w r = (w4, res) ->
  forall x o n, get_obj w x = Some o -> In n (keys (m_vars o)) -> exists o', get_obj w4 x = Some o' /\ In n (keys (m_vars o')).
Proof.
  intros Hf Hw Hr Hno Hlive H x o n Ho Hn. destruct (partition_all w r Hw Hr) as (p & s & Hp & Es).
  destruct (inner_run f w r [] p t [s] Hf Hw Hr Hno Hlive Hp) as (m & w1 & wd' & w2 & res' & Hm & E1 & E2 & W1 & W2 & V2 & Vd & N1 & N2 & Hun & Hst).
  { rewrite Es. reflexivity. }
  apply Hun in Ho. unfold jit_call, jitted_fn in H. rewrite Hp in H. unfold pure_merge in H. rewrite Es in H. cbn [sts_list] in H.
  rewrite Hm, E2 in H. destruct res' as [out|e]; [|injection H as <- <-; eauto].
  destruct stateful; [|injection H as <- <-; eauto].
  destruct (get_state (set_trace w2 (w_trace w)) m) as [u|e]; [|injection H as <- <-; eauto].
  destruct (update_state (set_trace w2 (w_trace w)) r (UStates (One u))) as [w5 [[]|e]] eqn:E; injection H as <- <-; eapply update_states_kept; eauto.
Qed.

(** ** grad *)
Lemma grad_split s wrt pred : wf_state s -> to_predicate wrt = Ok pred ->
  exists diff nondiff, partition_state s [FPred pred; FEllipsis] = Ok (Many [diff; nondiff]) /\ state_filter s wrt [] = Ok (One diff).
Proof.
  intros Hs Hp.
  destruct (split_state s [FPred pred; FEllipsis]) as [l|e] eqn:E1; [|cbn in E1; discriminate].
  destruct (split_state_ok s _ l Hs E1) as (ps & P1 & _ & L1). cbn in P1. injection P1 as <-. cbn in L1.
  destruct (split_state s [wrt]) as [l'|e] eqn:E2.
  2:{ unfold split_state in E2. cbn [ellipsis_misplaced rmapM] in E2. rewrite Hp in E2. destruct (is_ellipsis wrt); cbn in E2; discriminate. }
  destruct (split_state_ok s _ l' Hs E2) as (ps & P2 & _ & L2). cbn in P2. rewrite Hp in P2. cbn in P2. injection P2 as <-. cbn in L2.
  assert (D : sub_of [pred; fun _ _ => true] 0 s = sub_of [pred] 0 s).
  { unfold sub_of. apply filter_ext. intros [k v]. cbn. destruct (pred k v); reflexivity. }
  assert (N : sub_of [pred; fun _ _ => true] 2 s = []).
  { unfold sub_of. clear. induction s as [|[k v] s IH]; cbn; [reflexivity|]. destruct (pred k v); exact IH. }
  exists (sub_of [pred] 0 s), (sub_of [pred; fun _ _ => true] 1 s). split.
  - unfold partition_state, state_partition. rewrite E1. cbn [rbind]. rewrite L1, N, D. cbn [last removelast].
    f_equal. unfold pack. cbn [map]. rewrite !mk_state_id by (now apply sub_of_wf). reflexivity.
  - unfold state_filter. rewrite E2. cbn [rbind]. rewrite L2. cbn [removelast]. unfold pack.
    rewrite mk_state_id by (now apply sub_of_wf). reflexivity.
Qed.

Lemma grad_tree_keys g d : keys (grad_tree g d) = keys d.
Proof. unfold keys, grad_tree. rewrite map_map. reflexivity. Qed.

Lemma grad_tree_get g d k a : dget k d = Some a -> dget k (grad_tree g d) = Some (with_value a (g k a)).
Proof.
  induction d as [|[k' a'] d IH]; cbn; [discriminate|]. destruct (String.eqb_spec k k') as [->|]; [intros [= <-]; reflexivity|exact IH].
Qed.

(** what the successful calls have in common *)
Lemma grad_parts w r wrt pred : wf_world w -> valid w r -> to_predicate wrt = Ok pred ->
  exists diff nondiff p, module_partition w r [FPred pred; FEllipsis] = Ok p /\ p_states p = Many [diff; nondiff] /\
    module_filter w r wrt [] = Ok (One diff).
Proof.
  intros Hw Hr Hp. destruct (partition_ok_iff_state w r [FPred pred; FEllipsis] Hw Hr) as (d & s & Hd & Hs & Hwf & H).
  destruct (grad_split s wrt pred Hwf Hp) as (diff & nondiff & G1 & G2). rewrite G1 in H. cbn in H.
  exists diff, nondiff, (mkPure (Many [diff; nondiff]) d). split; [exact H|]. split; [reflexivity|]. unfold module_filter. now rewrite Hs.
Qed.

Definition aux_of (stateful has_aux : bool) (out : pyval) : result (option pyval) :=
  if has_aux then rmap (fun la => Some (snd la)) (unpack2 stateful out) else Ok None.

Theorem grad_same (f : prog pyval) w r wrt t g has_aux wd out aux pred :
  ok_prog f -> wf_world w -> valid w r -> names_ok w r -> live w r -> to_predicate wrt = Ok pred ->
  user_fun f w r = (wd, Ok out) -> aux_of true has_aux out = Ok aux -> nodes_only w wd r -> names_ok wd r ->
  exists w4 diff, module_filter w r wrt [] = Ok (One diff) /\
    grad_call true has_aux wrt t g (user_fun f) w r = (w4, Ok (grad_tree g diff, aux)) /\ wf_world w4 /\ w_trace w4 = w_trace w /\ w_nodes w4 = w_nodes w /\
    bisim w4 wd (fun x y => x = y /\ reaches w r x) /\
    (forall x o, get_obj w x = Some o -> ~ reaches w r x -> get_obj w4 x = Some o).
Proof.
  intros Hf Hw Hr Hno Hlive Hpr Hrun Haux HN Hnod. destruct (grad_parts w r wrt pred Hw Hr Hpr) as (diff & nondiff & p & Hp & Es & Hfl).
  destruct (inner_run f w r _ p t [diff; nondiff] Hf Hw Hr Hno Hlive Hp) as (m & w1 & wd' & w2 & res & Hm & E1 & E2 & W1 & W2 & V2 & Vd & N1 & N2 & Hun & Hst).
  { rewrite Es. reflexivity. }
  rewrite Hrun in E1. injection E1 as <- <-.
  destruct (get_state_total wd r W1 Vd) as (sd & Hsd & _).
  destruct (transfer w wd (set_trace w2 (w_trace w)) r sd Hw Hr Hno Hlive W1 Hnod HN) as (w4 & F & G); auto using set_trace_wf.
  exists w4, diff. split; [exact Hfl|]. split; [|exact G]. unfold grad_call. rewrite Hpr. cbn [rbind]. rewrite Hp, Es, Hm, E2.
  unfold aux_of in Haux. rewrite Haux, Hst, Hsd, F. reflexivity.
Qed.

Theorem grad_stateless (f : prog pyval) w r wrt t g has_aux wd out aux pred :
  ok_prog f -> wf_world w -> valid w r -> names_ok w r -> live w r -> to_predicate wrt = Ok pred ->
  user_fun f w r = (wd, Ok out) -> aux_of false has_aux out = Ok aux ->
  exists w4 diff, module_filter w r wrt [] = Ok (One diff) /\
    grad_call false has_aux wrt t g (user_fun f) w r = (w4, Ok (grad_tree g diff, aux)) /\ all_unchanged w w4 /\ w_trace w4 = w_trace w.
Proof.
  intros Hf Hw Hr Hno Hlive Hpr Hrun Haux. destruct (grad_parts w r wrt pred Hw Hr Hpr) as (diff & nondiff & p & Hp & Es & Hfl).
  destruct (inner_run f w r _ p t [diff; nondiff] Hf Hw Hr Hno Hlive Hp) as (m & w1 & wd' & w2 & res & Hm & E1 & E2 & W1 & W2 & V2 & Vd & N1 & N2 & Hun & Hst).
  { rewrite Es. reflexivity. }
  rewrite Hrun in E1. injection E1 as <- <-.
  exists (set_trace w2 (w_trace w)), diff. split; [exact Hfl|]. unfold grad_call. rewrite Hpr. cbn [rbind]. rewrite Hp, Es, Hm, E2.
  unfold aux_of in Haux. rewrite Haux. split; [reflexivity|]. split; [exact Hun|reflexivity].
Qed.

(** a result that is no pair *)
Theorem grad_no_pair (f : prog pyval) w r wrt t g stateful wd out e pred :
  ok_prog f -> wf_world w -> valid w r -> names_ok w r -> live w r -> to_predicate wrt = Ok pred ->
  user_fun f w r = (wd, Ok out) -> aux_of stateful true out = Err e ->
  exists w4, grad_call stateful true wrt t g (user_fun f) w r = (w4, Err e) /\ all_unchanged w w4 /\ w_trace w4 = w_trace w.
Proof.
  intros Hf Hw Hr Hno Hlive Hpr Hrun Haux. destruct (grad_parts w r wrt pred Hw Hr Hpr) as (diff & nondiff & p & Hp & Es & Hfl).
  destruct (inner_run f w r _ p t [diff; nondiff] Hf Hw Hr Hno Hlive Hp) as (m & w1 & wd' & w2 & res & Hm & E1 & E2 & W1 & W2 & V2 & Vd & N1 & N2 & Hun & Hst).
  { rewrite Es. reflexivity. }
  rewrite Hrun in E1. injection E1 as <- <-.
  exists (set_trace w2 (w_trace w)). unfold grad_call. rewrite Hpr. cbn [rbind]. rewrite Hp, Es, Hm, E2.
  unfold aux_of in Haux. rewrite Haux. split; [reflexivity|]. split; [exact Hun|reflexivity].
Qed.

Theorem grad_raises (f : prog pyval) w r wrt t g stateful has_aux wd e pred :
  ok_prog f -> wf_world w -> valid w r -> names_ok w r -> live w r -> to_predicate wrt = Ok pred ->
  user_fun f w r = (wd, Err e) ->
  exists w4, grad_call stateful has_aux wrt t g (user_fun f) w r = (w4, Err e) /\ all_unchanged w w4 /\ w_trace w4 = w_trace w.
Proof.
  intros Hf Hw Hr Hno Hlive Hpr Hrun. destruct (grad_parts w r wrt pred Hw Hr Hpr) as (diff & nondiff & p & Hp & Es & Hfl).
  destruct (inner_run f w r _ p t [diff; nondiff] Hf Hw Hr Hno Hlive Hp) as (m & w1 & wd' & w2 & res & Hm & E1 & E2 & W1 & W2 & V2 & Vd & N1 & N2 & Hun & Hst).
  { rewrite Es. reflexivity. }
  rewrite Hrun in E1. injection E1 as <- <-.
  exists (set_trace w2 (w_trace w)). unfold grad_call. rewrite Hpr. cbn [rbind]. rewrite Hp, Es, Hm, E2. split; [reflexivity|]. split; [exact Hun|reflexivity].
Qed.
