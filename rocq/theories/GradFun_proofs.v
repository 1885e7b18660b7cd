(** GradFun_proofs: the function handed to jax.grad is the loss of the module with the
    given values. *)
From Coq Require Import Permutation Lia.
From Verif Require Import PyBase PyBaseFacts ValuesM Spec_Eq ValuesFacts FiltersM StateM Spec_State State_proofs ModuleM PureM Spec_Module Spec_Prog
  Graph_facts Dfs_proofs Build_proofs Bisim_proofs Skel_proofs RoundTrip_proofs Clone_proofs Update_proofs Write_proofs
  Laws_proofs Prog_proofs TransformM Transform_proofs History_proofs Leaf_proofs Scan_proofs Container_proofs ScanDeco_proofs Spec_Functional Functional_proofs
  GradFunM Spec_GradFun.
Local Open Scope string_scope.
Local Open Scope list_scope.

Lemma point_keys diff d : point diff d -> keys d = keys diff.
Proof. induction 1 as [|[k a] [k' b] diff d [E _] _ IH]; [reflexivity|]. cbn in *. subst. now f_equal. Qed.
Lemma point_get diff d : point diff d -> forall k a, dget k diff = Some a -> exists b, dget k d = Some b /\ point_attr a b.
Proof.
  induction 1 as [|[k' a'] [k'' b'] diff d [E P] _ IH]; intros k a; [discriminate|]. cbn in *. subst k''.
  destruct (String.eqb k k'); [intros [= <-]; eauto|apply IH].
Qed.
Lemma point_overwrites a b : point_attr a b -> overwrites a b b.
Proof.
  destruct a as [v|c], b as [v'|c']; cbn; try tauto. intros [H1 H2]. rewrite H1, H2. split; [reflexivity|]. split; [apply same_meta_refl|].
  destruct c' as [x y z]. cbn in *. now subst.
Qed.
Lemma point_plain a b : point_attr a b -> plain_attr a -> plain_attr b.
Proof.
  destruct a as [v|c], b as [v'|c']; cbn; try tauto.
  - intros H _. split; [exact Logic.I|]. destruct v'; cbn in *; tauto.
  - intros [H1 H2] [P _]. split; [|reflexivity]. unfold wf_attr, wf_container in *. now rewrite H1, H2.
Qed.
Lemma point_node w a b : point_attr a b -> In "jax.Array" (w_nodes w) -> node_value w a -> node_value w b.
Proof.
  destruct a as [v|c], b as [v'|c']; cbn; try tauto.
  - destruct v'; try tauto. intros H J _. exists "jax.Array". split; [exact J|exact H].
  - intros [H1 _] _ (t & T1 & T2). exists t. cbn in *. rewrite H1. auto.
Qed.

(** the given values put over those of [diff] *)
Definition over (d : state) (k : string) (a : attr) : attr := match dget k d with Some b => b | None => a end.
Lemma over_same diff d : NoDup (keys diff) -> keys d = keys diff -> on_values (over d) diff = d.
Proof.
  intros ND K. apply dict_ext.
  - now rewrite on_keys.
  - now rewrite on_keys.
  - intros k. rewrite on_dget. destruct (dget k diff) as [a|] eqn:E.
    + cbn. unfold over. destruct (dget k d) eqn:E2; [reflexivity|]. apply dget_None in E2. rewrite K in E2. apply dget_None in E2. congruence.
    + cbn. symmetry. apply dget_None. rewrite K. now apply dget_None.
Qed.
Lemma over_other d x : NoDup (keys x) -> (forall k, In k (keys x) -> ~ In k (keys d)) -> on_values (over d) x = x.
Proof.
  intros ND H. apply dict_ext; [now rewrite on_keys|apply on_keys|]. intros k. rewrite on_dget. destruct (dget k x) as [a|] eqn:E; [|reflexivity].
  cbn. unfold over. assert (Hk : ~ In k (keys d)). { apply H. destruct (in_dec string_dec k (keys x)) as [I|N]; [exact I|]. apply dget_None in N. congruence. } apply dget_None in Hk. now rewrite Hk.
Qed.

(** the two States of [partition(pred, ...)] *)
Lemma parts_two w r pred p : wf_world w -> valid w r -> module_partition w r [FPred pred; FEllipsis] = Ok p ->
  exists s diff nondiff, get_state w r = Ok s /\ wf_state s /\ p_states p = Many [diff; nondiff] /\ wf_state diff /\ wf_state nondiff /\
    (forall k a, dget k diff = Some a <-> dget k s = Some a /\ pred k a = true) /\
    (forall k a, dget k nondiff = Some a <-> dget k s = Some a /\ pred k a = false).
Proof.
  intros W V H. destruct (partition_ok_iff_state w r [FPred pred; FEllipsis] W V) as (d & s & Hd & Hs & Ws & E). rewrite E in H.
  destruct (grad_split s (FPred pred) pred Ws eq_refl) as (diff & nondiff & G1 & _). rewrite G1 in H. cbn in H. injection H as <-.
  exists s, diff, nondiff. split; [exact Hs|]. split; [exact Ws|]. split; [reflexivity|].
  cbn [partition_state] in G1. pose proof (partition_outputs_wf _ _ _ _ Ws G1) as F. cbn in F. inversion F as [|? ? F1 F2]. inversion F2 as [|? ? F3 _]. subst.
  split; [exact F1|]. split; [exact F3|].
  destruct (partition_inv _ _ _ _ Ws G1) as (ps & P1 & _ & P2 & _). cbn in P1. injection P1 as <-. cbn in P2. injection P2 as Q1 Q2.
  assert (ND := wf_NoDup _ Ws). split; intros k a.
  - rewrite Q1, dget_sub_of by exact ND. cbn. destruct (pred k a); split; intros [H1 H2]; auto; discriminate.
  - rewrite Q2, dget_sub_of by exact ND. cbn. destruct (pred k a); split; intros [H1 H2]; auto; discriminate.
Qed.

(** putting a point into the module *)
Lemma point_update w r pred p diff nondiff d : wf_world w -> valid w r -> names_ok w r -> live w r -> In "jax.Array" (w_nodes w) ->
  module_partition w r [FPred pred; FEllipsis] = Ok p -> p_states p = Many [diff; nondiff] -> point diff d ->
  exists w1, update_state w r (UStates (One d)) = (w1, Ok tt) /\ wf_world w1 /\ valid w1 r /\ names_ok w1 r /\ live w1 r /\ w_nodes w1 = w_nodes w /\
    parts_of (mkPure (Many [d; nondiff]) (p_def p)) w1 r.
Proof.
  intros W V N L J Hp Es P. pose proof (partition_parts p w r _ W V Hp) as [Pd Ps].
  destruct (parts_two w r pred p W V Hp) as (s & diff' & nondiff' & Gs & Ws & Es' & W1 & W2 & D1 & D2).
  rewrite Es in Es'. injection Es' as <- <-. rewrite Gs in Ps. symmetry in Ps.
  assert (KD := point_keys _ _ P).
  assert (IN : forall k a, dget k s = Some a -> forall b, dget k d = Some b -> dget k diff = Some a).
  { intros k a Ea b Eb. destruct (dget k diff) as [a'|] eqn:E.
    - apply D1 in E as [E _]. congruence.
    - apply dget_None in E. rewrite <- KD in E. apply dget_None in E. congruence. }
  assert (LAT : forall k, latest k [d] = dget k d) by reflexivity.
  destruct (update_state_effect w r (UStates (One d)) [d] s W V N L Gs eq_refl) as (w1 & E & F).
  { discriminate. }
  { constructor; [|constructor]. rewrite KD. now apply wf_NoDup. }
  { intros k b Eb. rewrite LAT in Eb. destruct (dget k diff) as [a|] eqn:Ea.
    - destruct (point_get _ _ P k a Ea) as (b' & Eb' & PA). assert (b' = b) by congruence. subst b'. apply D1 in Ea as [Ea _].
      assert (PL : plain_attr a) by (apply (get_state_plain w r s W Gs k a); eapply dget_In; exact Ea).
      destruct (point_plain _ _ PA PL) as [B1 B2]. split; [exact B1|]. split; [exact B2|]. exists a, b. split; [exact Ea|]. split; [now apply point_overwrites|].
      eapply point_node; eauto. eapply get_state_nodes; eauto.
    - apply dget_None in Ea. rewrite <- KD in Ea. apply dget_None in Ea. congruence. }
  exists w1. split; [exact E|]. destruct (ue_global _ _ _ _ _ F) as (Q1 & Q2 & Q3 & Q4).
  split; [apply (ue_wf _ _ _ _ _ F)|]. split; [unfold valid; rewrite Q4; exact V|]. split; [apply (ue_names _ _ _ _ _ F)|].
  split; [eapply effect_live; eauto|]. split; [exact Q3|]. split; cbn [p_def]; [rewrite (ue_def _ _ _ _ _ F); exact Pd|].
  assert (EQ : mkPure (Many [d; nondiff]) (p_def p) = mkPure (on_states (over d) (p_states p)) (p_def p)).
  { rewrite Es. cbn [on_states map]. rewrite over_same, over_other; [reflexivity| | | |].
    - now apply wf_NoDup.
    - intros k Hk Hd. rewrite KD in Hd. destruct (dget k nondiff) as [a|] eqn:Ea; [|apply dget_None in Ea; contradiction].
      destruct (dget k diff) as [b|] eqn:Eb; [|apply dget_None in Eb; contradiction]. apply D2 in Ea as [A1 A2]. apply D1 in Eb as [B1 B2]. congruence.
    - now apply wf_NoDup.
    - exact KD. }
  rewrite EQ, on_pure, Ps. cbn [rmap]. destruct (ue_state _ _ _ _ _ F) as (s' & G' & K & Vs). rewrite G'. f_equal. apply dict_ext.
  - rewrite K. now apply wf_NoDup.
  - now rewrite on_keys.
  - intros k. rewrite on_dget. destruct (dget k s) as [old|] eqn:Ek.
    + destruct (Vs k old Ek) as (res & R1 & R2). rewrite R1. cbn [option_map]. f_equal. rewrite LAT in R2. unfold over.
      destruct (dget k d) as [b|] eqn:Eb; [|exact R2]. pose proof (IN k old Ek b Eb) as Ed. destruct (point_get _ _ P k old Ed) as (b' & Eb' & PA).
      assert (b' = b) by congruence. subst b'. eapply overwrites_unique; [exact R2|]. now apply point_overwrites.
    + cbn. apply dget_None. rewrite K. now apply dget_None.
Qed.

Lemma get_state_valid w r s : get_state w r = Ok s -> valid w r.
Proof.
  intros H. destruct (get_obj w r) as [o|] eqn:Ho; [eapply get_obj_lt; eauto|]. exfalso. unfold get_state, iter_state in H. cbn in H. rewrite Ho in H. discriminate.
Qed.
Lemma grad_fn_loss (f : prog pyval) w r pred p diff nondiff d v t stateful has_aux : ok_prog f ->
  wf_world w -> valid w r -> names_ok w r -> live w r -> In "jax.Array" (w_nodes w) ->
  module_partition w r [FPred pred; FEllipsis] = Ok p -> p_states p = Many [diff; nondiff] -> point diff d ->
  wf_world v -> w_nodes v = w_nodes w ->
  grad_fn stateful has_aux t (user_fun f) v nondiff (p_def p) d = loss_with has_aux f w r d.
Proof.
  intros Hf W V N L J Hp Es P Wv Nv.
  destruct (point_update w r pred p diff nondiff d W V N L J Hp Es P) as (w1 & E & W1 & V1 & N1 & L1 & Q1 & PA).
  assert (H : holds v w1 r v (mkPure (Many [d; nondiff]) (p_def p))). { constructor; auto; [congruence|]. intros x o Ho; exact Ho. }
  destruct (run_parts f v w1 r v _ t Hf H) as (w2 & res & v1 & v2 & E1 & Hm & E2 & W2 & V2 & L2 & N2 & Wv2 & Nv2 & U & S2 & D2).
  unfold pure_merge in Hm. cbn [p_def p_states sts_list] in Hm. unfold grad_fn, loss_with. rewrite Hm, E. unfold user_fun. rewrite E2, E1.
  destruct res as [out|e]; [|reflexivity].
  destruct (get_state_total w2 r W2 V2) as (s2 & Gs2 & _).
  assert (G : get_state (set_trace v2 (w_trace v)) (List.length (w_heap v)) = get_state v2 (List.length (w_heap v))).
  { apply set_trace_state; [exact Wv2|]. rewrite <- S2 in Gs2. eapply get_state_valid; exact Gs2. }
  replace (if stateful then rmap (fun _ : state => tt) (get_state (set_trace v2 (w_trace v)) (List.length (w_heap v))) else Ok tt) with (@Ok unit tt).
  2:{ destruct stateful; [|reflexivity]. rewrite G, S2, Gs2. reflexivity. }
  unfold loss_of. destruct has_aux; [|reflexivity]. unfold unpack2.
  destruct out as [|b|z|x|l|x|c i]; try reflexivity.
  - destruct (stateful && negb (Nat.eqb (String.length x) 2)); reflexivity.
  - destruct l as [|a [|b [|c l]]]; try reflexivity; destruct stateful; reflexivity.
Qed.

(** the gradients that are returned *)
Lemma grad_tree_ext g h d : (forall k a, g k a = h k a) -> grad_tree g d = grad_tree h d.
Proof. intros H. unfold grad_tree. apply map_ext. intros [k a]. cbn. now rewrite H. Qed.

Lemma grad_op_loss D (f : prog pyval) w r pred p diff nondiff v t stateful has_aux : differentiates D -> ok_prog f ->
  wf_world w -> valid w r -> names_ok w r -> live w r -> In "jax.Array" (w_nodes w) ->
  module_partition w r [FPred pred; FEllipsis] = Ok p -> p_states p = Many [diff; nondiff] ->
  wf_world v -> w_nodes v = w_nodes w ->
  forall k a, D (grad_fn stateful has_aux t (user_fun f) v nondiff (p_def p)) diff k a = D (loss_with has_aux f w r) diff k a.
Proof. intros HD Hf W V N L J Hp Es Wv Nv. apply HD. intros d P. eapply grad_fn_loss; eauto. Qed.

Lemma grad_call_fn_open D (f : prog pyval) w r wrt pred t stateful has_aux : wf_world w -> valid w r -> to_predicate wrt = Ok pred ->
  exists diff nondiff p, module_partition w r [FPred pred; FEllipsis] = Ok p /\ p_states p = Many [diff; nondiff] /\ module_filter w r wrt [] = Ok (One diff) /\
    grad_call_fn stateful has_aux wrt t D (user_fun f) w r =
    grad_call stateful has_aux wrt t (D (grad_fn stateful has_aux t (user_fun f) w nondiff (p_def p)) diff) (user_fun f) w r.
Proof.
  intros W V Hp. destruct (grad_parts w r wrt pred W V Hp) as (diff & nondiff & p & H1 & H2 & H3). exists diff, nondiff, p.
  split; [exact H1|]. split; [exact H2|]. split; [exact H3|]. unfold grad_call_fn. rewrite Hp. cbn [rbind]. rewrite H1, H2. reflexivity.
Qed.

(** modules with the same parts have the same loss functions *)
Lemma loss_with_parts (f : prog pyval) w r w' r' pred p p' diff nondiff d has_aux : ok_prog f ->
  wf_world w -> valid w r -> names_ok w r -> live w r -> In "jax.Array" (w_nodes w) ->
  wf_world w' -> valid w' r' -> names_ok w' r' -> live w' r' -> w_nodes w' = w_nodes w ->
  module_partition w r [FPred pred; FEllipsis] = Ok p -> module_partition w' r' [FPred pred; FEllipsis] = Ok p' -> p' = p ->
  p_states p = Many [diff; nondiff] -> point diff d -> loss_with has_aux f w' r' d = loss_with has_aux f w r d.
Proof.
  intros Hf W V N L J W' V' N' L' Nn Hp Hp' -> Es P.
  rewrite <- (grad_fn_loss f w r pred p diff nondiff d w (0, 0) false has_aux Hf W V N L J Hp Es P W eq_refl).
  symmetry. eapply grad_fn_loss; eauto. now rewrite Nn.
Qed.
