(** Functional_proofs: a program on the parts of a module does what it does on
    the module. *)
From Coq Require Import Permutation Lia.
From Verif Require Import PyBase PyBaseFacts ValuesM Spec_Eq ValuesFacts FiltersM StateM Spec_State State_proofs ModuleM PureM Spec_Module Spec_Prog
  Graph_facts Dfs_proofs Build_proofs Bisim_proofs Skel_proofs RoundTrip_proofs Clone_proofs Update_proofs Write_proofs
  Laws_proofs Prog_proofs TransformM Transform_proofs History_proofs Leaf_proofs Scan_proofs Container_proofs ScanDeco_proofs Spec_Functional.
Local Open Scope string_scope.
Local Open Scope list_scope.

(** ** rewriting values *)
Section G.
Variable g : string -> attr -> attr.
Lemma on_dget k (d : state) : dget k (on_values g d) = option_map (g k) (dget k d).
Proof. induction d as [|[k' v] t IH]; [reflexivity|]. cbn. destruct (String.eqb_spec k k') as [->|]; [reflexivity|exact IH]. Qed.
Lemma on_keys (d : state) : keys (on_values g d) = keys d.
Proof. unfold keys, on_values. rewrite map_map. reflexivity. Qed.
Lemma on_dset k v (d : state) : on_values g (dset k v d) = dset k (g k v) (on_values g d).
Proof.
  induction d as [|[k' v'] t IH]; [reflexivity|]. cbn. destruct (String.eqb_spec k k') as [->|]; [reflexivity|]. cbn. f_equal. exact IH.
Qed.
Lemma on_dupdate (s : state) : forall d, on_values g (dupdate d s) = dupdate (on_values g d) (on_values g s).
Proof.
  induction s as [|[k v] t IH]; intros d; [reflexivity|]. change (dupdate d ((k, v) :: t)) with (dupdate (dset k v d) t).
  rewrite IH, on_dset. reflexivity.
Qed.
Lemma on_insert x (l : state) : on_values g (insert_by_key x l) = insert_by_key (fst x, g (fst x) (snd x)) (on_values g l).
Proof. induction l as [|y t IH]; [reflexivity|]. cbn. destruct (String.leb (fst x) (fst y)); [reflexivity|]. cbn. f_equal. exact IH. Qed.
Lemma on_sort (l : state) : on_values g (sort_by_key l) = sort_by_key (on_values g l).
Proof.
  induction l as [|x t IH]; [reflexivity|]. change (on_values g (x :: t)) with ((fst x, g (fst x) (snd x)) :: on_values g t). cbn [sort_by_key].
  rewrite on_insert, IH. reflexivity.
Qed.
Lemma on_mk (l : state) : on_values g (mk_state l) = mk_state (on_values g l).
Proof. unfold mk_state, dict_of. rewrite on_dupdate, on_sort. reflexivity. Qed.
Lemma on_fold l : forall acc, on_values g (fold_left (fun a (s : state) => dupdate a s) l acc) = fold_left (fun a (s : state) => dupdate a s) (map (on_values g) l) (on_values g acc).
Proof. induction l as [|s t IH]; intros acc; [reflexivity|]. cbn [fold_left map]. rewrite IH, on_dupdate. reflexivity. Qed.
Lemma on_pure p : pure_get_state (mkPure (on_states g (p_states p)) (p_def p)) = rmap (on_values g) (pure_get_state p).
Proof.
  unfold pure_get_state. cbn [p_states]. destruct (p_states p) as [s|[|x xs]]; [reflexivity|reflexivity|]. cbn [on_states map rmap]. f_equal.
  destruct xs as [|y ys]; [reflexivity|]. cbn [map state_merge]. rewrite on_mk, on_fold. reflexivity.
Qed.
End G.

(** ** merging the parts *)
Lemma pure_collect p s : wf_state s -> pure_get_state p = Ok s ->
  Permutation (fold_left (fun acc (x : state) => dupdate acc x) (sts_list (p_states p)) []) s.
Proof.
  intros Hs H. unfold pure_get_state in H. destruct (p_states p) as [x|[|x xs]]; [| discriminate |]; injection H as H; cbn [sts_list].
  - subst x. cbn. fold (dict_of s). rewrite dict_of_nodup; [reflexivity|]. now apply wf_NoDup.
  - destruct xs as [|y ys]; cbn [state_merge] in H.
    + subst x. cbn. fold (dict_of s). rewrite dict_of_nodup; [reflexivity|]. now apply wf_NoDup.
    + rewrite mk_state_NoDup in H by (apply fold_dupdate_NoDup; constructor). rewrite <- H. symmetry. apply sort_perm.
Qed.

Lemma parts_merge p w r wb : wf_world w -> valid w r -> names_ok w r -> parts_of p w r ->
  exists L wb' objs, graph w r (p_def p) L /\ pure_merge wb p = Ok (List.length (w_heap wb), wb') /\ merged w L wb wb' objs.
Proof.
  intros Hw Hr Hno [Hd Hs]. destruct (graph_exists w r Hw Hr) as (d & L & Hg).
  rewrite (get_module_def_graph _ _ _ _ Hw Hr Hg) in Hd. injection Hd as ->.
  destruct (get_state_graph w r _ L Hw Hr Hg Hno) as (E & s & Gs & Hwf & HE & HEf & HPE & _). rewrite Gs in Hs. symmetry in Hs.
  destruct (merge_graph w r (p_def p) L E wb (sts_list (p_states p)) Hw Hr Hg Hno HE HEf) as (wb' & objs & H1 & H2).
  - rewrite <- HPE. now apply pure_collect.
  - exists L, wb', objs. auto.
Qed.

(** ** the invariant *)
Record holds (v0 : world) (w : world) (r : nat) (v : world) (p : pure) : Prop := {
  hd_wf : wf_world w; hd_valid : valid w r; hd_names : names_ok w r; hd_live : live w r;
  hd_wfv : wf_world v; hd_nodes : w_nodes v = w_nodes w; hd_trace : w_trace v = w_trace v0;
  hd_old : all_unchanged v0 v; hd_parts : parts_of p w r
}.

Lemma run_parts {A} (f : prog A) v0 w r v p t : ok_prog f -> holds v0 w r v p ->
  exists w1 res v1 v2, run f w [r] = (w1, res) /\
    pure_merge (set_trace v t) p = Ok (List.length (w_heap v), v1) /\
    run f v1 [List.length (w_heap v)] = (v2, res) /\
    wf_world w1 /\ valid w1 r /\ live w1 r /\ w_nodes w1 = w_nodes w /\
    wf_world v2 /\ w_nodes v2 = w_nodes w1 /\ all_unchanged v v2 /\
    get_state v2 (List.length (w_heap v)) = get_state w1 r /\
    get_module_def v2 (List.length (w_heap v)) = get_module_def w1 r.
Proof.
  intros Hf [Hw Hr Hno Hlive Hv Hn Ht Hold Hp].
  destruct (parts_merge p w r (set_trace v t) Hw Hr Hno Hp) as (L & w1 & objs & Hg & Hm & HM).
  pose proof (merged_root _ _ _ _ _ _ _ Hr Hg HM) as Hroot. pose proof (mg_bisim _ _ _ _ _ HM) as HB.
  assert (Hw1 : wf_world w1) by (eapply merged_wf; [exact Hw|apply set_trace_wf; exact Hv|exact Hr|exact Hg|exact HM]).
  assert (HP : pair w w1 (copyR L (List.length (w_heap (set_trace v t))))).
  { constructor; auto.
    - rewrite (mg_nodes _ _ _ _ _ HM). cbn. now symmetry.
    - intros x y o [Hx _] Ho. eapply Hlive; [|exact Ho]. now apply (graph_reaches _ _ _ _ Hw Hr Hg).
    - intros x y o Hxy Ho. rewrite (mg_trace _ _ _ _ _ HM).
      assert (Hy : List.length (w_heap (set_trace v t)) <= y). { destruct Hxy as [_ ->]. unfold phi. lia. }
      unfold get_obj in Ho. rewrite (mg_heap _ _ _ _ _ HM), nth_error_app2 in Ho by exact Hy.
      apply nth_error_In in Ho. pose proof (mg_otrace _ _ _ _ _ HM) as F. rewrite Forall_forall in F. apply F. exact Ho. }
  destruct (run_pair f Hf w w1 _ [r] [List.length (w_heap (set_trace v t))] HP) as (wd & w2 & res & R2 & E1 & E2 & M).
  { constructor; [exact Hroot|constructor]. }
  pose proof (mv_pair _ _ _ _ _ _ M) as HP2. pose proof (mv_incl _ _ _ _ _ _ M _ _ Hroot) as Hrm2.
  destruct (bisim_valid _ _ _ _ _ (pr_bi _ _ _ HP2) Hrm2) as [Vr Vm].
  exists wd, res, w1, w2. split; [exact E1|]. split; [exact Hm|]. split; [exact E2|]. split; [apply HP2|]. split; [exact Vr|]. split.
  { intros x o Hx Ho. destruct (bisim_reaches _ _ _ _ _ _ (pr_bi _ _ _ HP2) Hrm2 Hx) as (z & _ & Hz). eapply (pr_live _ _ _ HP2); eauto. }
  split; [apply (mv_nt _ _ _ _ _ _ M)|]. split; [apply HP2|]. split; [symmetry; apply HP2|]. split.
  { intros x o Ho. rewrite (mv_fr' _ _ _ _ _ _ M).
    - unfold get_obj in *. rewrite (mg_heap _ _ _ _ _ HM). apply nth_prefix. exact Ho.
    - apply get_obj_lt in Ho. unfold valid in Ho. rewrite (mg_heap _ _ _ _ _ HM), app_length. cbn. lia.
    - intros z [_ Hz]. apply get_obj_lt in Ho. unfold valid in Ho. cbn in Hz. unfold phi in Hz. lia. }
  split.
  - symmetry. eapply bisim_get_state; [apply HP2..|exact Hrm2].
  - symmetry. eapply bisim_module_def; [apply HP2..|exact Hrm2].
Qed.

Lemma parts_partition p w r fs : parts_of p w r -> pure_partition p fs = module_partition w r fs.
Proof.
  intros [Hd Hs]. unfold pure_partition, module_partition. rewrite Hd, Hs. cbn [rbind].
  destruct (pure_get_state p) as [s|]; [|reflexivity]. cbn [rbind]. destruct (partition_state s fs); reflexivity.
Qed.
Lemma partition_parts p w r fs : wf_world w -> valid w r -> module_partition w r fs = Ok p -> parts_of p w r.
Proof.
  intros W V H. destruct (partition_ok_iff_state w r fs W V) as (d & s & Hd & Hs & Hwf & E). rewrite E in H.
  destruct (partition_state s fs) as [x|] eqn:Ex; [|discriminate]. injection H as <-. split; [exact Hd|]. rewrite Hs. symmetry.
  unfold pure_get_state. cbn [p_states]. destruct fs as [|f fs]; cbn [partition_state] in Ex; [injection Ex as <-; reflexivity|].
  destruct x as [y|[|y ys]].
  - f_equal. exact (partition_merge s f fs (One y) y [] Hwf Ex (Permutation_refl _)).
  - pose proof (partition_entries _ _ _ _ Hwf Ex) as [G _]. discriminate G.
  - f_equal. exact (partition_merge s f fs _ y ys Hwf Ex (Permutation_refl _)).
Qed.

Lemma step_parts {A} v0 w r v p (s : stmt A) : good_stmt r w s -> holds v0 w r v p ->
  exists v1 p1, on_parts v p s = (v1, p1, snd (on_module r w s)) /\ holds v0 (fst (on_module r w s)) r v1 p1.
Proof.
  intros G H. pose proof H as [Hw Hr Hno Hlive Hv Hn Ht Hold Hp]. destruct s as [t keep f|t f|fs|g]; cbn [good_stmt on_parts on_module] in *.
  - destruct G as [Hf G]. destruct (run_parts f v0 w r v p t Hf H) as (w1 & res & v1 & v2 & E1 & Hm & E2 & W1 & V1 & L1 & N1 & W2 & N2 & U & S2 & D2).
    unfold mdef_apply. unfold pure_merge in Hm. rewrite Hm. unfold user_fun. rewrite E2, E1.
    assert (U2 : all_unchanged v0 (set_trace v2 (w_trace v))) by (intros x o Ho; rewrite set_trace_get; apply U, Hold; exact Ho).
    destruct res as [y|e]; cbn [fst snd].
    + destruct (G w1 y E1) as [G1 G2]. unfold module_partition. rewrite S2, D2.
      destruct (get_module_def_total w1 r W1 V1) as [d1 Hd1]. destruct (get_state_total w1 r W1 V1) as (s1 & Hs1 & _). rewrite Hd1, Hs1. cbn [rbind partition_state].
      eexists _, _. split; [reflexivity|]. constructor; auto; try (now apply set_trace_wf).
      destruct keep; split; cbn [p_def p_states]; auto.
      rewrite G2 by reflexivity. apply Hp.
    + eexists _, _. split; [reflexivity|]. constructor; auto; [now apply set_trace_wf|]. cbn. congruence.
  - destruct (run_parts f v0 w r v p t G H) as (w1 & res & v1 & v2 & E1 & Hm & E2 & W1 & V1 & L1 & N1 & W2 & N2 & U & S2 & D2).
    unfold pure_call. rewrite Hm. unfold user_fun. rewrite E2, E1. cbn [fst snd]. eexists _, _. split; [reflexivity|]. constructor; auto.
    + now apply set_trace_wf.
    + cbn. congruence.
    + intros x o Ho. rewrite set_trace_get. apply U, Hold, Ho.
  - cbn [fst snd]. rewrite (parts_partition p w r fs Hp). destruct (module_partition w r fs) as [q|e] eqn:E; eexists _, _; (split; [reflexivity|]); [|exact H].
    constructor; auto. eapply partition_parts; eauto.
  - destruct Hp as [Hd Hs]. destruct (get_state_total w r Hw Hr) as (s & Gs & Ws). rewrite Gs in Hs |- *.
    assert (LAT : forall k, latest k [on_values g s] = option_map (g k) (dget k s)).
    { intros k. cbn [latest]. apply on_dget. }
    destruct (update_state_effect w r (UStates (One (on_values g s))) [on_values g s] s Hw Hr Hno Hlive Gs eq_refl) as (w' & E & F).
    { discriminate. }
    { constructor; [|constructor]. rewrite on_keys. now apply wf_NoDup. }
    { intros k a L. rewrite LAT in L. destruct (dget k s) as [old|] eqn:D; [|discriminate]. injection L as <-.
      assert (PO : plain_attr old) by (apply (get_state_plain w r s Hw Gs k old); eapply dget_In; exact D).
      destruct (G k old PO (get_state_nodes w r s k old Hw Gs D)) as ([A1 A2] & A3 & A4). split; [exact A1|]. split; [exact A2|]. exists old, (g k old). auto. }
    rewrite E. cbn [fst snd rmap]. eexists _, _. split; [reflexivity|].
    destruct (ue_global _ _ _ _ _ F) as (Q1 & Q2 & Q3 & Q4). constructor; auto.
    + apply (ue_wf _ _ _ _ _ F).
    + unfold valid. rewrite Q4. exact Hr.
    + apply (ue_names _ _ _ _ _ F).
    + eapply effect_live; eauto.
    + congruence.
    + split; cbn [p_def].
      * rewrite (ue_def _ _ _ _ _ F). exact Hd.
      * rewrite on_pure, <- Hs. cbn [rmap]. destruct (ue_state _ _ _ _ _ F) as (s' & G' & K & V). rewrite G'. f_equal. apply dict_ext.
        -- rewrite K. now apply wf_NoDup.
        -- now rewrite on_keys.
        -- intros k. rewrite on_dget. destruct (dget k s) as [old|] eqn:D.
           ++ destruct (V k old D) as (res & R1 & R2). rewrite LAT, D in R2. cbn [option_map] in R2 |- *. rewrite R1. f_equal.
              assert (PO : plain_attr old) by (apply (get_state_plain w r s Hw Gs k old); eapply dget_In; exact D).
              destruct (G k old PO (get_state_nodes w r s k old Hw Gs D)) as (_ & _ & A4). eapply overwrites_unique; eauto.
           ++ cbn. apply dget_None. rewrite K. now apply dget_None.
Qed.

Theorem functional_imperative {A} r (l : list (stmt A)) : forall v0 w v p, good r w l -> holds v0 w r v p ->
  exists v1 p1, functionally l v p = (v1, p1, snd (imperatively r l w)) /\ holds v0 (fst (imperatively r l w)) r v1 p1.
Proof.
  induction l as [|s l IH]; intros v0 w v p G H; cbn [good functionally imperatively] in *; [eauto|]. destruct G as [G1 G2].
  destruct (step_parts v0 w r v p s G1 H) as (v1 & p1 & E & H1). rewrite E. destruct (on_module r w s) as [w1 x]. cbn [fst snd] in *.
  destruct (IH v0 w1 v1 p1 G2 H1) as (v2 & p2 & E2 & H2). rewrite E2. destruct (imperatively r l w1) as [w2 xs]. eauto.
Qed.
