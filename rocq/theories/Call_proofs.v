(** Trace guard, sow, apply. *)
From Coq Require Import Permutation.
From Verif Require Import PyBase PyBaseFacts ValuesM Spec_Eq ValuesFacts FiltersM StateM State_proofs ModuleM Spec_Module Spec_History
  Graph_facts Dfs_proofs Build_proofs RoundTrip_proofs Clone_proofs Mdef_proofs Write_proofs History_proofs.
Local Open Scope string_scope.
Local Open Scope list_scope.

Lemma world_ext w w' : w_uuid w' = w_uuid w -> w_trace w' = w_trace w -> w_nodes w' = w_nodes w ->
  (forall x, get_obj w' x = get_obj w x) -> w' = w.
Proof.
  intros A B C D. destruct w, w'. cbn in *. f_equal; auto. apply nth_error_ext. intros i. exact (D i).
Qed.

(** update_state on a module none of whose modules may be written *)
Lemma update_foreign w r u w' res : wf_world w -> plain_updates w u ->
  (forall x o, reaches w r x -> get_obj w x = Some o -> m_trace o <> w_trace w) ->
  update_state w r u = (w', res) -> w' = w.
Proof.
  intros Hw Hu Ht H. unfold update_state in H. destruct (get_state w r) as [cur|] eqn:Ec; [|now injection H as <- _].
  pose proof (get_state_plain _ _ _ Hw Ec) as Pc.
  assert (G : forall us, Forall plain_state us -> update_module w r cur us = (w', res) -> w' = w).
  { intros us Hus Hm. assert (S : update_safe w w' r).
    { eapply update_loop_safe; [exact Hw| |exact Hm]. apply plain_fold; [|constructor]. constructor; [now apply plain_state_items|].
      eapply Forall_impl; [|exact Hus]. apply plain_state_items. }
    destruct (us_shape _ _ _ S) as (S1 & S2 & S3 & S4). apply world_ext; auto. intros x.
    destruct (get_obj w x) as [o|] eqn:Ho.
    - destruct (graph_exists w r Hw) as (d & L & Hg). { unfold get_state, iter_state, dfs_fuel in Ec. cbn in Ec. destruct (get_obj w r) eqn:Er; [|discriminate]. eapply get_obj_lt; eauto. }
      assert (Hr : valid w r). { unfold get_state, iter_state, dfs_fuel in Ec. cbn in Ec. destruct (get_obj w r) eqn:Er; [|discriminate]. eapply get_obj_lt; eauto. }
      destruct (in_dec Nat.eq_dec x L) as [Hi|Hi]; rewrite (graph_reaches _ _ _ _ Hw Hr Hg) in Hi.
      + apply (us_trace _ _ _ S); eauto.
      + rewrite (us_unreachable _ _ _ S _ Hi). exact Ho.
    - destruct (get_obj w' x) eqn:E; [|reflexivity]. apply get_obj_lt in E. rewrite S4 in E. apply get_obj_ex in E as [? ?]. congruence. }
  destruct u as [r2|p|x]; cbn in Hu.
  - destruct (get_obj w r) as [o|]; [|now injection H as <- _]. destruct (get_obj w r2) as [o2|]; [|now injection H as <- _].
    destruct (cls_eqb (m_cls o) (m_cls o2)); [|now injection H as <- _].
    destruct (get_state w r2) as [s2|] eqn:E2; [|now injection H as <- _]. eapply G; [|exact H]. constructor; [|constructor]. eapply get_state_plain; eauto.
  - eapply G; eauto.
  - eapply G; eauto.
Qed.

Lemma dupdate_head {A} k (v : A) t items : exists v' t', dupdate ((k, v) :: t) items = (k, v') :: t'.
Proof.
  revert v t. induction items as [|[m b] items IH]; intros v t; [do 2 eexists; reflexivity|].
  change (dupdate ((k, v) :: t) ((m, b) :: items)) with (dupdate (dset m b ((k, v) :: t)) items). cbn [dset].
  destruct (String.eqb m k); apply IH.
Qed.
Lemma fold_head k (v : attr) t (us : list state) : exists v' t', fold_left (fun acc s => dupdate acc s) us ((k, v) :: t) = (k, v') :: t'.
Proof.
  revert v t. induction us as [|u us IH]; intros v t; cbn; [eauto|]. destruct (dupdate_head k v t u) as (v' & t' & ->). apply IH.
Qed.

(** and it raises, when there is any state to write *)
Lemma update_module_foreign w r s us : wf_world w -> valid w r -> names_ok w r -> get_state w r = Ok s -> s <> [] ->
  (forall x o, reaches w r x -> get_obj w x = Some o -> m_trace o <> w_trace w) ->
  update_module w r s us = (w, Err TraceContextError).
Proof.
  intros Hw Hr Hno Hs Hne Ht. destruct s as [|[k a] s]; [congruence|].
  destruct (graph_exists w r Hw Hr) as (d & L & Hg).
  destruct (get_state_graph w r d L Hw Hr Hg Hno) as (E & s0 & Hs0 & Hwf & (HE1 & HE2 & HE3) & HEf & HPE & HND & Hsl).
  rewrite Hs in Hs0. injection Hs0 as <-.
  assert (Hi : In (k, a) (map (i_kv []) E)) by (eapply Permutation_in; [exact HPE|now left]).
  apply in_map_iff in Hi as (i & Ei & Hi). unfold i_kv in Ei. cbn [app] in Ei. injection Ei as Ek Ea.
  destruct (Hsl i Hi) as [N1 N2]. pose proof (HEf i Hi) as Hf.
  unfold update_module. cbn [fold_left]. assert (Hd : dupdate [] ((k, a) :: s) = (k, a) :: s).
  { change (dupdate [] ((k, a) :: s)) with (dict_of ((k, a) :: s)). apply dict_of_nodup. now apply wf_NoDup. }
  rewrite Hd. destruct (fold_head k a s us) as (v' & t' & ->). cbn [update_loop].
  rewrite <- Ek, split_join; [|destruct (i_path i); discriminate|apply Forall_app; auto].
  rewrite (set_path_setattr w (i_path i) (i_name i) v' (i_own i) r Hf).
  destruct (follow_valid _ _ _ _ Hf) as [o Ho]. rewrite (setattr_guard _ _ _ _ o Ho); [reflexivity|].
  eapply Ht; [|exact Ho]. exists (i_path i). exact Hf.
Qed.

(** ** sow *)
Fixpoint sow_seq (h : string -> bool) (w : world) (r : nat) (vt : cls) (n : string) (vs : list pyval) : result world :=
  match vs with
  | [] => Ok w
  | v :: t => match sow h w r vt n v with Ok w1 => sow_seq h w1 r vt n t | Err e => Err e end
  end.

Lemma put_put w r o1 o2 : put_obj (put_obj w r o1) r o2 = put_obj w r o2.
Proof.
  unfold put_obj, set_heap. cbn. f_equal. generalize (w_heap w) as l. revert r. induction r as [|r IH]; intros [|x l]; cbn; auto. now rewrite IH.
Qed.

Lemma dset_twice {A} n (a b : A) d : dset n a (dset n b d) = dset n a d.
Proof.
  induction d as [|[k x] d IHd]; cbn; [now rewrite String.eqb_refl|]. destruct (String.eqb n k) eqn:E; cbn; rewrite E; [reflexivity|now rewrite IHd].
Qed.

Lemma sow_next h w r vt n v o c l : get_obj w r = Some o -> m_trace o = w_trace w -> wf_container c ->
  dget n (m_vars o) = Some (ACont c) -> n <> "_module__state" -> c_cls c = vt -> In "Variable" vt -> c_val c = PyTuple l ->
  sow h w r vt n v = Ok (put_obj w r (set_vars o (dset n (ACont (mkCont vt (c_meta c) (PyTuple (l ++ [v])))) (m_vars o)))).
Proof.
  intros Ho Ht Hc Hd Hn E1 E2 E3. unfold sow. rewrite Ho. assert (dmem n (m_vars o) = true) as -> by (unfold dmem; now rewrite Hd). cbn [orb].
  rewrite Hd, E1. apply smem_In in E2. rewrite E2. cbn [negb]. rewrite cls_eqb_refl. cbn [negb]. rewrite E3. unfold setattr. rewrite Ho.
  assert (trace_valid w (m_trace o) = true) as -> by now apply trace_valid_iff. cbn [negb].
  apply String.eqb_neq in Hn. rewrite Hn. rewrite Hd. cbn [assign_value]. rewrite replace_value by assumption. cbn. now rewrite E1.
Qed.

Lemma sow_more h vs : forall w r vt n o c l, get_obj w r = Some o -> m_trace o = w_trace w -> wf_container c ->
  dget n (m_vars o) = Some (ACont c) -> n <> "_module__state" -> c_cls c = vt -> In "Variable" vt -> c_val c = PyTuple l ->
  sow_seq h w r vt n vs = Ok (put_obj w r (set_vars o (dset n (ACont (mkCont vt (c_meta c) (PyTuple (l ++ vs)))) (m_vars o)))).
Proof.
  induction vs as [|v vs IH]; intros w r vt n o c l Ho Ht Hc Hd Hn E1 E2 E3; cbn [sow_seq].
  - rewrite app_nil_r. rewrite dset_id. { rewrite set_vars_id. f_equal. unfold put_obj, set_heap. rewrite list_set_id by exact Ho. now destruct w. }
    rewrite Hd. do 2 f_equal. destruct c; cbn in *; subst; reflexivity.
  - rewrite (sow_next h w r vt n v o c l) by assumption.
    set (c1 := mkCont vt (c_meta c) (PyTuple (l ++ [v]))). set (o1 := set_vars o (dset n (ACont c1) (m_vars o))).
    rewrite (IH (put_obj w r o1) r vt n o1 c1 (l ++ [v])); auto.
    + rewrite put_put. unfold o1 at 2. cbn [m_vars set_vars]. rewrite dset_twice. rewrite <- app_assoc. reflexivity.
    + eapply get_put_same; eauto.
    + unfold c1. rewrite <- E1. now apply (wf_container_val c).
    + cbn. apply dget_dset_same.
Qed.

Lemma sow_first h w r vt n v o : get_obj w r = Some o -> m_trace o = w_trace w -> dget n (m_vars o) = None -> h n = false ->
  n <> "_module__state" -> In "Container" vt -> In "Variable" vt ->
  exists c, sow h w r vt n v = Ok (put_obj w r (set_vars o (dset n (ACont c) (m_vars o)))) /\ wf_container c /\
    c_cls c = vt /\ c_val c = PyTuple [v].
Proof.
  intros Ho Ht Hd Hh Hn Hc Hv. unfold sow. rewrite Ho. assert (dmem n (m_vars o) = false) as -> by (unfold dmem; now rewrite Hd). rewrite Hh. cbn [orb].
  destruct (container_call vt (CVal (PyTuple [v])) []) as [c|e] eqn:E.
  - pose proof (container_call_wf_val _ _ _ Hc E) as Wc. exists c. cbn [rbind]. unfold setattr. rewrite Ho.
    assert (trace_valid w (m_trace o) = true) as -> by now apply trace_valid_iff. cbn [negb]. apply String.eqb_neq in Hn. rewrite Hn, Hd.
    cbn [assign_value]. rewrite container_copy_id by assumption. cbn. split; [reflexivity|]. split; [exact Wc|].
    unfold container_call, container_init in E. destruct (init_meta vt []); [|discriminate]. cbn in E. injection E as <-. auto.
  - unfold container_call, container_init, init_meta in E. destruct (smem "Static" vt), (smem "Variable" vt); discriminate.
Qed.

Theorem sow_accumulates h w r vt n vs o : vs <> [] -> get_obj w r = Some o -> m_trace o = w_trace w ->
  dget n (m_vars o) = None -> h n = false -> n <> "_module__state" -> In "Container" vt -> In "Variable" vt ->
  exists w' o', sow_seq h w r vt n vs = Ok w' /\ get_obj w' r = Some o' /\
    (exists md, dget n (m_vars o') = Some (ACont (mkCont vt md (PyTuple vs)))) /\
    (forall m, m <> n -> dget m (m_vars o') = dget m (m_vars o)) /\
    (forall x, x <> r -> get_obj w' x = get_obj w x).
Proof.
  intros Hvs Ho Ht Hd Hh Hn Hc Hv. destruct vs as [|v vs]; [congruence|]. cbn [sow_seq].
  destruct (sow_first h w r vt n v o Ho Ht Hd Hh Hn Hc Hv) as (c & E & Wc & C1 & C2). rewrite E.
  set (o1 := set_vars o (dset n (ACont c) (m_vars o))). pose proof (get_put_same w r o1 o Ho) as Ho1.
  rewrite (sow_more h vs (put_obj w r o1) r vt n o1 c [v]); auto; [|cbn; apply dget_dset_same]. rewrite put_put.
  eexists. eexists. split; [reflexivity|]. split; [eapply get_put_same; eauto|]. cbn [m_vars set_vars o1]. split.
  - eexists. apply dget_dset_same.
  - split. { intros m Hm. rewrite !dget_dset_other by assumption. reflexivity. } intros x Hx. apply get_put_other. congruence.
Qed.

(** ** apply *)
(** [body] changes only modules it can reach from the module it is called on
    (or that it creates). *)
Definition local_body {A} (body : world -> nat -> world * result A) : Prop :=
  forall v m v2 res, wf_world v -> valid v m -> body v m = (v2, res) ->
    forall y o, get_obj v y = Some o -> ~ reaches v m y -> get_obj v2 y = Some o.

Lemma apply_frame {A} w r (body : world -> nat -> world * result A) w2 res : wf_world w -> valid w r -> names_ok w r ->
  local_body body -> module_apply w r body = (w2, res) -> forall y o, get_obj w y = Some o -> get_obj w2 y = Some o.
Proof.
  intros Hw Hr Hno Hb H y o Ho. destruct (clone_bisim w r Hw Hr Hno) as (d & L & w1 & objs & Hg & Hc & Hm).
  unfold module_apply in H. rewrite Hc in H. destruct (body w1 (List.length (w_heap w))) as [w3 [out|e]] eqn:E; injection H as <- <-;
  (eapply (Hb _ _ _ _ (merged_wf _ _ _ _ _ _ _ Hw Hw Hr Hg Hm)); [|exact E| |]);
  try (eapply extends_get; [eapply merged_extends; exact Hm|exact Ho]);
  try (intros Hx; apply (merged_fresh _ _ _ _ _ _ _ _ Hw Hr Hg Hm) in Hx; apply get_obj_lt in Ho; lia);
  (unfold valid; rewrite (mg_heap _ _ _ _ _ Hm), app_length; pose proof (mg_len _ _ _ _ _ Hm); destruct (graph_root _ _ _ _ Hg) as (t & -> & _); cbn in *; lia).
Qed.

Lemma mdef_apply_frame {A} w r fs p states (body : world -> nat -> world * result A) v v2 res : wf_world w -> valid w r -> names_ok w r ->
  module_partition w r fs = Ok p -> Permutation states (sts_list (p_states p)) -> wf_world v ->
  local_body body -> mdef_apply v (p_def p) states body = (v2, res) ->
  (forall y o, get_obj v y = Some o -> get_obj v2 y = Some o) /\
  (forall out q, res = Ok (out, q) -> exists m, List.length (w_heap v) <= m /\ module_partition v2 m [] = Ok q).
Proof.
  intros Hw Hr Hno Hp Hperm Hv Hb H. destruct (partition_merge_bisim w r fs p v states Hw Hr Hno Hp Hperm) as (d & L & w1 & objs & Hg & Ed & Hc & Hm).
  unfold mdef_apply in H. rewrite Ed, Hc in H. destruct (body w1 (List.length (w_heap v))) as [w3 rs] eqn:E.
  assert (F : forall y o, get_obj v y = Some o -> get_obj w3 y = Some o).
  { intros y o Ho. eapply (Hb _ _ _ _ (merged_wf _ _ _ _ _ _ _ Hw Hv Hr Hg Hm)); [|exact E| |].
    - unfold valid; rewrite (mg_heap _ _ _ _ _ Hm), app_length; pose proof (mg_len _ _ _ _ _ Hm); destruct (graph_root _ _ _ _ Hg) as (t & -> & _); cbn in *; lia.
    - eapply extends_get; [eapply merged_extends; exact Hm|exact Ho].
    - intros Hx; apply (merged_fresh _ _ _ _ _ _ _ _ Hw Hr Hg Hm) in Hx; apply get_obj_lt in Ho; lia. }
  destruct rs as [out|e].
  - destruct (module_partition w3 (List.length (w_heap v)) []) as [q|e] eqn:Eq; injection H as <- <-; (split; [exact F|]); [|discriminate].
    intros out' q' [= <- <-]. exists (List.length (w_heap v)). split; [lia|exact Eq].
  - injection H as <- <-. split; [exact F|discriminate].
Qed.
