(** partition, merge and clone of Modules. *)
From Coq Require Import Permutation.
From Verif Require Import PyBase PyBaseFacts ValuesM Spec_Eq ValuesFacts FiltersM StateM Spec_State State_proofs ModuleM Spec_Module Graph_facts
  Dfs_proofs Build_proofs Bisim_proofs RoundTrip_proofs.
Local Open Scope string_scope.
Local Open Scope list_scope.

Lemma merged_new w L wb wb' objs j o : NoDup L -> merged w L wb wb' objs ->
  nth_error objs j = Some o -> exists x, In x L /\ copyR L (List.length (w_heap wb)) x (List.length (w_heap wb) + j) /\
    get_obj wb' (List.length (w_heap wb) + j) = Some o.
Proof.
  intros Hn Hm Ho.
  assert (Hlt : j < List.length L). { rewrite <- (mg_len _ _ _ _ _ Hm). apply nth_error_Some. congruence. }
  destruct (nth_error L j) as [x|] eqn:E; [|apply nth_error_None in E; lia].
  exists x. assert (In x L) by (eapply nth_error_In; eauto). split; [assumption|]. split.
  - split; [assumption|]. unfold phi. now rewrite (idx_nth _ _ _ Hn E).
  - unfold get_obj. rewrite (mg_heap _ _ _ _ _ Hm), nth_error_app2 by lia. now replace (_ + j - _) with j by lia.
Qed.

Lemma merged_wf w r d L wb wb' objs : wf_world w -> wf_world wb -> valid w r -> graph w r d L ->
  merged w L wb wb' objs -> wf_world wb'.
Proof.
  intros Hw Hwb Hr Hg Hm. destruct (graph_NoDup _ _ _ _ Hw Hr Hg) as [HnL HvL].
  assert (Hlen : List.length (w_heap wb') = List.length (w_heap wb) + List.length objs).
  { rewrite (mg_heap _ _ _ _ _ Hm), app_length. reflexivity. }
  constructor.
  - rewrite (mg_heap _ _ _ _ _ Hm), map_app. apply NoDup_app_intro; [apply Hwb|apply Hm|].
    intros i H1 H2. apply in_map_iff in H1 as (o1 & <- & H1). apply in_map_iff in H2 as (o2 & E & H2).
    pose proof (mg_fresh _ _ _ _ _ Hm) as G. rewrite Forall_forall in G. specialize (G o2 H2).
    apply In_nth_error in H1 as [k Hk]. pose proof (wfo_id _ _ (wf_objs _ Hwb k o1 Hk)). lia.
  - intros j o Ho. unfold get_obj in Ho. rewrite (mg_heap _ _ _ _ _ Hm) in Ho.
    destruct (Nat.ltb_spec j (List.length (w_heap wb))) as [Hj|Hj].
    + rewrite nth_error_app1 in Ho by assumption. pose proof (wf_objs _ Hwb j o Ho) as [W1 W2 W3 W4 W5].
      constructor; auto.
      * rewrite (mg_uuid _ _ _ _ _ Hm). lia.
      * intros n x Hx. rewrite Hlen. specialize (W4 n x Hx). lia.
    + rewrite nth_error_app2 in Ho by assumption. pose proof (nth_error_In _ _ Ho) as Hin.
      destruct (merged_new _ _ _ _ _ _ _ HnL Hm Ho) as (x & Hx & HR & Hget).
      destruct (bi_obj _ _ _ (mg_bisim _ _ _ _ _ Hm) _ _ HR) as (o0 & o1 & A & B & C & D & E).
      assert (o1 = o) by congruence. subst o1. pose proof (wf_objs _ Hw _ _ A) as [W1 W2 W3 W4 W5].
      constructor.
      * pose proof (mg_fresh _ _ _ _ _ Hm) as G. rewrite Forall_forall in G. specialize (G o Hin). lia.
      * pose proof (mg_names _ _ _ _ _ Hm) as G. rewrite Forall_forall in G. exact (G o Hin).
      * apply dget_None in W3. specialize (E "_module__state"). rewrite W3 in E. apply dget_None.
        now apply (orel_dom _ _ _ E).
      * intros n y Hy. specialize (E n). rewrite Hy in E. apply orel_flip, orel_mod in E. destruct E as (z & _ & [Hz ->]).
        rewrite Hlen. unfold phi. pose proof (mg_len _ _ _ _ _ Hm) as G. rewrite G.
        apply idx_In in Hz. assert (idx L z < List.length L) by (apply nth_error_Some; congruence). lia.
      * intros n a Ha. specialize (E n). rewrite Ha in E. apply orel_flip in E.
        destruct (is_submodule a) eqn:Es; [apply is_sub_inv in Es as [c ->]; exact I|].
        apply orel_val in E; [|exact Es]. now apply (W5 n).
Qed.

Lemma merged_extends w L wb wb' objs : merged w L wb wb' objs -> extends wb wb'.
Proof. intros H. exists objs. apply H. Qed.

Lemma merged_root w r d L wb wb' objs : valid w r -> graph w r d L -> merged w L wb wb' objs ->
  copyR L (List.length (w_heap wb)) r (List.length (w_heap wb)).
Proof.
  intros Hr Hg Hm. destruct (graph_root _ _ _ _ Hg) as (t & -> & _). split; [now left|].
  unfold phi, idx. cbn. rewrite Nat.eqb_refl. lia.
Qed.

(** objects reached from the copy are new *)
Lemma merged_fresh w r d L wb wb' objs x : wf_world w -> valid w r -> graph w r d L -> merged w L wb wb' objs ->
  reaches wb' (List.length (w_heap wb)) x -> List.length (w_heap wb) <= x.
Proof.
  intros Hw Hr Hg Hm Hx. pose proof (merged_root _ _ _ _ _ _ _ Hr Hg Hm) as Hroot.
  destruct (bisim_reaches _ _ _ _ _ _ (bisim_sym _ _ _ (mg_bisim _ _ _ _ _ Hm)) Hroot Hx) as (z & _ & _ & ->).
  unfold phi. lia.
Qed.

(** old objects only reach old objects *)
Lemma extends_reaches w w' r x : wf_world w -> extends w w' -> valid w r -> reaches w' r x -> x < List.length (w_heap w) /\ reaches w r x.
Proof.
  intros Hw [new Hnew] Hr Hx.
  apply (closed_reaches w' (fun x => x < List.length (w_heap w) /\ reaches w r x) r); auto.
  - split; [exact Hr|]. destruct (get_obj_ex _ _ Hr) as [o Ho]. eapply reaches_refl; eauto.
  - intros y n z [Hy Hry] (o & Ho & Hd). unfold get_obj in Ho. rewrite Hnew, nth_error_app1 in Ho by assumption.
    split; [apply (wfo_refs _ _ (wf_objs _ Hw y o Ho) n); exact Hd|].
    eapply reaches_trans; [exact Hry|]. apply (reaches_child _ _ n); auto. exists o. auto.
Qed.

Lemma extends_get w w' r o : extends w w' -> get_obj w r = Some o -> get_obj w' r = Some o.
Proof. intros [new H] Ho. unfold get_obj in *. rewrite H. now apply nth_prefix. Qed.

Lemma extends_bisim w w' : extends w w' -> wf_world w ->
  bisim w w' (fun x y => x = y /\ valid w x).
Proof.
  intros He Hw. constructor.
  - intros x y [-> Hx]. destruct (get_obj_ex _ _ Hx) as [o Ho]. exists o, o. split; [exact Ho|].
    split; [eapply extends_get; eauto|]. split; [reflexivity|]. split; [reflexivity|]. intros n.
    destruct (dget n (m_vars o)) as [a|] eqn:E; [|exact I]. destruct (is_submodule a) eqn:Es; [|now apply orel_refl_val].
    apply is_sub_inv in Es as [c ->]. cbn. split; [reflexivity|]. exact (wfo_refs _ _ (wf_objs _ Hw _ _ Ho) _ _ E).
  - intros x y y' [-> _] [-> _]. reflexivity.
  - intros x x' y [-> _] [-> _]. reflexivity.
Qed.

(** ** get_state *)
Lemma get_state_graph w r d L : wf_world w -> valid w r -> graph w r d L -> names_ok w r ->
  exists E s, get_state w r = Ok s /\ wf_state s /\ items_spec w L E /\
    (forall i, In i E -> follow w r (i_path i) = Some (i_own i)) /\
    Permutation s (map (i_kv []) E) /\ NoDup (keys (map (i_kv []) E)) /\
    (forall i, In i E -> Forall no_slash (i_path i) /\ no_slash (i_name i)).
Proof.
  intros Hw Hr Hg Hno. destruct (iter_state_graph w r d L Hw Hr Hg) as (E & H1 & H2 & H3).
  destruct (items_keys _ _ _ _ _ Hw Hr Hg Hno H1 H2) as [H4 H5].
  exists E, (mk_state (map (i_kv []) E)). unfold get_state. rewrite H3. cbn. split; [reflexivity|].
  split; [apply mk_state_wf|]. split; [exact H1|]. split; [exact H2|].
  split; [rewrite mk_state_NoDup by assumption; apply sort_perm|]. auto.
Qed.

(** get_state always succeeds (also with odd names) *)
Lemma get_state_total w r : wf_world w -> valid w r -> exists s, get_state w r = Ok s /\ wf_state s.
Proof.
  intros Hw Hr. destruct (graph_exists w r Hw Hr) as (d & L & Hg).
  destruct (iter_state_graph w r d L Hw Hr Hg) as (E & H1 & H2 & H3).
  unfold get_state. rewrite H3. cbn. eexists. split; [reflexivity|]. apply mk_state_wf.
Qed.

Lemma get_module_def_total w r : wf_world w -> valid w r -> exists d, get_module_def w r = Ok d.
Proof.
  intros Hw Hr. destruct (graph_exists w r Hw Hr) as (d & L & Hg). exists d. eapply get_module_def_graph; eauto.
Qed.

(** Collecting states: the dict built by [_update_module] from a split of [s]. *)
Lemma fold_dupdate_NoDup l : forall acc : dict attr, NoDup (keys acc) ->
  NoDup (keys (fold_left (fun acc (s : state) => dupdate acc s) l acc)).
Proof. induction l as [|s l IH]; intros acc H; cbn; [exact H|]. apply IH. now apply NoDup_keys_dupdate. Qed.

Lemma collect_partition (s : state) fs x states : wf_state s -> partition_state s fs = Ok x ->
  Permutation states (sts_list x) ->
  Permutation (fold_left (fun acc (s : state) => dupdate acc s) states []) s.
Proof.
  intros Hs Hp Hperm. destruct fs as [|f fs]; cbn in Hp.
  - injection Hp as <-. cbn in Hperm. apply Permutation_sym, Permutation_length_1_inv in Hperm. subst. cbn.
    fold (dict_of s). rewrite dict_of_nodup; [reflexivity|]. now apply wf_NoDup.
  - destruct states as [|y ys].
    { apply Permutation_nil in Hperm. pose proof (partition_entries _ _ _ _ Hs Hp) as [G _]. rewrite Hperm in G. discriminate. }
    pose proof (partition_merge s f fs x y ys Hs Hp Hperm) as HM. unfold state_merge in HM. destruct ys as [|z zs].
    + subst y. cbn. fold (dict_of s). rewrite dict_of_nodup; [reflexivity|]. now apply wf_NoDup.
    + rewrite mk_state_NoDup in HM by (apply fold_dupdate_NoDup; constructor). rewrite <- HM. symmetry. apply sort_perm.
Qed.

(** ** the main theorem on partition followed by merge *)
Theorem partition_merge_bisim w r fs p wb states :
  wf_world w -> valid w r -> names_ok w r -> module_partition w r fs = Ok p ->
  Permutation states (sts_list (p_states p)) ->
  exists d L wb' objs, graph w r d L /\ p_def p = d /\
    merge wb d states = Ok (List.length (w_heap wb), wb') /\ merged w L wb wb' objs.
Proof.
  intros Hw Hr Hno Hp Hperm. destruct (graph_exists w r Hw Hr) as (d & L & Hg).
  destruct (get_state_graph w r d L Hw Hr Hg Hno) as (E & s & Hs & Hwf & HE & HEf & HPE & _).
  unfold module_partition in Hp. rewrite (get_module_def_graph _ _ _ _ Hw Hr Hg), Hs in Hp. cbn in Hp.
  destruct (partition_state s fs) as [x|] eqn:Ex; [|discriminate]. cbn in Hp. injection Hp as <-. cbn in *.
  destruct (merge_graph w r d L E wb states Hw Hr Hg Hno HE HEf) as (wb' & objs & H1 & H2).
  - rewrite <- HPE. eapply collect_partition; eauto.
  - exists d, L, wb', objs. auto.
Qed.

Theorem clone_bisim w r : wf_world w -> valid w r -> names_ok w r ->
  exists d L w' objs, graph w r d L /\ clone w r = Ok (List.length (w_heap w), w') /\ merged w L w w' objs.
Proof.
  intros Hw Hr Hno.
  destruct (get_module_def_total w r Hw Hr) as [d Hd]. destruct (get_state_total w r Hw Hr) as (s & Hs & _).
  assert (Hp : module_partition w r [] = Ok (mkPure (One s) d)). { unfold module_partition. rewrite Hd, Hs. reflexivity. }
  destruct (partition_merge_bisim w r [] _ w [s] Hw Hr Hno Hp (Permutation_refl _)) as (d' & L & w' & objs & H1 & H2 & H3 & H4).
  cbn in H2. subst d'. exists d, L, w', objs. split; [exact H1|]. split; [|exact H4]. unfold clone. rewrite Hp. exact H3.
Qed.

Lemma partition_ok_iff_state w r fs : wf_world w -> valid w r ->
  exists d s, get_module_def w r = Ok d /\ get_state w r = Ok s /\ wf_state s /\
    module_partition w r fs = rmap (fun x => mkPure x d) (partition_state s fs).
Proof.
  intros Hw Hr. destruct (get_module_def_total w r Hw Hr) as [d Hd]. destruct (get_state_total w r Hw Hr) as (s & Hs & Hwf).
  exists d, s. repeat (split; [assumption|]). unfold module_partition. rewrite Hd, Hs. cbn. destruct (partition_state s fs); reflexivity.
Qed.
