(** Merging a definition with the state of the same module gives a module that
    corresponds object by object to the original. *)
From Coq Require Import Permutation.
From Verif Require Import PyBase PyBaseFacts ValuesM Spec_Eq ValuesFacts StateM State_proofs ModuleM Spec_Module Graph_facts
  Dfs_proofs Build_proofs Bisim_proofs.
Local Open Scope string_scope.
Local Open Scope list_scope.

Definition idx (L : list nat) (x : nat) : nat := match index_of x L with Some i => i | None => 0 end.
(** the copy of module [x] when the visiting order is [L] and the copies start at [base] *)
Definition phi (L : list nat) (base x : nat) : nat := base + idx L x.
Definition copyR (L : list nat) (base : nat) (x y : nat) : Prop := In x L /\ y = phi L base x.

Lemma idx_nth L x i : NoDup L -> nth_error L i = Some x -> idx L x = i.
Proof. intros Hn H. unfold idx. now rewrite (index_of_NoDup _ _ _ Hn H). Qed.
Lemma idx_In L x : In x L -> nth_error L (idx L x) = Some x.
Proof.
  intros H. unfold idx. destruct (index_of x L) as [i|] eqn:E; [now apply index_of_Some|].
  apply index_of_None in E. contradiction.
Qed.
Lemma idx_inj L x y : In x L -> In y L -> idx L x = idx L y -> x = y.
Proof. intros Hx Hy E. apply idx_In in Hx. apply idx_In in Hy. rewrite E in Hx. congruence. Qed.

Lemma Forall2_nth2 {A B} (R : A -> B -> Prop) l l' i y : Forall2 R l l' -> nth_error l' i = Some y ->
  exists x, nth_error l i = Some x /\ R x y.
Proof.
  intros H. revert i. induction H as [|a b l l' Hab H IH]; intros [|i]; cbn; try discriminate; [intros [= ->]; eauto|apply IH].
Qed.

(** the built world, seen from the original *)
Section Built.
Context (w : world) (r : nat) (d : mdef) (L : list nat) (wb wb1 : world) (objs : list mobj).
Hypothesis Hw : wf_world w.
Hypothesis Hr : valid w r.
Hypothesis Hg : graph w r d L.
Let base := List.length (w_heap wb).
Hypothesis Hgrown : grown wb wb1 objs.
Hypothesis Hall : Forall2 (built w L base (w_trace wb)) L objs.

Lemma built_get x : In x L -> exists o', get_obj wb1 (phi L base x) = Some o' /\ built w L base (w_trace wb) x o'.
Proof.
  intros Hx. destruct (Forall2_nth _ _ _ _ _ Hall (idx_In _ _ Hx)) as (o' & H1 & H2). exists o'. split; [|exact H2].
  unfold get_obj. rewrite (gr_heap _ _ _ Hgrown), nth_error_app2 by (unfold phi, base; lia).
  unfold phi. fold base. now replace (base + idx L x - base) with (idx L x) by lia.
Qed.

Lemma built_child x n y : In x L -> child w x n y -> child wb1 (phi L base x) n (phi L base y).
Proof.
  intros Hx (o & Ho & Hd). destruct (built_get x Hx) as (o' & H1 & o0 & H2 & _ & _ & _ & _ & H3).
  assert (o0 = o) by congruence. subst o0. exists o'. split; [exact H1|]. specialize (H3 n). rewrite Hd in H3.
  destruct H3 as (j & Hj & ->). do 3 f_equal. unfold phi. f_equal. symmetry. apply idx_nth; [|exact Hj].
  apply (graph_NoDup _ _ _ _ Hw Hr Hg).
Qed.

Lemma built_follow p : forall x y, In x L -> follow w x p = Some y -> follow wb1 (phi L base x) p = Some (phi L base y).
Proof.
  induction p as [|n p IH]; intros x y Hx Hf.
  - destruct (built_get x Hx) as (o' & H1 & _). cbn in *. destruct (get_obj w x); [|discriminate]. injection Hf as <-. now rewrite H1.
  - apply follow_cons_child in Hf. destruct Hf as (z & Hc & Hf). rewrite (child_follow _ _ _ _ p (built_child _ _ _ Hx Hc)).
    apply IH; [|exact Hf]. apply (graph_reaches _ _ _ _ Hw Hr Hg). apply (graph_reaches _ _ _ _ Hw Hr Hg) in Hx.
    eapply reaches_trans; [exact Hx|]. eapply reaches_child; eauto.
Qed.
End Built.

Record merged (w : world) (L : list nat) (wb wb' : world) (objs : list mobj) : Prop := {
  mg_heap : w_heap wb' = w_heap wb ++ objs;
  mg_uuid : w_uuid wb' = w_uuid wb + List.length objs;
  mg_trace : w_trace wb' = w_trace wb;
  mg_nodes : w_nodes wb' = w_nodes wb;
  mg_ids : NoDup (map m_id objs);
  mg_fresh : Forall (fun o => w_uuid wb < m_id o <= w_uuid wb') objs;
  mg_otrace : Forall (fun o => m_trace o = w_trace wb) objs;
  mg_names : Forall (fun o => NoDup (keys (m_vars o))) objs;
  mg_len : List.length objs = List.length L;
  mg_bisim : bisim w wb' (copyR L (List.length (w_heap wb)))
}.

Lemma attr_cases nt a : (exists r, a = ARaw (PyMod r)) \/ (is_submodule a = false /\ is_node nt a = true) \/
  (is_submodule a = false /\ is_node nt a = false).
Proof. destruct (is_submodule a) eqn:E; [left; now apply is_sub_inv|]. destruct (is_node nt a); auto. Qed.

Lemma assign_None_wf a : wf_attr a -> assign_value None a = Ok a.
Proof. destruct a as [v|c]; [reflexivity|]. intros H. unfold assign_value. now rewrite container_copy_id. Qed.


Lemma list_prefix {A} (l l2 : list A) k : List.length l = k -> (forall j, j < k -> nth_error l2 j = nth_error l j) ->
  exists t, l2 = l ++ t.
Proof.
  intros <-. revert l2. induction l as [|x l IH]; intros l2 H; [exists l2; reflexivity|].
  destruct l2 as [|y l2]. { specialize (H 0). cbn in H. specialize (H (Nat.lt_0_succ _)). discriminate. }
  destruct (IH l2) as [t ->]. { intros j Hj. apply (H (S j)). cbn. lia. }
  specialize (H 0). cbn in H. specialize (H (Nat.lt_0_succ _)). injection H as ->. exists t. reflexivity.
Qed.

(** writes that only touch the new objects *)
Lemma grown_wrote wb wb1 objs w2 T : grown wb wb1 objs -> wrote wb1 w2 T ->
  (forall x n, x < List.length (w_heap wb) -> T x n = None) ->
  exists objs2, w_heap w2 = w_heap wb ++ objs2 /\
    Forall2 (fun o o2 => exists d2, o2 = set_vars o d2 /\ (NoDup (keys (m_vars o)) -> NoDup (keys d2))) objs objs2 /\
    forall j o, nth_error objs j = Some o -> exists o2, nth_error objs2 j = Some o2 /\
      forall n, dget n (m_vars o2) = match T (List.length (w_heap wb) + j) n with Some a => Some a | None => dget n (m_vars o) end.
Proof.
  intros Hg Hwr HT. set (base := List.length (w_heap wb)) in *.
  destruct (list_prefix (w_heap wb) (w_heap w2) base eq_refl) as [objs2 E].
  { intros j Hj. change (get_obj w2 j = nth_error (w_heap wb) j). rewrite (wr_same _ _ _ Hwr) by auto.
    unfold get_obj. rewrite (gr_heap _ _ _ Hg). now rewrite nth_error_app1. }
  exists objs2. split; [exact E|].
  assert (Hget : forall j, nth_error objs2 j = get_obj w2 (base + j)).
  { intros j. unfold get_obj. rewrite E, nth_error_app2 by (unfold base; lia). f_equal. unfold base. lia. }
  assert (Hget1 : forall j, nth_error objs j = get_obj wb1 (base + j)).
  { intros j. unfold get_obj. rewrite (gr_heap _ _ _ Hg), nth_error_app2 by (unfold base; lia). f_equal. unfold base. lia. }
  assert (Hlen : List.length objs2 = List.length objs).
  { pose proof (wr_len _ _ _ Hwr) as G. rewrite E, (gr_heap _ _ _ Hg), !app_length in G. lia. }
  assert (Hpt : forall j o, nth_error objs j = Some o -> exists d2, nth_error objs2 j = Some (set_vars o d2) /\
             (NoDup (keys (m_vars o)) -> NoDup (keys d2)) /\
             forall n, dget n d2 = match T (base + j) n with Some a => Some a | None => dget n (m_vars o) end).
  { intros j o Hj. rewrite Hget1 in Hj. destruct (wr_obj _ _ _ Hwr _ _ Hj) as (d2 & D1 & D2 & _ & D3). exists d2. rewrite Hget. auto. }
  split.
  - clear -Hpt Hlen. assert (H : forall j o, nth_error objs j = Some o -> exists d2, nth_error objs2 j = Some (set_vars o d2) /\
             (NoDup (keys (m_vars o)) -> NoDup (keys d2))). { intros j o Hj. destruct (Hpt j o Hj) as (d2 & ? & ? & _). eauto. }
    clear Hpt. revert objs2 Hlen H. induction objs as [|o objs IH]; intros [|o2 objs2] Hlen H; cbn in Hlen; try lia; [constructor|].
    constructor.
    + destruct (H 0 o eq_refl) as (d2 & [= ->] & Hd). eauto.
    + apply IH; [lia|]. intros j o' Hj. apply (H (S j) o' Hj).
  - intros j o Hj. destruct (Hpt j o Hj) as (d2 & ? & _ & ?). eauto.
Qed.

Lemma merge_graph w r d L E wb states :
  wf_world w -> valid w r -> graph w r d L -> names_ok w r -> items_spec w L E ->
  (forall i, In i E -> follow w r (i_path i) = Some (i_own i)) ->
  Permutation (fold_left (fun acc s => dupdate acc s) states []) (map (i_kv []) E) ->
  exists wb' objs, merge wb d states = Ok (List.length (w_heap wb), wb') /\ merged w L wb wb' objs.
Proof.
  intros Hw Hr Hg Hno HE HEf Hperm.
  destruct (items_keys _ _ _ _ _ Hw Hr Hg Hno HE HEf) as [Hsl _].
  destruct HE as (HE1 & HE2 & HE3).
  destruct (build_graph w r d L wb Hw Hr Hg) as (wb1 & objs & Hb & Hgr & Hall).
  set (base := List.length (w_heap wb)) in *.
  destruct (graph_NoDup _ _ _ _ Hw Hr Hg) as [HnL HvL].
  pose proof (graph_reaches _ _ _ _ Hw Hr Hg) as Hreach.
  assert (HrL : In r L). { apply Hreach. destruct (get_obj_ex _ _ Hr) as [o Ho]. eapply reaches_refl; eauto. }
  assert (Hphir : phi L base r = base).
  { unfold phi. destruct (graph_root _ _ _ _ Hg) as (t & -> & _). unfold idx. cbn. now rewrite Nat.eqb_refl, Nat.add_0_r. }
  (* the assignments *)
  apply Permutation_sym in Hperm. apply Permutation_sym, Permutation_map_inv in Hperm. destruct Hperm as (E' & HM & HpE).
  set (ent := fun i => mkE (i_path i) (phi L base (i_own i)) (i_name i) (i_val i) (i_val i)).
  assert (HinE : forall i, In i E' -> In (i_own i) L).
  { intros i Hi. apply HE1. eapply Permutation_in; [symmetry; exact HpE|exact Hi]. }
  assert (Hslots : NoDup (map i_slot E') -> NoDup (map (fun i => e_slot (ent i)) E')).
  { clear -HinE. induction E' as [|i E' IH]; cbn; [constructor|]. intros Hnd'. inversion Hnd'; subst.
    constructor; [|apply IH; auto; intros; apply HinE; now right].
    intros Hi. apply in_map_iff in Hi. destruct Hi as (j & Hj & Hj'). apply H1. apply in_map_iff. exists j. split; [|exact Hj'].
    unfold e_slot in Hj. cbn in Hj. injection Hj as E1 E2. unfold i_slot. f_equal; [|exact E2].
    apply (idx_inj L); [apply HinE; now right|apply HinE; now left|unfold phi in E1; lia]. }
  assert (Hup : exists w2, update_loop wb1 base (map (fun e => (e_key e, e_val e)) (map ent E')) = (w2, Ok tt) /\
              wrote wb1 w2 (writes (map ent E')) /\ plain_writes wb1 (writes (map ent E'))).
  { apply update_loop_entries.
    - rewrite map_map. apply Hslots. eapply Permutation_NoDup; [apply Permutation_map; exact HpE|exact HE3].
    - apply Forall_forall. intros e He. apply in_map_iff in He. destruct He as (i & <- & Hi).
      assert (HiE : In i E) by (eapply Permutation_in; [symmetry; exact HpE|exact Hi]).
      destruct (HE1 i HiE) as [G1 G2]. apply node_attr_iff in G2. destruct G2 as (o & Go & Gd & Gs & Gn).
      destruct (Hsl i HiE) as [S1 S2]. unfold entry_ok, ent. cbn [e_parts e_own e_name e_val e_new].
      split. { pose proof (built_follow w r d L wb wb1 objs Hw Hr Hg Hgr Hall _ _ _ HrL (HEf i HiE)) as G.
               fold base in G. rewrite Hphir in G. exact G. }
      split; [exact S1|]. split; [exact S2|]. split.
      { intros Heq. apply (wfo_reserved _ _ (wf_objs _ Hw _ _ Go)). rewrite <- Heq. eapply dget_In_keys; eauto. }
      split; [exact Gs|].
      destruct (built_get w L wb wb1 objs Hgr Hall _ G1) as (o' & Ho' & o0 & Ho0 & B1 & B2 & B3 & B4 & B5).
      assert (o0 = o) by congruence. subst o0. exists o'. split; [exact Ho'|].
      split; [rewrite B3; symmetry; apply Hgr|].
      specialize (B5 (i_name i)). rewrite Gd in B5. apply image_not_sub in B5; [|exact Gs]. rewrite Gn in B5. cbn in B5. rewrite B5.
      split; [|discriminate]. apply assign_None_wf. apply (wfo_attrs _ _ (wf_objs _ Hw _ _ Go) _ _ Gd). }
  destruct Hup as (w2 & Hloop & Hwr & Hpl).
  assert (Hmap : map (fun e => (e_key e, e_val e)) (map ent E') = map (i_kv []) E').
  { rewrite map_map. apply map_ext. reflexivity. }
  rewrite Hmap in Hloop.
  destruct (grown_wrote _ _ _ _ _ Hgr Hwr) as (objs2 & Hheap & Hobjs & Hdict).
  { intros x n Hx. destruct (writes (map ent E') x n) as [a|] eqn:Ew; [|reflexivity]. apply writes_Some in Ew.
    destruct Ew as (e & He & Hown & _). apply in_map_iff in He. destruct He as (i & <- & _). cbn in Hown.
    unfold phi, base in Hown. lia. }
  exists w2, objs2. split.
  { unfold merge. rewrite Hb. cbn [rbind]. unfold update_module. cbn [fold_left]. rewrite dupdate_nil, HM, Hloop. reflexivity. }
  assert (Hlen2 : List.length objs2 = List.length objs) by (symmetry; eapply Forall2_length; eauto).
  assert (Hid2 : map m_id objs2 = map m_id objs).
  { clear -Hobjs. induction Hobjs as [|o o2 l l2 (d2 & -> & _) H IH]; cbn; congruence. }
  assert (Hset2 : forall o2, In o2 objs2 -> exists o d2, In o objs /\ o2 = set_vars o d2 /\ (NoDup (keys (m_vars o)) -> NoDup (keys d2))).
  { intros o2 Ho2. destruct (Forall2_In_r _ _ _ _ Hobjs Ho2) as (o & Ho & d2 & ? & ?). eauto. }
  constructor.
  - exact Hheap.
  - rewrite (wr_uuid _ _ _ Hwr), (gr_uuid _ _ _ Hgr). lia.
  - rewrite (wr_trace _ _ _ Hwr). apply Hgr.
  - rewrite (wr_nodes _ _ _ Hwr). apply Hgr.
  - rewrite Hid2. apply Hgr.
  - apply Forall_forall. intros o2 Ho2. destruct (Hset2 o2 Ho2) as (o & d2 & Ho & -> & _). cbn.
    rewrite (wr_uuid _ _ _ Hwr). pose proof (gr_fresh _ _ _ Hgr) as G. rewrite Forall_forall in G. now apply G.
  - apply Forall_forall. intros o2 Ho2. destruct (Hset2 o2 Ho2) as (o & d2 & Ho & -> & _). cbn.
    destruct (Forall2_In_r _ _ _ _ Hall Ho) as (x & _ & o0 & _ & _ & _ & G & _). exact G.
  - apply Forall_forall. intros o2 Ho2. destruct (Hset2 o2 Ho2) as (o & d2 & Ho & -> & Hd). cbn. apply Hd.
    destruct (Forall2_In_r _ _ _ _ Hall Ho) as (x & _ & o0 & _ & _ & _ & _ & G & _). exact G.
  - rewrite Hlen2. symmetry. eapply Forall2_length; eauto.
  - constructor.
    + intros x y [Hx ->]. destruct (Forall2_nth _ _ _ _ _ Hall (idx_In _ _ Hx)) as (o' & Ho' & o & Ho & C1 & C2 & C3 & C4 & C5).
      destruct (Hdict _ _ Ho') as (o2 & Ho2 & Hd2). exists o, o2. split; [exact Ho|]. split.
      { unfold get_obj. rewrite Hheap, nth_error_app2 by (unfold phi, base; lia). unfold phi. fold base.
        now replace (base + idx L x - base) with (idx L x) by lia. }
      destruct (Forall2_nth _ _ _ _ _ Hobjs Ho') as (o2' & Ho2' & d2 & E2 & _). assert (E0 : o2' = o2) by congruence. rewrite E0 in E2. clear E0.
      split; [now rewrite E2|]. split; [now rewrite E2|].
      intros n. rewrite Hd2. fold base. specialize (C5 n). change (base + idx L x) with (phi L base x).
      assert (Hw_iff : forall a, writes (map ent E') (phi L base x) n = Some a <-> node_attr w x n a).
      { intros a. split.
        - intros Hwa. apply writes_Some in Hwa. destruct Hwa as (e & He & E1 & E3 & E4). apply in_map_iff in He.
          destruct He as (i & <- & Hi). cbn in E1, E3, E4.
          assert (HiE : In i E) by (eapply Permutation_in; [symmetry; exact HpE|exact Hi]).
          destruct (HE1 i HiE) as [G1 G2]. assert (i_own i = x) by (apply (idx_inj L); auto; unfold phi in E1; lia).
          congruence.
        - intros Hna. destruct (HE2 x n a Hx Hna) as (i & Hi & <- & <- & <-).
          apply (writes_In (map ent E') (ent i)).
          + rewrite map_map. cbn. assert (Hnd' : NoDup (map i_slot E')).
            { eapply Permutation_NoDup; [apply Permutation_map; exact HpE|exact HE3]. }
            apply Hslots; exact Hnd'.
          + apply in_map. eapply Permutation_in; eauto. }
      assert (Hw_none : (forall a, ~ node_attr w x n a) -> writes (map ent E') (phi L base x) n = None).
      { intros H. destruct (writes (map ent E') (phi L base x) n) as [b|]; [|reflexivity].
        destruct (H b). now apply Hw_iff. }
      destruct (dget n (m_vars o)) as [a|] eqn:Ea.
      * destruct (attr_cases (w_nodes w) a) as [[c ->]|[[S1 S2]|[S1 S2]]].
        -- assert (writes (map ent E') (phi L base x) n = None) as ->.
           { apply Hw_none. intros b Ew.
             destruct Ew as (o3 & Ho3 & Hd3 & Hs3 & _). assert (o3 = o) by congruence. subst. rewrite Ea in Hd3. injection Hd3 as <-. discriminate. }
           destruct C5 as (j & Hj & ->). cbn. split; [eapply nth_error_In; eauto|]. unfold phi. f_equal. symmetry. now apply idx_nth.
        -- assert (writes (map ent E') (phi L base x) n = Some a) as ->.
           { apply Hw_iff. apply node_attr_iff. exists o. auto. }
           now apply orel_refl_val.
        -- assert (writes (map ent E') (phi L base x) n = None) as ->.
           { apply Hw_none. intros b Ew.
             apply node_attr_iff in Ew. destruct Ew as (o3 & Ho3 & Hd3 & _ & Hn3). congruence. }
           apply image_not_sub in C5; [|exact S1]. rewrite S2 in C5.
           destruct (Hno x o n a) as (_ & _ & G); auto; [now apply Hreach|].
           rewrite G in C5 by (apply static_attr_iff; exists o; auto). cbn in C5. rewrite C5. now apply orel_refl_val.
      * assert (writes (map ent E') (phi L base x) n = None) as ->.
        { apply Hw_none. intros b Ew.
          destruct Ew as (o3 & Ho3 & Hd3 & _). congruence. }
        cbn in C5. rewrite C5. exact I.
    + intros x y y' [_ ->] [_ ->]. reflexivity.
    + intros x x' y [Hx ->] [Hx' E1]. apply (idx_inj L); auto. unfold phi in E1. lia.
Qed.
