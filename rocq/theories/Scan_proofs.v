(** scan and remat. *)
From Coq Require Import Permutation ZArith Lia.
From Verif Require Import PyBase PyBaseFacts ValuesM Spec_Eq ValuesFacts FiltersM StateM Spec_State State_proofs ModuleM Spec_Module Spec_History Spec_Prog
  Graph_facts Dfs_proofs Build_proofs Bisim_proofs Skel_proofs RoundTrip_proofs Clone_proofs Update_proofs Write_proofs History_proofs
  Laws_proofs Grow_proofs Prog_proofs SpmdM Spmd_proofs ContextM TransformM Transform_proofs ScanM Spec_Scan.
Local Open Scope string_scope.
Local Open Scope list_scope.

(** ** Merging the same states in two worlds *)
Definition shift (n b b' : nat) (x y : nat) : Prop := exists j, j < n /\ x = b + j /\ y = b' + j.

Lemma built_wf w r d L wb wb1 objs : wf_world w -> valid w r -> graph w r d L -> wf_world wb -> grown wb wb1 objs ->
  Forall2 (built w L (List.length (w_heap wb)) (w_trace wb)) L objs -> wf_world wb1.
Proof.
  intros Hw Hr Hg Hwb G HF.
  assert (Hlen : List.length objs = List.length L) by (symmetry; eapply Forall2_length; exact HF).
  assert (Hl : List.length (w_heap wb1) = List.length (w_heap wb) + List.length L) by (rewrite (gr_heap _ _ _ G), app_length; lia).
  constructor.
  - rewrite (gr_heap _ _ _ G), map_app. apply NoDup_app_intro; [apply Hwb|apply G|]. intros i H1 H2.
    apply in_map_iff in H1 as (o1 & <- & H1). apply in_map_iff in H2 as (o2 & E & H2).
    pose proof (gr_fresh _ _ _ G) as F. rewrite Forall_forall in F. specialize (F o2 H2).
    apply In_nth_error in H1 as [j Hj]. pose proof (wfo_id _ _ (wf_objs _ Hwb j o1 Hj)). lia.
  - intros x o Ho. unfold get_obj in Ho. rewrite (gr_heap _ _ _ G) in Ho. destruct (Nat.lt_ge_cases x (List.length (w_heap wb))) as [Hlt|Hge].
    + rewrite nth_error_app1 in Ho by assumption. destruct (wf_objs _ Hwb x o Ho) as [A B C D E]. constructor; auto.
      * rewrite (gr_uuid _ _ _ G). lia.
      * intros n y Hy. specialize (D n y Hy). lia.
    + rewrite nth_error_app2 in Ho by assumption.
      destruct (Forall2_nth2 _ _ _ _ _ HF Ho) as (z & Hz & o0 & A & B & C & D & E & F).
      destruct (wf_objs _ Hw z o0 A) as [W1 W2 W3 W4 W5].
      constructor.
      * pose proof (gr_fresh _ _ _ G) as Q. rewrite Forall_forall in Q. apply nth_error_In in Ho. specialize (Q o Ho). lia.
      * exact E.
      * intros Hi. apply W3. specialize (F "_module__state"). destruct (dget "_module__state" (m_vars o0)) as [a|] eqn:Ea.
        { eapply dget_In_keys; eauto. }
        cbn in F. apply dget_None in F. contradiction.
      * intros n y Hy. specialize (F n). rewrite Hy in F. destruct (dget n (m_vars o0)) as [a|] eqn:Ea; [|discriminate].
        destruct (is_submodule a) eqn:Es.
        { apply is_sub_inv in Es as [c ->]. destruct F as (j & Hj & [= ->]). rewrite Hl.
          assert (j < List.length L) by (apply nth_error_Some; congruence). lia. }
        apply image_not_sub in F; [|exact Es]. destruct (_ || _); [discriminate|]. injection F as <-. discriminate.
      * intros n a Ha. specialize (F n). rewrite Ha in F. destruct (dget n (m_vars o0)) as [a0|] eqn:Ea; [|discriminate].
        destruct (is_submodule a0) eqn:Es.
        { apply is_sub_inv in Es as [c ->]. destruct F as (j & Hj & [= ->]). exact Logic.I. }
        apply image_not_sub in F; [|exact Es]. destruct (_ || _); [discriminate|]. injection F as ->. eapply W5; eauto.
Qed.

Lemma image_det L b b' nt n a x y : NoDup L -> image L b nt n a x -> image L b' nt n a y ->
  orel (shift (List.length L) b b') x y.
Proof.
  intros HN H1 H2. destruct a as [a|]; cbn in H1, H2; [|subst; exact Logic.I].
  destruct (is_submodule a) eqn:Es.
  - apply is_sub_inv in Es as [c ->]. destruct H1 as (j & A & ->). destruct H2 as (j' & A' & ->).
    assert (j' = j). { rewrite NoDup_nth_error in HN. symmetry. apply HN; [apply nth_error_Some; congruence|congruence]. }
    subst j'. cbn. exists j. split; [apply nth_error_Some; congruence|]. auto.
  - destruct a as [[]|]; try discriminate; rewrite H1, H2; destruct (_ || _); cbn; auto.
Qed.

Lemma build_pair w r d L wa wb : wf_world w -> valid w r -> graph w r d L -> wf_world wa -> wf_world wb -> w_nodes wa = w_nodes wb ->
  exists wa1 wb1, build_module wa d = Ok (List.length (w_heap wa), wa1) /\ build_module wb d = Ok (List.length (w_heap wb), wb1) /\
    pair wa1 wb1 (shift (List.length L) (List.length (w_heap wa)) (List.length (w_heap wb))) /\
    shift (List.length L) (List.length (w_heap wa)) (List.length (w_heap wb)) (List.length (w_heap wa)) (List.length (w_heap wb)) /\
    w_trace wa1 = w_trace wa /\ w_trace wb1 = w_trace wb /\ w_nodes wb1 = w_nodes wb /\ all_unchanged wa wa1 /\ all_unchanged wb wb1 /\
    List.length (w_heap wa) < List.length (w_heap wa1) /\ List.length (w_heap wb) < List.length (w_heap wb1).
Proof.
  intros Hw Hr Hg Ha Hb Hn.
  destruct (build_graph w r d L wa Hw Hr Hg) as (wa1 & oa & B1 & G1 & F1).
  destruct (build_graph w r d L wb Hw Hr Hg) as (wb1 & ob & B2 & G2 & F2).
  destruct (graph_NoDup _ _ _ _ Hw Hr Hg) as [HN _].
  assert (HL : 0 < List.length L) by (destruct (graph_root _ _ _ _ Hg) as (t & -> & _); cbn; lia).
  assert (Hla : List.length oa = List.length L) by (symmetry; eapply Forall2_length; exact F1).
  assert (Hlb : List.length ob = List.length L) by (symmetry; eapply Forall2_length; exact F2).
  assert (Hgeta : forall j, j < List.length L -> exists x o, nth_error L j = Some x /\ get_obj wa1 (List.length (w_heap wa) + j) = Some o /\
            built w L (List.length (w_heap wa)) (w_trace wa) x o).
  { intros j Hj. destruct (nth_error L j) as [x|] eqn:E; [|apply nth_error_None in E; lia].
    destruct (Forall2_nth _ _ _ _ _ F1 E) as (o & H1 & H2). exists x, o. split; [reflexivity|]. split; [|exact H2].
    unfold get_obj. rewrite (gr_heap _ _ _ G1), nth_error_app2 by lia. now replace (_ + j - _) with j by lia. }
  assert (Hgetb : forall j, j < List.length L -> exists x o, nth_error L j = Some x /\ get_obj wb1 (List.length (w_heap wb) + j) = Some o /\
            built w L (List.length (w_heap wb)) (w_trace wb) x o).
  { intros j Hj. destruct (nth_error L j) as [x|] eqn:E; [|apply nth_error_None in E; lia].
    destruct (Forall2_nth _ _ _ _ _ F2 E) as (o & H1 & H2). exists x, o. split; [reflexivity|]. split; [|exact H2].
    unfold get_obj. rewrite (gr_heap _ _ _ G2), nth_error_app2 by lia. now replace (_ + j - _) with j by lia. }
  exists wa1, wb1. split; [exact B1|]. split; [exact B2|]. split.
  { constructor.
    - constructor.
      + intros x y (j & Hj & -> & ->). destruct (Hgeta j Hj) as (z & o & Z1 & Z2 & o0 & A1 & A2 & A3 & A4 & A5 & A6).
        destruct (Hgetb j Hj) as (z' & o' & Z1' & Z2' & o0' & A1' & A2' & A3' & A4' & A5' & A6').
        assert (z' = z) by congruence. subst z'. assert (o0' = o0) by congruence. subst o0'.
        exists o, o'. split; [exact Z2|]. split; [exact Z2'|]. split; [congruence|]. split; [congruence|].
        intros n. eapply image_det; [exact HN|apply A6|apply A6'].
      + intros x y y' (j & _ & -> & ->) (j' & _ & E & ->). lia.
      + intros x x' y (j & _ & -> & ->) (j' & _ & -> & E). lia.
    - eapply (built_wf w r d L wa); eauto.
    - eapply (built_wf w r d L wb); eauto.
    - rewrite (gr_nodes _ _ _ G1), (gr_nodes _ _ _ G2). exact Hn.
    - intros x y o (j & Hj & -> & ->) Ho. destruct (Hgeta j Hj) as (z & o1 & Z1 & Z2 & o0 & A1 & A2 & A3 & A4 & _).
      rewrite (gr_trace _ _ _ G1). congruence.
    - intros x y o (j & Hj & -> & ->) Ho. destruct (Hgetb j Hj) as (z & o1 & Z1 & Z2 & o0 & A1 & A2 & A3 & A4 & _).
      rewrite (gr_trace _ _ _ G2). congruence. }
  split; [exists 0; lia|]. split; [apply G1|]. split; [apply G2|]. split; [apply G2|].
  split. { intros x o Ho. unfold get_obj in *. rewrite (gr_heap _ _ _ G1). now apply nth_prefix. }
  split. { intros x o Ho. unfold get_obj in *. rewrite (gr_heap _ _ _ G2). now apply nth_prefix. }
  rewrite (gr_heap _ _ _ G1), (gr_heap _ _ _ G2), !app_length. lia.
Qed.

Definition plain_list (l : list state) : Prop := Forall (fun s : state => Forall (fun ka => plain_attr (snd ka)) s) l.

Lemma plain_merge (l : list state) : plain_list l -> forall acc, Forall (fun ka => plain_attr (snd ka)) acc ->
  Forall (fun ka => plain_attr (snd ka)) (fold_left (fun acc s => dupdate acc s) l acc).
Proof.
  induction 1 as [|s l Hs Hl IH]; intros acc Ha; cbn; [exact Ha|]. apply IH. now apply plain_dup.
Qed.

(** a call on a merged module can be repeated in any world *)
Lemma call_transfer {A} (f : prog A) w r d L wa wb states a s : ok_prog f ->
  wf_world w -> valid w r -> graph w r d L -> wf_world wa -> wf_world wb -> w_nodes wa = w_nodes wb -> plain_list states ->
  call_on wa d states f = Some (a, s) ->
  exists m w1 w2, merge wb d states = Ok (m, w1) /\ user_fun f w1 m = (w2, Ok a) /\ get_state w2 m = Ok s /\
    wf_world w2 /\ valid w2 m /\ all_unchanged wb w2 /\ w_trace w2 = w_trace wb /\ w_nodes w2 = w_nodes wb.
Proof.
  intros Hf Hw Hr Hg Ha Hb Hn Hpl Hc. unfold call_on in Hc.
  destruct (build_pair w r d L wa wb Hw Hr Hg Ha Hb Hn) as (wa1 & wb1 & B1 & B2 & HP & Hroot & T1 & T2 & N2 & U1 & U2 & L1 & L2).
  set (R := shift (List.length L) (List.length (w_heap wa)) (List.length (w_heap wb))) in *.
  unfold merge in *. rewrite B1 in Hc. rewrite B2. cbn [rbind] in *. unfold update_module in *.
  destruct (pair_loop R (fold_left (fun acc s => dupdate acc s) ([] :: states) [])) with (w := wa1) (w' := wb1)
    (x := List.length (w_heap wa)) (y := List.length (w_heap wb)) as (wa2 & wb2 & res & E1 & E2 & M); auto.
  { apply plain_merge; constructor; [constructor|exact Hpl]. }
  cbn [fold_left] in *. rewrite E1 in Hc. rewrite E2. destruct res as [[]|e]; [|discriminate].
  destruct (run_pair f Hf wa2 wb2 R [List.length (w_heap wa)] [List.length (w_heap wb)]) as (wa3 & wb3 & res & R2 & F1 & F2 & M2).
  { apply M. } { constructor; [exact Hroot|constructor]. }
  unfold user_fun in *. rewrite F1 in Hc. destruct res as [x|e]; [|discriminate].
  destruct (get_state wa3 (List.length (w_heap wa))) as [s'|e] eqn:Es; [|discriminate]. injection Hc as -> ->.
  pose proof (moves_trans _ _ _ _ _ _ _ _ _ M M2) as M3. pose proof (mv_pair _ _ _ _ _ _ M2) as HP3.
  assert (Hr3 : R2 (List.length (w_heap wa)) (List.length (w_heap wb))) by (apply (mv_incl _ _ _ _ _ _ M2); exact Hroot).
  exists (List.length (w_heap wb)), wb2, wb3. split; [reflexivity|]. split; [exact F2|].
  split. { rewrite <- Es. symmetry. eapply bisim_get_state; [apply HP3|apply HP3|apply HP3|apply HP3|exact Hr3]. }
  split; [apply HP3|]. split; [apply (bisim_valid _ _ _ _ _ (pr_bi _ _ _ HP3) Hr3)|].
  split. { intros x o Ho. pose proof (U2 x o Ho) as Ho1. rewrite (mv_fr' _ _ _ _ _ _ M3); [exact Ho1|eapply get_obj_lt; exact Ho1|].
    intros y (j & Hj & -> & ->). apply get_obj_lt in Ho. unfold valid in Ho. lia. }
  split; [rewrite (mv_tr' _ _ _ _ _ _ M3); exact T2|].
  rewrite <- (pr_nodes _ _ _ HP3), (mv_nt _ _ _ _ _ _ M3), (pr_nodes _ _ _ HP). exact N2.
Qed.

(** ** alike States *)
Lemma same_kind_refl a : same_kind a a.
Proof. destruct a; cbn; auto. Qed.
Lemma same_kind_sym a b : same_kind a b -> same_kind b a.
Proof. destruct a, b; cbn; intuition. Qed.
Lemma same_kind_trans a b c : same_kind a b -> same_kind b c -> same_kind a c.
Proof. destruct a, b, c; cbn; try tauto. intros [-> ->] [-> ->]. auto. Qed.
Lemma alike_refl s : alike s s.
Proof. induction s; constructor; auto using same_kind_refl. Qed.
Lemma alike_sym s s' : alike s s' -> alike s' s.
Proof. induction 1 as [|x y s s' [H1 H2] H IH]; constructor; [split; [congruence|now apply same_kind_sym]|exact IH]. Qed.
Lemma alike_trans s s' s'' : alike s s' -> alike s' s'' -> alike s s''.
Proof.
  intros H. revert s''. induction H as [|x y s s' [H1 H2] H IH]; intros s'' H'; inversion H' as [|? z ? ? [H3 H4] H5]; subst; constructor.
  - split; [congruence|eapply same_kind_trans; eauto].
  - apply IH. exact H5.
Qed.
Lemma alike_keys s s' : alike s s' -> keys s = keys s'.
Proof. induction 1 as [|x y s s' [H1 H2] H IH]; [reflexivity|]. unfold keys in *. cbn. congruence. Qed.
Lemma alike_get s s' k a : alike s s' -> dget k s = Some a -> exists a', dget k s' = Some a' /\ same_kind a a'.
Proof.
  induction 1 as [|[k1 a1] [k2 a2] s s' [H1 H2] H IH]; cbn; [discriminate|]. cbn in H1, H2. subst k2.
  destruct (String.eqb k k1); [intros [= ->]; eauto|exact IH].
Qed.
Lemma alike_by_keys (s : state) : forall s' : state, keys s = keys s' -> NoDup (keys s) ->
  (forall k a a', dget k s = Some a -> dget k s' = Some a' -> same_kind a a') -> alike s s'.
Proof.
  induction s as [|[k a] s IH]; intros [|[k' a'] s'] Hk HN H; try discriminate; [constructor|].
  cbn in Hk. injection Hk as -> Hk. cbn in HN. inversion HN as [|? ? N1 N2]; subst. constructor.
  - split; [reflexivity|]. apply (H k'); cbn; now rewrite String.eqb_refl.
  - apply IH; [exact Hk|exact N2|]. intros k0 b b' D D'. apply (H k0); cbn;
      (destruct (String.eqb_spec k0 k') as [->|]; [exfalso; apply dget_In_keys in D; apply N1; exact D|assumption]).
Qed.
Lemma wf_keys_eq (a b : state) : wf_state a -> wf_state b -> (forall k, In k (keys a) <-> In k (keys b)) -> keys a = keys b.
Proof.
  intros Ha Hb H. set (g := fun ka : string * attr => (fst ka, ARaw PyNone)).
  assert (K : forall s : state, keys (map g s) = keys s). { intros s. unfold keys. rewrite map_map. reflexivity. }
  rewrite <- (K a), <- (K b). f_equal. apply state_ext.
  - pose proof (K a) as Ka. unfold wf_state, keys_increasing, keys in *. rewrite Ka. exact Ha.
  - pose proof (K b) as Kb. unfold wf_state, keys_increasing, keys in *. rewrite Kb. exact Hb.
  - assert (D : forall k (s : state), dget k (map g s) = if dmem k s then Some (ARaw PyNone) else None).
    { intros k s. unfold dmem. induction s as [|[k' v] s IH]; cbn; [reflexivity|]. destruct (String.eqb k k'); [reflexivity|exact IH]. }
    intros k. rewrite !D. unfold dmem. destruct (dget k a) eqn:E1, (dget k b) eqn:E2; auto; exfalso.
    + apply dget_None in E2. apply E2, H. eapply dget_In_keys; eauto.
    + apply dget_None in E1. apply E1, H. eapply dget_In_keys; eauto.
Qed.
Lemma alike_of (a b : state) : wf_state a -> wf_state b -> (forall k, In k (keys b) -> In k (keys a)) ->
  (forall k x, dget k a = Some x -> exists y, dget k b = Some y /\ same_kind x y) -> alike a b.
Proof.
  intros Ha Hb H1 H2. apply alike_by_keys; [|now apply wf_NoDup|].
  - apply wf_keys_eq; auto. intros k. split; [|apply H1]. intros Hk. apply dget_Some_keys in Hk as [x Hx].
    destruct (H2 k x Hx) as (y & Hy & _). eapply dget_In_keys; eauto.
  - intros k x y D1 D2. destruct (H2 k x D1) as (y' & D3 & Hs). congruence.
Qed.

Definition plain_st (s : state) : Prop := Forall (fun ka => plain_attr (snd ka)) s.

Lemma equiv_same c d : wf_container c -> c_cls c = c_cls d -> c_meta c = c_meta d -> is_equivalent c d = true.
Proof.
  intros H E1 E2. pose proof (is_equivalent_refl c H) as R. unfold is_equivalent in *. rewrite <- E1, <- E2. exact R.
Qed.
Lemma alike_same_struct s s' : plain_st s -> alike s s' -> same_struct s s' = true.
Proof.
  intros Hp H. induction H as [|[k a] [k' a'] s s' [H1 H2] H IH]; [reflexivity|]. cbn in H1, H2. subst k'. inversion Hp as [|? ? P1 P2]; subst.
  cbn. rewrite IH by exact P2. unfold same_entry. cbn. rewrite String.eqb_refl. destruct a as [|c], a' as [|c']; try contradiction; auto.
  cbn. destruct H2 as [E1 E2]. destruct P1 as [P1 _]. cbn in P1. now rewrite equiv_same.
Qed.

Lemma sub_nil (a b : state) : (forall k, In k (keys a) -> In k (keys b)) -> state_sub a b = [].
Proof.
  intros H. destruct (state_sub a b) as [|[k v] t] eqn:E; [reflexivity|]. exfalso.
  assert (Hk : In k (keys (state_sub a b))) by (rewrite E; now left).
  apply dget_Some_keys in Hk as [x Hx]. pose proof Hx as Hy. rewrite dget_sub in Hx. destruct (dmem k b) eqn:Em; [discriminate|].
  apply dget_In_keys in Hx. apply H in Hx. apply dget_Some_keys in Hx as [z Hz]. unfold dmem in Em. rewrite Hz in Em. discriminate.
Qed.
Lemma sub_nil_inv (a b : state) : state_sub a b = [] -> forall k, In k (keys a) -> In k (keys b).
Proof.
  intros H k Hk. apply dget_Some_keys in Hk as [x Hx]. assert (D : dget k (state_sub a b) = None) by (rewrite H; reflexivity).
  rewrite dget_sub in D. unfold dmem in D. destruct (dget k b) eqn:E; [eapply dget_In_keys; eauto|congruence].
Qed.

Lemma plain_sub (a b : state) : plain_st a -> plain_st (state_sub a b).
Proof. intros H. unfold state_sub. destruct b; [exact H|]. unfold plain_st in *. rewrite Forall_forall in *. intros x Hx. apply filter_In in Hx. now apply H. Qed.

(** ** outputs of a partition *)
Lemma partition_parts s fs l : wf_state s -> plain_st s -> partition_state s fs = Ok (Many l) ->
  Forall wf_state l /\ plain_list l /\ List.length l = List.length fs /\
  (forall i j x y k, nth_error l i = Some x -> nth_error l j = Some y -> In k (keys x) -> In k (keys y) -> i = j) /\
  (forall x k a, In x l -> dget k x = Some a -> dget k s = Some a) /\
  (forall k a, dget k s = Some a -> exists x, In x l /\ dget k x = Some a).
Proof.
  intros Hs Hp H. destruct fs as [|f fs]; [discriminate|]. cbn [partition_state] in H.
  pose proof (partition_outputs_wf _ _ _ _ Hs H) as W. destruct (partition_entries _ _ _ _ Hs H) as [E1 E2]. cbn [sts_list] in *.
  split; [exact W|]. assert (Sub : forall x k a, In x l -> dget k x = Some a -> dget k s = Some a).
  { intros x k a Hx D. apply In_nth_error in Hx as [i Hi]. now apply (E2 i x k a Hi) in D as [D _]. }
  split.
  { apply Forall_forall. intros x Hx. apply Forall_forall. intros [k a] Hi. cbn. rewrite Forall_forall in W. specialize (W x Hx).
    assert (D : dget k x = Some a) by (apply In_dget; [now apply wf_NoDup|exact Hi]).
    apply (Sub x k a Hx) in D. apply dget_In in D. unfold plain_st in Hp. rewrite Forall_forall in Hp. apply (Hp (k, a) D). }
  split; [exact E1|]. split.
  { intros i j x y k Hi Hj K1 K2. apply dget_Some_keys in K1 as [a D1]. apply dget_Some_keys in K2 as [b D2].
    apply (E2 i x k a Hi) in D1 as [D1 F1]. apply (E2 j y k b Hj) in D2 as [D2 F2]. assert (b = a) by congruence. subst b.
    destruct F1 as [(g & G1 & G2) F1], F2 as [(h & H1 & H2) F2]. destruct (Nat.lt_trichotomy i j) as [Hij|[Hij|Hij]]; [|exact Hij|].
    - exfalso. eapply F2; eauto.
    - exfalso. eapply F1; eauto. }
  split; [exact Sub|]. intros k a D.
  assert (C : exists r, state_partition s f fs = Ok r) by eauto. apply (partition_ok_iff s f fs Hs) in C as (_ & _ & C).
  pose proof (partition_merge s f fs (Many l)) as M. destruct l as [|x xs].
  { discriminate. }
  specialize (M x xs Hs H (Permutation_refl _)). rewrite <- M in D. rewrite dget_state_merge in D by exact W.
  apply last_value_In in D. exact D.
Qed.

(** ** adding and removing axis names *)
Lemma axis1_plain f a b : (forall c s, sharding_of (ACont c) = Ok (Some (c, s)) -> wf_container c ->
     forall a', f (ACont c) = Ok a' -> exists v, a' = ACont (with_sharding c v)) ->
  (sharding_of a = Ok None -> f a = Ok a) -> (forall e, sharding_of a = Err e -> f a = Err e) ->
  plain_attr a -> f a = Ok b -> plain_attr b.
Proof.
  intros H1 H2 H3 [Hw Hs] Hf. destruct (sharding_of a) as [[[c s]|]|e] eqn:E.
  - destruct a as [v|c']; [discriminate|]. pose proof E as E'. cbn in E. destruct (smem "Node" (c_cls c')); [|discriminate].
    destruct (dget "sharding" (c_meta c')) as [x|] eqn:Ed; [|discriminate]. destruct x; try discriminate. destruct (val_sharding l); [|discriminate].
    injection E as -> ->. destruct (H1 c s E' Hw b Hf) as [v ->]. split; [|reflexivity]. cbn. eapply with_sharding_wf; eauto.
  - rewrite H2 in Hf by reflexivity. injection Hf as <-. split; assumption.
  - rewrite (H3 e eq_refl) in Hf. discriminate.
Qed.
Lemma sharding_of_inv c s : sharding_of (ACont c) = Ok (Some (c, s)) -> exists v, dget "sharding" (c_meta c) = Some v.
Proof.
  intros E. cbn in E. destruct (smem "Node" (c_cls c)); [|discriminate]. destruct (dget "sharding" (c_meta c)); [eauto|discriminate].
Qed.
Lemma remove_axis1_plain i n a b : plain_attr a -> remove_axis1 i n a = Ok b -> plain_attr b.
Proof.
  intros Hp H. eapply (axis1_plain (remove_axis1 i n) a b); auto; unfold remove_axis1.
  - intros c s E W a' F. rewrite E in F. cbn [rbind] in F. destruct (remove_axis_entry i n s) as [s'|]; [|discriminate]. cbn [rbind] in F.
    destruct (sharding_of_inv c s E) as [v D]. rewrite (replace_sharding c v _ W D) in F. cbn in F. injection F as <-. eauto.
  - now intros ->.
  - now intros e ->.
Qed.
Lemma add_axis1_plain i n a b : plain_attr a -> add_axis1 i n a = Ok b -> plain_attr b.
Proof.
  intros Hp H. eapply (axis1_plain (add_axis1 i n) a b); auto; unfold add_axis1.
  - intros c s E W a' F. rewrite E in F. cbn [rbind] in F.
    destruct (sharding_of_inv c s E) as [v D]. rewrite (replace_sharding c v _ W D) in F. cbn in F. injection F as <-. eauto.
  - now intros ->.
  - now intros e ->.
Qed.
Lemma state_map_plain f s : (forall a b, plain_attr a -> f a = Ok b -> plain_attr b) -> forall t, plain_st s -> state_map f s = Ok t -> plain_st t /\ keys t = keys s.
Proof.
  intros Hf. induction s as [|[k a] s IH]; intros t Hp H; cbn in H; [injection H as <-; auto|].
  destruct (f a) as [b|] eqn:E; [|discriminate]. cbn in H. destruct (state_map f s) as [t'|]; [|discriminate]. cbn in H. injection H as <-.
  inversion Hp as [|? ? P1 P2]; subst. destruct (IH t' P2 eq_refl) as [Q1 Q2]. split; [constructor; [eapply Hf; eauto|exact Q1]|].
  unfold keys in *. cbn. congruence.
Qed.
Lemma on_axes_plain f axes : (forall s ax t, plain_st s -> f s ax = Ok t -> plain_st t) -> forall l l', plain_list l -> on_axes f axes l = Ok l' -> plain_list l'.
Proof.
  intros Hf. induction axes as [|[g ax] axes IH]; intros [|s l] l' Hp H; cbn in H; try (injection H as <-; constructor).
  destruct (f s ax) as [x|] eqn:E; [|discriminate]. cbn in H. destruct (on_axes f axes l) as [xs|] eqn:E2; [|discriminate]. cbn in H. injection H as <-.
  inversion Hp; subst. constructor; [eapply Hf; eauto|eapply IH; eauto].
Qed.
Lemma enter_plain o l l' : plain_list l -> enter_axes o l = Ok l' -> plain_list l'.
Proof.
  intros Hp. unfold enter_axes. destruct (o_partition o) as [n|]; [|intros [= <-]; exact Hp].
  apply on_axes_plain; [|exact Hp]. intros s ax t Hs H. apply (state_map_plain (remove_axis1 ax n) s) in H; [apply H| |exact Hs].
  intros a b. apply remove_axis1_plain.
Qed.
Lemma leave_plain o l l' : plain_list l -> leave_axes o l = Ok l' -> plain_list l'.
Proof.
  intros Hp. unfold leave_axes. destruct (o_partition o) as [n|]; [|intros [= <-]; exact Hp].
  apply on_axes_plain; [|exact Hp]. intros s ax t Hs H. apply (state_map_plain (add_axis1 ax n) s) in H; [apply H| |exact Hs].
  intros a b. apply add_axis1_plain.
Qed.
Lemma on_axes_length f axes : forall l l', on_axes f axes l = Ok l' -> List.length l = List.length axes -> List.length l' = List.length axes.
Proof.
  induction axes as [|[g ax] axes IH]; intros [|s l] l' H Hl; cbn in H, Hl; try discriminate; try (injection H as <-; reflexivity).
  destruct (f s ax); [|discriminate]. cbn in H. destruct (on_axes f axes l) eqn:E; [|discriminate]. cbn in H. injection H as <-. cbn. f_equal.
  eapply IH; eauto.
Qed.
Lemma leave_length o l l' : leave_axes o l = Ok l' -> List.length l = List.length (o_axes o) -> List.length l' = List.length (o_axes o).
Proof.
  unfold leave_axes. destruct (o_partition o); [|intros [= <-]; auto]. apply on_axes_length.
Qed.

Lemma Forall2_reverse {A B} (R : A -> B -> Prop) l l' : Forall2 R l l' -> Forall2 R (rev l) (rev l').
Proof. induction 1; [constructor|]. cbn. apply Forall2_app; auto. Qed.

Lemma split3_app l (b c : state) : split3 (l ++ [b; c]) = Some (l, b, c).
Proof. unfold split3. rewrite rev_app_distr. cbn. now rewrite rev_involutive. Qed.

Lemma plain_list_app l1 l2 : plain_list (l1 ++ l2) <-> plain_list l1 /\ plain_list l2.
Proof. unfold plain_list. apply Forall_app. Qed.

(** ** One step *)
Section Steps.
Context {X Y : Type} (o : scan_opts) (f : option pctx -> pyval -> X -> prog (pyval * Y)).
Context (Hf : forall pc c xs, ok_prog (f pc c xs)).
Context (w : world) (r : nat) (d : mdef) (L : list nat).
Context (Hw : wf_world w) (Hr : valid w r) (Hg : graph w r d L).

Definition uf : scanned_of X Y := fun pc c xs => user_fun (f pc c xs).

Record good_after (wb w2 : world) : Prop := {
  ga_wf : wf_world w2;
  ga_un : all_unchanged wb w2;
  ga_tr : w_trace w2 = w_trace wb;
  ga_nt : w_nodes w2 = w_nodes wb
}.
Lemma good_refl wb : wf_world wb -> good_after wb wb.
Proof. intros H. constructor; auto. intros x y E. exact E. Qed.
Lemma good_trans w1 w2 w3 : good_after w1 w2 -> good_after w2 w3 -> good_after w1 w3.
Proof. intros [A1 A2 A3 A4] [B1 B2 B3 B4]. constructor; try congruence. intros x ob E. apply B2, A2, E. Qed.
Lemma good_trace wb w2 t : good_after (set_trace wb t) w2 -> good_after wb (set_trace w2 (w_trace wb)).
Proof. intros [A1 A2 A3 A4]. constructor; [now apply set_trace_wf|exact A2|reflexivity|exact A4]. Qed.

Lemma scan_step b cs c ctx raw axs xs c1 ys s axs1 b1 cs1 fin wb :
  wf_world wb -> w_nodes wb = w_nodes w -> plain_list (axs ++ [b; cs]) -> enter_axes o raw = Ok axs ->
  call_on w d (axs ++ [b; cs]) (f ctx c xs) = Some ((c1, ys), s) ->
  partition_state s (o_filters o) = Ok (Many (axs1 ++ [b1; cs1])) -> leave_axes o axs1 = Ok fin ->
  exists w2, scan_fn o uf d b wb (cs, c) (ctx, raw, xs) =
      (w2, Ok ((state_sub cs1 (state_sub cs1 cs), c1), (fin, state_sub b b1, state_sub cs1 cs, ys))) /\
    good_after wb w2 /\ wf_state s /\ plain_st s.
Proof.
  intros Hwb Hn Hp He Hc Hpart Hl.
  destruct (call_transfer (f ctx c xs) w r d L w wb (axs ++ [b; cs]) (c1, ys) s) as (m & w1 & w2 & M & F & G & W2 & V2 & U & T & N); auto.
  exists w2. assert (Hws : wf_state s). { destruct (get_state_total w2 m W2 V2) as (s' & E & W). congruence. }
  split; [|split; [constructor; auto|split; [exact Hws|eapply state_plain; eauto]]].
  unfold scan_fn. rewrite He, M. unfold uf. rewrite F. destruct (get_module_def_total w2 m W2 V2) as [d' Hd'].
  unfold module_partition. rewrite Hd', G. cbn [rbind]. rewrite Hpart. cbn [rbind p_states sts_list]. rewrite split3_app, Hl. reflexivity.
Qed.

Definition entered (raw layer : step_of X) : Prop :=
  fst (fst raw) = fst (fst layer) /\ enter_axes o (snd (fst raw)) = Ok (snd (fst layer)) /\ snd raw = snd layer.
Definition step_outs (fins : list (list state)) (outs : list (layer_out_of Y)) : list (outcome Y) :=
  map (fun p => (fst p, [], [], snd (snd p))) (combine fins outs).
Lemma step_outs_axs fins : forall outs, List.length outs = List.length fins -> map out_axs (step_outs fins outs) = fins.
Proof. induction fins as [|x fins IH]; intros [|y outs] H; try discriminate; [reflexivity|]. injection H as H. cbn. f_equal. now apply IH. Qed.
Lemma step_outs_ys fins : forall outs, List.length outs = List.length fins -> map out_ys (step_outs fins outs) = map snd outs.
Proof. induction fins as [|x fins IH]; intros [|y outs] H; try discriminate; [reflexivity|]. injection H as H. cbn. f_equal. now apply IH. Qed.
Lemma Forall2_len {A B} (R : A -> B -> Prop) l l' : Forall2 R l l' -> List.length l = List.length l'.
Proof. induction 1; cbn; congruence. Qed.
Definition left (x : layer_out_of Y) (fin : list state) : Prop := leave_axes o (fst x) = Ok fin.

Lemma last_cons {A} (l : list A) x y : last (x :: l) y = last l x.
Proof. revert x y. induction l as [|z l IH]; intros x y; [reflexivity|]. change (last (z :: l) y = last (z :: l) x). now rewrite (IH z y), (IH z x). Qed.

Lemma steps_loop b cs c layers outs css c' : loop w d (o_filters o) f b cs c layers outs css c' ->
  forall raws fins wb, Forall2 entered raws layers -> Forall (fun l => plain_list (snd (fst l))) layers -> Forall2 left outs fins ->
  (forall x, In x css -> alike cs x) -> plain_list [b; cs] -> wf_world wb -> w_nodes wb = w_nodes w ->
  exists w2, scan_steps (scan_fn o uf d b) wb (cs, c) raws = (w2, Ok ((last css cs, c'), step_outs fins outs)) /\ good_after wb w2.
Proof.
  induction 1 as [cs c|cs c ctx axs xs c1 ys s axs1 cs1 rest outs css c2 Hc Hpart Hl IH]; intros raws fins wb Hent Hpl Hleft Hal Hbc Hwb Hn.
  - inversion Hent; subst. inversion Hleft; subst. exists wb. split; [reflexivity|now apply good_refl].
  - inversion Hent as [|[[ctx0 raw] xs0] ? raws' ? (E1 & E2 & E3) Hent']; subst. inversion Hleft as [|? fin ? fins' Hfin Hleft']; subst.
    inversion Hpl as [|? ? P1 P2]; subst. cbn in E1, E2, E3, P1. subst ctx0 xs0. unfold left in Hfin. cbn [fst] in Hfin.
    destruct (scan_step b cs c ctx raw axs xs c1 ys s axs1 b cs1 fin wb) as (w1 & S1 & G1 & Ws & Ps); auto.
    { apply plain_list_app. auto. }
    assert (A1 : alike cs cs1) by (apply Hal; now left).
    assert (Z1 : state_sub cs1 cs = []). { apply sub_nil. intros k Hk. rewrite (alike_keys _ _ A1). exact Hk. }
    destruct (partition_parts s _ _ Ws Ps Hpart) as (_ & Q & _). apply plain_list_app in Q as [_ Q].
    destruct (IH raws' fins' w1) as (w2 & S2 & G2); auto.
    { intros x Hx. eapply alike_trans; [apply alike_sym; exact A1|]. apply Hal. now right. }
    { apply G1. } { rewrite (ga_nt _ _ G1). exact Hn. }
    exists w2. split; [|eapply good_trans; eauto]. cbn [scan_steps]. rewrite S1, Z1. cbn [state_sub fst].
    rewrite sub_self. rewrite alike_same_struct; [|inversion Hbc as [|? ? _ B2]; now inversion B2|exact A1]. rewrite S2, last_cons. reflexivity.
Qed.

(** ** All steps *)
Lemma run_same t b cs c layers outs css c' raws fins x0 l0 wb axs1 cs1 c1 ys1 s1 fin1 :
  loop w d (o_filters o) f b cs c (if o_reverse o then rev layers else layers) outs css c' ->
  raws <> [] -> Forall2 entered raws layers -> Forall (fun l => plain_list (snd (fst l))) layers -> Forall2 left outs fins ->
  (forall x, In x css -> alike cs x) -> plain_list [b; cs] -> wf_world wb -> w_nodes wb = w_nodes w ->
  nth_error raws 0 = Some x0 -> nth_error layers 0 = Some l0 ->
  call_on w d (snd (fst l0) ++ [b; cs]) (f (fst (fst l0)) c (snd l0)) = Some ((c1, ys1), s1) ->
  partition_state s1 (o_filters o) = Ok (Many (axs1 ++ [b; cs1])) -> alike cs cs1 -> leave_axes o axs1 = Ok fin1 ->
  exists w2, scan_run o t uf d b wb cs c raws =
      (w2, Ok ((last css cs, c'), (if o_reverse o then rev (step_outs fins outs) else step_outs fins outs),
                                  (if o_reverse o then rev (step_outs fins outs) else step_outs fins outs))) /\ good_after wb w2.
Proof.
  intros Hl Hne Hent Hpl Hleft Hal Hbc Hwb Hn Hx0 Hl0 Hc Hpart Ha Hfin.
  destruct raws as [|x raws']; [contradiction|]. destruct layers as [|l layers']; [inversion Hent|]. cbn in Hx0, Hl0. injection Hx0 as <-. injection Hl0 as <-.
  inversion Hent as [|? ? ? ? (E1 & E2 & E3) Hent']; subst. inversion Hpl as [|? ? P1 P2]; subst.
  destruct x as [[ctx raw] xs], l as [[ctx0 axs] xs0]. cbn [fst snd] in *. subst ctx0 xs0.
  destruct (scan_step b cs c ctx raw axs xs c1 ys1 s1 axs1 b cs1 fin1 (set_trace wb t)) as (w1 & S1 & G1 & _); auto.
  { now apply set_trace_wf. } { apply plain_list_app. auto. }
  assert (Z1 : state_sub cs1 cs = []). { apply sub_nil. intros k Hk. rewrite (alike_keys _ _ Ha). exact Hk. }
  apply good_trace in G1. set (wp := set_trace w1 (w_trace wb)) in *.
  destruct (steps_loop b cs c _ outs css c' Hl (if o_reverse o then rev ((ctx, raw, xs) :: raws') else (ctx, raw, xs) :: raws') fins (set_trace wp t)) as (w2 & S2 & G2); auto.
  { destruct (o_reverse o); [|exact Hent]. now apply Forall2_reverse. }
  { destruct (o_reverse o); [|exact Hpl]. apply Forall_rev. exact Hpl. }
  { apply set_trace_wf. apply G1. } { change (w_nodes wp = w_nodes w). rewrite (ga_nt _ _ G1). exact Hn. }
  apply good_trace in G2. exists (set_trace w2 (w_trace wp)).
  split; [|eapply good_trans; eauto]. unfold scan_run. rewrite S1, Z1. cbn [out_cs_new fst snd]. unfold out_cs_new. cbn [fst snd].
  unfold lax_scan. fold wp. match goal with |- context [scan_steps ?a ?b ?c ?l] => replace (scan_steps a b c l) with
    (w2, @Ok ((state * pyval) * list (outcome Y)) ((last css cs, c'), step_outs fins outs)) by (symmetry; exact S2) end.
  destruct (o_reverse o); reflexivity.
Qed.

Lemma run_new (same : Y -> Y -> Prop) t b cs c layers outs css c' raws fins wb :
  loop w d (o_filters o) f b cs c layers outs css c' ->
  raws <> [] -> Forall2 entered raws layers -> Forall (fun l => plain_list (snd (fst l))) layers -> Forall2 left outs fins ->
  uniform same cs outs fins css -> wf_state b -> wf_state cs -> plain_list [b; cs] -> wf_world wb -> w_nodes wb = w_nodes w -> o_reverse o = false ->
  exists w2 all nlast, scan_run o t uf d b wb cs c raws = (w2, Ok ((last css cs, c'), all, nlast)) /\ good_after wb w2 /\
    map out_axs all = fins /\ map out_ys all = map snd outs /\
    Forall (fun y => out_b_new y = [] /\ out_cs_new y = []) nlast.
Proof.
  intros Hl Hne Hent Hpl Hleft Hu Hwfb Hwfc Hbc Hwb Hn Hrev.
  destruct Hl as [cs c|cs c ctx axs xs c1 ys s axs1 cs1 rest outs css c2 Hc Hpart Hl]; [inversion Hent; subst; contradiction|].
  inversion Hent as [|[[ctx0 raw] xs0] ? raws' ? (E1 & E2 & E3) Hent']; subst. inversion Hleft as [|? fin ? fins' Hfin Hleft']; subst.
  inversion Hpl as [|? ? P1 P2]; subst. cbn in E1, E2, E3, P1. subst ctx0 xs0. unfold left in Hfin. cbn [fst] in Hfin.
  destruct (scan_step b cs c ctx raw axs xs c1 ys s axs1 b cs1 fin (set_trace wb t)) as (w1 & S1 & G1 & Ws & Ps); auto.
  { now apply set_trace_wf. } { apply plain_list_app. auto. }
  destruct (partition_parts s _ _ Ws Ps Hpart) as (Qw & Q & _). apply plain_list_app in Q as [_ Q].
  assert (Wc1 : wf_state cs1). { rewrite Forall_forall in Qw. apply Qw. apply in_app_iff. right. cbn. auto. }
  assert (Hk : forall k a, dget k cs = Some a -> exists b', dget k cs1 = Some b' /\ same_kind a b') by (intros k a; apply (u_kept _ _ _ _ _ Hu cs1 k a); now left).
  assert (Hstep : forall n, Forall (fun y => out_b_new y = [] /\ out_cs_new y = []) (step_outs n outs)).
  { intros n. apply Forall_forall. intros y Hy. unfold step_outs in Hy. apply in_map_iff in Hy as (p & <- & _). split; reflexivity. }
  destruct (state_sub cs1 cs) as [|new0 news] eqn:Ez.
  - assert (Ha : alike cs cs1). { apply alike_of; auto. now apply sub_nil_inv. }
    destruct (run_same t b cs c ((ctx, axs, xs) :: rest) ((axs1, ys) :: outs) (cs1 :: css) c2 ((ctx, raw, xs) :: raws') (fin :: fins')
                (ctx, raw, xs) (ctx, axs, xs) wb axs1 cs1 c1 ys s fin) as (w2 & S2 & G2); auto; rewrite ?Hrev.
    { econstructor; eauto. } { intros x Hx. eapply alike_trans; [exact Ha|]. apply (u_carry _ _ _ _ _ Hu); [now left|exact Hx]. }
    rewrite Hrev in S2. exists w2. do 2 eexists. split; [exact S2|]. split; [exact G2|].
    split; [apply step_outs_axs; now apply Forall2_len in Hleft|]. split; [apply step_outs_ys; now apply Forall2_len in Hleft|].
    constructor; [split; reflexivity|apply Hstep].
  - apply good_trace in G1. set (wp := set_trace w1 (w_trace wb)) in *.
    assert (Wp : wf_world wp) by apply G1. assert (Np : w_nodes wp = w_nodes w) by (rewrite (ga_nt _ _ G1); exact Hn).
    destruct (scan_step b cs c ctx raw axs xs c1 ys s axs1 b cs1 fin (set_trace wp t)) as (w2 & S2 & G2 & _); auto.
    { now apply set_trace_wf. } { apply plain_list_app. auto. }
    apply good_trace in G2. set (wq := set_trace w2 (w_trace wp)) in *.
    set (new := state_sub cs1 cs) in *. set (old := state_sub cs1 new).
    assert (Wnew : wf_state new) by now apply state_sub_wf. assert (Wold : wf_state old) by now apply state_sub_wf.
    assert (Hold : forall k, dget k old = if dmem k cs then dget k cs1 else None).
    { intros k. unfold old. rewrite dget_sub. unfold dmem, new. rewrite dget_sub. unfold dmem. destruct (dget k cs) eqn:D1; [|destruct (dget k cs1); reflexivity]. reflexivity. }
    assert (Aold : alike cs old).
    { apply alike_of; auto.
      - intros k Hi. apply dget_Some_keys in Hi as [x Hx]. rewrite Hold in Hx. unfold dmem in Hx. destruct (dget k cs) eqn:D; [eapply dget_In_keys; eauto|discriminate].
      - intros k x D. rewrite Hold. unfold dmem. rewrite D. apply Hk. exact D. }
    assert (M1 : state_merge old [new] = cs1).
    { apply merge_agree; auto.
      - intros u k v [<-|[<-|[]]] D.
        + rewrite Hold in D. destruct (dmem k cs); [exact D|discriminate].
        + unfold new in D. rewrite dget_sub in D. destruct (dmem k cs); [discriminate|exact D].
      - intros k v D. destruct (dmem k cs) eqn:Em.
        + exists old. split; [now left|]. rewrite Hold, Em. exact D.
        + exists new. split; [right; now left|]. unfold new. rewrite dget_sub, Em. exact D. }
    assert (M2 : state_merge b [[]] = b).
    { apply merge_agree; auto.
      - constructor; [exact Hwfb|constructor; [|constructor]]. constructor.
      - intros u k v [<-|[<-|[]]] D; [exact D|discriminate].
      - intros k v D. exists b. split; [now left|exact D]. }
    destruct (steps_loop b cs1 c1 rest outs css c2 Hl raws' fins' (set_trace wq t)) as (w3 & S3 & G3); auto.
    { intros x Hx. apply (u_carry _ _ _ _ _ Hu); [now left|now right]. }
    { apply set_trace_wf. apply G2. } { change (w_nodes wq = w_nodes w). rewrite (ga_nt _ _ G2). exact Np. }
    apply good_trace in G3. exists (set_trace w3 (w_trace wq)), ((fin, [], new, ys) :: step_outs fins' outs), (step_outs fins' outs).
    apply Forall2_len in Hleft'.
    split; [|split; [|split; [cbn [map]; f_equal; apply step_outs_axs; exact Hleft'|split; [cbn [map]; f_equal; apply step_outs_ys; exact Hleft'|apply Hstep]]]].
    2:{ eapply good_trans; [|exact G3]. eapply good_trans; eauto. }
    unfold scan_run. rewrite S1. cbn [out_cs_new fst snd]. unfold out_cs_new, out_b_new. cbn [fst snd].
    unfold lax_scan. rewrite Hrev. fold wp. cbn [scan_steps]. rewrite S2. fold new. fold old. cbn [fst snd].
    rewrite alike_same_struct; [|inversion Hbc as [|? ? _ B2]; now inversion B2|exact Aold].
    fold wq. rewrite sub_self. cbn [fst snd]. rewrite M1, M2. rewrite S3, last_cons. reflexivity.
Qed.
End Steps.

(** ** Slicing *)
Lemma with_value_kind a x a' : same_kind a a' -> val_of a' = x -> with_value a x = a'.
Proof. destruct a as [|c], a' as [|c']; cbn; try tauto; [now intros _ <-|]. intros [-> ->] <-. now destruct c'. Qed.

Lemma slice_state_ok J ax n i big : NoDup (keys big) -> forall small, is_slice J ax n i big small -> i < n ->
  exists sl, slice_state J ax big = Ok sl /\ small = slice_at i sl /\ Forall (fun x => List.length (snd (snd x)) = n) sl /\
    List.length sl = List.length big.
Proof.
  intros HN small [Ha Hs] Hi. unfold slice_state.
  assert (Hs' : forall k a a', In (k, a) big -> In (k, a') small -> exists l, a_slices J ax (val_of a) = Ok l /\ List.length l = n /\ nth i l PyNone = val_of a').
  { intros k a a' H1 H2. apply In_dget in H1; [|exact HN]. apply In_dget in H2; [|rewrite <- (alike_keys _ _ Ha); exact HN].
    destruct (Hs k (val_of a)) as (l & x & E1 & E2 & E3 & b & E4 & E5). { exists a. split; [exact H1|]. destruct a; reflexivity. }
    exists l. split; [exact E1|]. split; [exact E2|]. rewrite (nth_error_nth _ _ _ E3), E5. assert (b = a') by congruence. subst b. destruct a'; reflexivity. }
  clear Hs HN. revert Hs'. induction Ha as [|[k a] [k' a'] big small [H1 H2] Ha IH]; intros Hs.
  - exists []. cbn. repeat split; constructor.
  - cbn in H1, H2. subst k'. destruct (Hs k a a' (or_introl eq_refl) (or_introl eq_refl)) as (l & E1 & E2 & E3).
    destruct IH as (sl & F1 & F2 & F3 & F4). { intros k0 b b' Q1 Q2. apply (Hs k0 b b'); now right. }
    exists ((k, (a, l)) :: sl). cbn [rmapM fst snd]. rewrite E1. cbn [rbind]. rewrite F1. cbn [rbind slice_at map fst snd].
    split; [reflexivity|]. split; [|split; [constructor; [exact E2|exact F3]|cbn; congruence]].
    f_equal; [|exact F2]. f_equal. symmetry. now apply with_value_kind.
Qed.

Lemma is_slice_len J ax n i big small sl : is_slice J ax n i big small -> slice_state J ax big = Ok sl -> i < n -> NoDup (keys big) -> small = slice_at i sl.
Proof.
  intros H1 H2 H3 H4. destruct (slice_state_ok J ax n i big H4 small H1 H3) as (sl' & E & -> & _). congruence.
Qed.

Definition slice_rel (J : arrays) (n i : nat) (sa : state * (filt * Z)) (small : state) : Prop := is_slice J (snd (snd sa)) n i (fst sa) small.

Lemma slice_states_ok J n i axes : forall axs raw, Forall wf_state axs -> List.length axs = List.length axes -> i < n ->
  Forall2 (slice_rel J n i) (combine axs axes) raw ->
  exists sl, slice_states J axes axs = Ok sl /\ raw = map (slice_at i) sl /\ Forall (Forall (fun x => List.length (snd (snd x)) = n)) sl /\
    Forall2 (fun s x => List.length x = List.length s) axs sl.
Proof.
  induction axes as [|[g ax] axes IH]; intros [|s axs] raw Hw Hl Hi H; try discriminate.
  - inversion H; subst. exists []. cbn. repeat split; constructor.
  - cbn in H. inversion H as [|? small ? raw' H1 H2]; subst. inversion Hw as [|? ? W1 W2]; subst. cbn in Hl. injection Hl as Hl.
    destruct (slice_state_ok J ax n i s (wf_NoDup _ W1) small H1 Hi) as (x & E1 & -> & E3 & E4).
    destruct (IH axs raw' W2 Hl Hi H2) as (xs & F1 & -> & F3 & F4).
    exists (x :: xs). cbn. rewrite E1. cbn. rewrite F1. cbn. split; [reflexivity|]. split; [reflexivity|]. split; constructor; auto.
Qed.

Lemma leaf_slices_ok J ax n i xs args : leaf_slices J ax n i xs args ->
  exists l, rmapM (a_slices J ax) xs = Ok l /\ args = map (fun l => nth i l PyNone) l /\ Forall (fun l => List.length l = n) l /\ List.length l = List.length xs.
Proof.
  induction 1 as [|v x xs args (l & E1 & E2 & E3) H (ls & F1 & -> & F3 & F4)].
  - exists []. cbn. auto.
  - exists (l :: ls). cbn. rewrite E1. cbn. rewrite F1. cbn. split; [reflexivity|]. split; [|split; [constructor; auto|congruence]].
    f_equal. symmetry. now apply nth_error_nth.
Qed.

Lemma nodup_const n l : l <> [] -> Forall (fun x => x = n) l -> nodup Nat.eq_dec l = [n].
Proof.
  induction l as [|x l IH]; [congruence|]. intros _ H. inversion H as [|? ? H1 H2]; subst. destruct l as [|y l]; [reflexivity|].
  specialize (IH ltac:(discriminate) H2). inversion H2 as [|? ? H3 _]; subst. change (nodup Nat.eq_dec (n :: n :: l)) with
    (if in_dec Nat.eq_dec n (n :: l) then nodup Nat.eq_dec (n :: l) else n :: nodup Nat.eq_dec (n :: l)).
  destruct (in_dec Nat.eq_dec n (n :: l)) as [_|F]; [exact IH|]. exfalso. apply F. now left.
Qed.

Lemma infer_ok given n lens : Forall (fun x => x = n) lens -> (given = None -> lens <> []) -> (forall m, given = Some m -> m = n) ->
  infer_length given lens = Ok n.
Proof.
  intros H1 H2 H3. unfold infer_length. destruct lens as [|x lens].
  - cbn. destruct given as [m|]; [now rewrite (H3 m eq_refl)|]. now specialize (H2 eq_refl).
  - rewrite (nodup_const n) by (auto; discriminate). destruct given as [m|]; [|reflexivity]. now rewrite (H3 m eq_refl), Nat.eqb_refl.
Qed.

(** the inputs of the steps *)
Definition cut_ok {X} (o : scan_opts) (axs : list state) (cut : result (list nat * (nat -> X))) (layers : list (step_of X)) : Prop :=
  exists lens at_step, cut = Ok (lens, at_step) /\ Forall (fun x => x = List.length layers) lens /\
    (forall i l, nth_error layers i = Some l -> snd l = at_step i) /\
    (o_length o = None -> lens <> [] \/ exists s, In s axs /\ s <> []).
Definition states_ok {X} (J : arrays) (o : scan_opts) (axs : list state) (pc : option (pctx * (string -> bool))) (layers : list (step_of X)) : Prop :=
  forall i l, nth_error layers i = Some l -> layer_state J o axs pc (List.length layers) i l.
Lemma scan_input_ok {X} J o axs cut pc (layers : list (step_of X)) : Forall wf_state axs -> List.length axs = List.length (o_axes o) ->
  layers <> [] -> states_ok J o axs pc layers -> cut_ok o axs cut layers -> (forall m, o_length o = Some m -> m = List.length layers) ->
  exists sl lens at_step, slice_states J (o_axes o) axs = Ok sl /\ cut = Ok (lens, at_step) /\
    infer_length (o_length o) (leaf_lengths sl lens) = Ok (List.length layers) /\
    Forall2 (entered o) (scan_input (List.length layers) pc sl at_step) layers.
Proof.
  intros Hw Hl Hne Hok (lens & at_step & X1 & X3 & X4 & Hn1) Hn2. assert (H0 : 0 < List.length layers) by (destruct layers; [congruence|cbn; lia]).
  destruct (nth_error layers 0) as [l0|] eqn:E0; [|apply nth_error_None in E0; lia].
  destruct (Hok 0 l0 E0) as (_ & raw0 & R1 & _).
  destruct (slice_states_ok J _ 0 (o_axes o) axs raw0 Hw Hl H0 R1) as (sl & S1 & _ & S3 & S4).
  exists sl, lens, at_step. split; [exact S1|]. split; [exact X1|]. split.
  - apply infer_ok; [| |exact Hn2].
    + unfold leaf_lengths. apply Forall_app. split; [|exact X3].
      apply Forall_forall. intros n Hi. apply in_flat_map in Hi as (x & Hx & Hi). apply in_map_iff in Hi as (e & <- & He).
      rewrite Forall_forall in S3. specialize (S3 x Hx). rewrite Forall_forall in S3. now apply S3.
    + intros Hnone. destruct (Hn1 Hnone) as [Hx|(s & Hs & Hs2)]; unfold leaf_lengths; intros Hnil; apply app_eq_nil in Hnil as [N1 N2]; [contradiction|].
      clear - S4 Hs Hs2 N1. induction S4 as [|s' x axs sl H S4 IH]; [contradiction|]. cbn in N1. apply app_eq_nil in N1 as [N1 N3].
      destruct Hs as [->|Hs]; [|auto]. destruct x; [|discriminate]. destruct s; [congruence|discriminate].
  - unfold scan_input. remember (List.length layers) as n eqn:En.
    assert (G : forall j m, j + m = n -> Forall2 (entered o)
      (map (fun i => (option_map (fun pp => step_keys (snd pp) n (fst pp) i) pc, map (slice_at i) sl, at_step i)) (seq j m)) (skipn j layers)).
    { intros j m. revert j. induction m as [|m IH]; intros j Hj; cbn [seq map].
      - rewrite skipn_all2 by lia. constructor.
      - destruct (nth_error layers j) as [l|] eqn:El; [|apply nth_error_None in El; lia].
        assert (Hsk : skipn j layers = l :: skipn (S j) layers). { clear - El. revert j El. induction layers as [|x ls IH]; intros [|j] El; try discriminate; cbn in *; [now injection El as ->|]. apply IH. exact El. }
        rewrite Hsk. constructor; [|apply IH; lia]. destruct (Hok j l El) as (K1 & raw & K2 & K3).
        assert (Hj' : j < List.length layers) by (apply nth_error_Some; congruence).
        destruct (slice_states_ok J _ j (o_axes o) axs raw Hw Hl Hj' K2) as (sl' & T1 & -> & _).
        assert (sl' = sl) by congruence. subst sl'.
        rewrite <- En in K1. split; [cbn; symmetry; exact K1|]. split; [exact K3|]. cbn. symmetry. now apply X4. }
    apply (G 0 n). reflexivity.
Qed.

Lemma nth_In_default {A} (l : list A) i d : i < List.length l -> In (nth i l d) l.
Proof. apply nth_In. Qed.

Lemma layers_plain {X} J o axs pc (layers : list (step_of X)) : arrays_ok J -> plain_list axs -> Forall wf_state axs -> List.length axs = List.length (o_axes o) ->
  states_ok J o axs pc layers -> Forall (fun l => plain_list (snd (fst l))) layers.
Proof.
  intros HJ Hp Hw Hl Hok. apply Forall_forall. intros l Hi. apply In_nth_error in Hi as [i Hi].
  destruct (Hok i l Hi) as (_ & raw & K2 & K3). eapply enter_plain; [|exact K3].
  assert (Hlt : i < List.length layers) by (apply nth_error_Some; intros Q; pose proof (eq_trans (eq_sym Hi) Q) as Z; discriminate Z). clear K3 Hi Hok.
  revert raw axs Hp Hw Hl K2. generalize (o_axes o). intros axes. induction axes as [|[g ax] axes IH]; intros raw [|s axs] Hp Hw Hl K2; try discriminate; cbn in K2; inversion K2 as [|? small ? raw' K3 K4]; subst; constructor.
  - inversion Hp as [|? ? P1 _]; subst. inversion Hw as [|? ? W1 _]; subst. cbn in K3.
    pose proof K3 as [Ha Hs]. apply Forall_forall. intros [k a'] Hin. cbn.
    assert (D : dget k small = Some a') by (apply In_dget; [rewrite <- (alike_keys _ _ Ha); now apply wf_NoDup|exact Hin]).
    destruct (alike_get _ _ k a' (alike_sym _ _ Ha) D) as (a & Da & Hk).
    destruct (Hs k (val_of a)) as (ls & x & E1 & E2 & E3 & a'' & E4 & E5). { exists a. split; [exact Da|destruct a; reflexivity]. }
    assert (a'' = a') by congruence. subst a''. pose proof (ao_slices J HJ _ _ _ _ E1 (nth_error_In _ _ E3)) as Hm.
    apply dget_In in Da. rewrite Forall_forall in P1. destruct (P1 _ Da) as [Q1 Q2].
    destruct a as [v|c], a' as [v'|c']; try contradiction.
    + subst x. destruct v'; try contradiction; split; try exact Logic.I; reflexivity.
    + split; [|reflexivity]. cbn in Q1 |- *. destruct Hk as [H1 H2]. destruct c as [c1 c2 c3], c' as [d1 d2 d3]. cbn in *. subst. exact Q1.
  - apply (IH raw' axs); auto; [now inversion Hp|now inversion Hw].
Qed.

(** ** Stacking *)
Lemma with_value_same_kind a v : same_kind a (with_value a v).
Proof. destruct a; cbn; auto. Qed.

Lemma stack_states_ok J ax l : l <> [] -> Forall plain_st l -> (forall x y, In x l -> In y l -> alike x y) -> Forall (fun s : state => NoDup (keys s)) l ->
  exists st, stack_states J ax l = Ok st /\ is_stack J ax l st /\ st = map (fun ka => (fst ka, with_value (snd ka) (a_stack J ax (map (value_at (fst ka)) l)))) (hd [] l).
Proof.
  intros Hne Hp Hal HN. destruct l as [|s rest]; [congruence|]. cbn [stack_states hd].
  assert (E : forallb (same_struct s) rest = true).
  { apply forallb_forall. intros x Hx. apply alike_same_struct; [now inversion Hp|]. apply Hal; [now left|now right]. }
  rewrite E. eexists. split; [reflexivity|]. split; [|reflexivity]. set (g := fun ka : string * attr => (fst ka, with_value (snd ka) (a_stack J ax (map (value_at (fst ka)) (s :: rest))))).
  assert (A1 : alike s (map g s)).
  { clear. generalize (fun k => a_stack J ax (map (value_at k) (s :: rest))) as h. unfold g. clear g. generalize (s :: rest) as ll. intros ll h.
    induction s as [|[k a] s IH]; constructor; [split; [reflexivity|apply with_value_same_kind]|exact IH]. }
  split.
  - intros x Hx. eapply alike_trans; [|exact A1]. apply Hal; [exact Hx|now left].
  - intros k v (a & D & Ev). exists (map (value_at k) (s :: rest)).
    assert (Ds : exists a0, dget k s = Some a0 /\ a = with_value a0 (a_stack J ax (map (value_at k) (s :: rest)))).
    { revert D. unfold g. generalize (s :: rest) as ll. intros ll. clear. induction s as [|[k0 a0] s IH]; cbn; [discriminate|].
      destruct (String.eqb_spec k k0) as [->|]; [intros [= <-]; eauto|exact IH]. }
    destruct Ds as (a0 & Ds & ->). split.
    + assert (F : forall x, In x (s :: rest) -> array_at k x (value_at k x)).
      { intros x Hx. destruct (alike_get s x k a0) as (b & Db & _); [apply Hal; [now left|exact Hx]|exact Ds|].
        exists b. split; [exact Db|]. unfold value_at. rewrite Db. destruct b; reflexivity. }
      revert F. generalize (s :: rest) as ll. clear. induction ll as [|x ll IH]; intros F; cbn; constructor; [apply F; now left|apply IH; intros y Hy; apply F; now right].
    + rewrite Ev. destruct a0; reflexivity.
Qed.

Definition col (i : nat) (fins : list (list state)) : list state := map (fun x => nth i x []) fins.

Lemma stack_axes_ok J fins : fins <> [] -> forall axes i, (forall x, In x fins -> List.length x = i + List.length axes) -> Forall plain_list fins -> Forall (Forall (fun s : state => NoDup (keys s))) fins ->
  (forall x y, In x fins -> In y fins -> Forall2 alike x y) ->
  exists sts, stack_axes J axes i fins = Ok sts /\ List.length sts = List.length axes /\
    (forall j fx st, nth_error axes j = Some fx -> nth_error sts j = Some st -> is_stack J (snd fx) (col (i + j) fins) st).
Proof.
  intros Hne axes. induction axes as [|[g ax] axes IH]; intros i Hlen Hp HN Hal.
  - exists []. cbn. split; [reflexivity|]. split; [reflexivity|]. intros [|j] fx st H; discriminate.
  - destruct (IH (S i)) as (sts & E1 & E2 & E3); auto. { intros x Hx. rewrite (Hlen x Hx). cbn. lia. }
    assert (Hcol : forall s, In s (col i fins) -> exists x, In x fins /\ nth_error x i = Some s).
    { intros s Hs. apply in_map_iff in Hs as (x & <- & Hx). exists x. split; [exact Hx|]. apply nth_error_nth'. rewrite (Hlen x Hx). cbn. lia. }
    destruct (stack_states_ok J ax (col i fins)) as (st & F1 & F2 & _).
    { destruct fins; [congruence|discriminate]. }
    { apply Forall_forall. intros s Hs. destruct (Hcol s Hs) as (x & Hx & Hi). rewrite Forall_forall in Hp. specialize (Hp x Hx). unfold plain_list in Hp. rewrite Forall_forall in Hp. apply Hp. eapply nth_error_In; eauto. }
    { intros s s' Hs Hs'. destruct (Hcol s Hs) as (x & Hx & Hi). destruct (Hcol s' Hs') as (y & Hy & Hj).
      destruct (Forall2_nth _ _ _ _ _ (Hal x y Hx Hy) Hi) as (z & Hz & Q). congruence. }
    { apply Forall_forall. intros s Hs. destruct (Hcol s Hs) as (x & Hx & Hi). rewrite Forall_forall in HN. specialize (HN x Hx). rewrite Forall_forall in HN. apply HN. eapply nth_error_In; eauto. }
    exists (st :: sts). cbn [stack_axes]. unfold col in F1. rewrite F1. cbn [rbind]. rewrite E1. cbn [rbind]. split; [reflexivity|]. split; [cbn; congruence|].
    intros [|j] fx st' H1 H2; cbn in H1, H2.
    + injection H1 as <-. injection H2 as <-. replace (i + 0) with i by lia. exact F2.
    + replace (i + S j) with (S i + j) by lia. eapply E3; eauto.
Qed.

Lemma stack_leaves_ok J ax (l : list (list pyval)) : l <> [] -> (forall x y, In x l -> In y l -> List.length x = List.length y) ->
  exists ys, stack_leaves J ax l = Ok ys /\ leaf_stack J ax l ys /\ (forall x, In x l -> List.length x = List.length ys).
Proof.
  intros Hne Hl. destruct l as [|x rest]; [congruence|]. unfold stack_leaves.
  assert (E : forallb (fun y => Nat.eqb (List.length y) (List.length x)) rest = true).
  { apply forallb_forall. intros y Hy. apply Nat.eqb_eq. apply Hl; [now right|now left]. }
  rewrite E. eexists. split; [reflexivity|]. split.
  - intros i v Hi. assert (Hlt : i < List.length x).
    { assert (nth_error (map (fun i => a_stack J ax (map (fun y => nth i y PyNone) (x :: rest))) (seq 0 (List.length x))) i <> None) as Q by congruence.
      apply nth_error_Some in Q. now rewrite map_length, seq_length in Q. }
    rewrite nth_error_map_seq in Hi by exact Hlt. injection Hi as <-. exists (map (fun y => nth i y PyNone) (x :: rest)). split; [|reflexivity].
    assert (F : forall y, In y (x :: rest) -> nth_error y i = Some (nth i y PyNone)).
    { intros y Hy. apply nth_error_nth'. rewrite (Hl y x Hy (or_introl eq_refl)). exact Hlt. }
    revert F. generalize (x :: rest) as ll. clear. induction ll as [|y ll IH]; intros F; cbn; constructor; [apply F; now left|apply IH; intros z Hz; apply F; now right].
  - intros y Hy. rewrite map_length, seq_length. apply Hl; [exact Hy|now left].
Qed.

Lemma stack_empty {Y} J (l : list (outcome Y)) (h : outcome Y -> state) : Forall (fun y => h y = []) l -> stack_or_empty J (map h l) = Ok [].
Proof.
  intros H. destruct l as [|y l]; [reflexivity|]. inversion H as [|? ? H1 H2]; subst. cbn. rewrite H1.
  assert (E : forallb (same_struct []) (map h l) = true).
  { apply forallb_forall. intros x Hx. apply in_map_iff in Hx as (z & <- & Hz). rewrite Forall_forall in H2. now rewrite (H2 z Hz). }
  rewrite E. reflexivity.
Qed.

(** ** scan *)
Lemma state_map_keys g s : forall t, state_map g s = Ok t -> keys t = keys s.
Proof.
  induction s as [|[k a] s IH]; intros t H; cbn in H; [injection H as <-; reflexivity|].
  destruct (g a); [|discriminate]. cbn in H. destruct (state_map g s); [|discriminate]. cbn in H. injection H as <-.
  unfold keys in *. cbn. f_equal. now apply IH.
Qed.
Lemma leave_keys o l l' : List.length l = List.length (o_axes o) -> leave_axes o l = Ok l' -> Forall2 (fun a b => keys b = keys a) l l'.
Proof.
  unfold leave_axes. destruct (o_partition o) as [n|]; [|intros _ [= <-]; induction l; constructor; auto].
  revert l l'. induction (o_axes o) as [|[g ax] axes IH]; intros [|s l] l' Hl H; try discriminate; cbn in H; [injection H as <-; constructor|].
  destruct (state_map (add_axis1 ax n) s) as [x|] eqn:E; [|discriminate]. cbn in H. destruct (on_axes _ axes l) as [xs|] eqn:E2; [|discriminate].
  cbn in H. injection H as <-. constructor; [eapply state_map_keys; exact E|]. apply IH; [now injection Hl|exact E2].
Qed.

Lemma get_state_nodes w r s k a : wf_world w -> get_state w r = Ok s -> dget k s = Some a -> node_value w a.
Proof.
  intros Hw H D. destruct (get_obj w r) as [o|] eqn:Ho.
  - assert (Hr : valid w r) by (eapply get_obj_lt; eauto). destruct (graph_exists w r Hw Hr) as (d' & L & G).
    destruct (iter_state_graph w r d' L Hw Hr G) as (E & (E1 & E2 & E3) & E4 & E5). unfold get_state in H. rewrite E5 in H. cbn in H. injection H as <-.
    apply dget_In in D. unfold mk_state, dict_of in D. apply In_dupdate in D as [[]|D]. apply (Permutation_in _ (sort_perm _)) in D.
    apply in_map_iff in D as (i & Ei & Hi). injection Ei as _ <-. destruct (E1 i Hi) as (_ & o' & Ho' & Hd & Hs & Hn). exact Hn.
  - unfold get_state, iter_state, dfs_fuel in H. cbn in H. rewrite Ho in H. discriminate.
Qed.
Lemma unchanged_state w w' r : wf_world w -> wf_world w' -> valid w r -> all_unchanged w w' -> w_nodes w' = w_nodes w ->
  get_state w' r = get_state w r /\ get_module_def w' r = get_module_def w r.
Proof.
  intros Hw Hw' Hr Hu Hn.
  assert (B : bisim w w' (fun x y => x = y /\ valid w x)).
  { constructor.
    - intros x y [-> Hx]. destruct (get_obj_ex _ _ Hx) as [o Ho]. exists o, o. split; [exact Ho|]. split; [now apply Hu|].
      split; [reflexivity|]. split; [reflexivity|]. intros n. destruct (dget n (m_vars o)) as [a|] eqn:E; [|exact Logic.I].
      destruct (is_submodule a) eqn:Es; [|now apply orel_refl_val]. apply is_sub_inv in Es as [c ->]. cbn.
      split; [reflexivity|]. exact (wfo_refs _ _ (wf_objs _ Hw _ _ Ho) _ _ E).
    - intros x y y' [-> _] [-> _]. reflexivity.
    - intros x x' y [-> _] [-> _]. reflexivity. }
  split; symmetry; [eapply bisim_get_state|eapply bisim_module_def]; eauto; cbn; auto.
Qed.
Lemma latest_In k us a : latest k us = Some a -> exists u, In u us /\ dget k u = Some a.
Proof.
  induction us as [|u us IH]; cbn; [discriminate|]. destruct (latest k us); [intros H; destruct (IH H) as (v & H1 & H2); eauto|eauto].
Qed.
Lemma latest_only k us u a : In u us -> dget k u = Some a -> (forall v, In v us -> In k (keys v) -> v = u) -> latest k us = Some a.
Proof.
  induction us as [|v us IH]; intros Hi D Ho; [contradiction|]. cbn. destruct (latest k us) as [b|] eqn:E.
  - apply latest_In in E as (x & Hx & Dx). assert (x = u) by (apply Ho; [now right|eapply dget_In_keys; eauto]). subst x. congruence.
  - destruct Hi as [->|Hi]; [exact D|]. assert (Q : None = Some a) by (apply IH; auto; intros x Hx; apply Ho; now right). discriminate.
Qed.
Lemma latest_none k us : (forall v, In v us -> ~ In k (keys v)) -> latest k us = None.
Proof.
  intros H. destruct (latest k us) as [a|] eqn:E; [|reflexivity]. apply latest_In in E as (u & Hu & D). exfalso. apply (H u Hu). eapply dget_In_keys; eauto.
Qed.

Section Scan.
Context {X Y Z : Type} (J : arrays) (o : scan_opts) (f : option pctx -> pyval -> X -> prog (pyval * Y)).
Context (HJ : arrays_ok J) (Hf : forall pc c xs, ok_prog (f pc c xs)).
Context (w : world) (r : nat) (d : mdef) (s : state) (axs : list state) (b cs : state).
Context (Hw : wf_world w) (Hr : valid w r) (Hd : get_module_def w r = Ok d) (Hs : get_state w r = Ok s).
Context (Hpart : partition_state s (o_filters o) = Ok (Many (axs ++ [b; cs]))).

Lemma scan_graph : exists L, graph w r d L.
Proof. destruct (graph_exists w r Hw Hr) as (d' & L & G). exists L. pose proof (get_module_def_graph _ _ _ _ Hw Hr G). congruence. Qed.

Lemma scan_wf_s : wf_state s.
Proof. destruct (get_state_total w r Hw Hr) as (s' & E & W). congruence. Qed.

Lemma filters_len : List.length (o_filters o) = List.length (o_axes o) + 2.
Proof. unfold o_filters. rewrite app_length, map_length. reflexivity. Qed.

Lemma scan_parts : Forall wf_state axs /\ wf_state b /\ wf_state cs /\ plain_list axs /\ plain_list [b; cs] /\ List.length axs = List.length (o_axes o).
Proof.
  destruct (partition_parts s _ _ scan_wf_s (state_plain _ _ _ Hw Hs) Hpart) as (W & P & N & _).
  apply Forall_app in W as [W1 W2]. apply plain_list_app in P as [P1 P2]. inversion W2 as [|? ? W3 W4]; subst. inversion W4; subst.
  rewrite filters_len, app_length in N. cbn in N. repeat (split; [assumption|]). lia.
Qed.

Lemma loop_parts cs0 c layers outs css c' : loop w d (o_filters o) f b cs0 c layers outs css c' -> plain_list [b; cs0] ->
  Forall (fun l => plain_list (snd (fst l))) layers ->
  Forall (fun x => plain_list (fst x) /\ Forall wf_state (fst x) /\ List.length (fst x) = List.length (o_axes o)) outs /\
  Forall (fun x => plain_st x /\ wf_state x) css.
Proof.
  intros Hl. destruct scan_graph as [L Hg]. induction Hl as [cs0 c|cs0 c ctx axs0 xs c1 ys s1 axs1 cs1 rest outs css c2 Hc Hp Hl IH]; intros Hb Hpl; [auto|].
  inversion Hpl as [|? ? P1 P2]; subst. cbn in P1.
  destruct (call_transfer (f ctx c xs) w r d L w w (axs0 ++ [b; cs0]) (c1, ys) s1) as (m & w1 & w2 & _ & _ & G & W2 & V2 & _); auto.
  { apply plain_list_app. auto. }
  assert (Ws : wf_state s1). { destruct (get_state_total w2 m W2 V2) as (s' & E & W). congruence. }
  destruct (partition_parts s1 _ _ Ws (state_plain _ _ _ W2 G) Hp) as (W & P & N & _).
  apply Forall_app in W as [W3 W4]. apply plain_list_app in P as [P3 P4]. rewrite filters_len, app_length in N. cbn in N.
  destruct IH as [I1 I2]; auto.
  split; constructor; auto.
  - cbn. repeat (split; [assumption|]). lia.
  - inversion P4 as [|? ? _ P5]; subst. inversion P5; subst. inversion W4 as [|? ? _ W5]; subst. inversion W5; subst. auto.
Qed.

Lemma scan_tail t c cut (join : list Y -> result Z) ctx pc ss ss' layers w3 cs' c' all nlast fins yss :
  layers <> [] -> scan_ctx (w_trace w) (o_split o) ctx ss = (Ok pc, ss') -> states_ok J o axs pc layers -> cut_ok o axs cut layers ->
  (forall m, o_length o = Some m -> m = List.length layers) ->
  (forall sl lens at_step, slice_states J (o_axes o) axs = Ok sl -> cut = Ok (lens, at_step) ->
     scan_run o t (uf f) d b w cs c (scan_input (List.length layers) pc sl at_step) = (w3, Ok ((cs', c'), all, nlast))) ->
  map out_axs all = fins -> map out_ys all = yss -> Forall (fun y => out_b_new y = [] /\ out_cs_new y = []) nlast ->
  fins <> [] -> (forall x, In x fins -> List.length x = List.length (o_axes o)) -> Forall plain_list fins ->
  Forall (Forall (fun s : state => NoDup (keys s))) fins -> (forall x y, In x fins -> In y fins -> Forall2 alike x y) ->
  exists axsF, List.length axsF = List.length (o_axes o) /\
    (forall i fx st, nth_error (o_axes o) i = Some fx -> nth_error axsF i = Some st -> is_stack J (snd fx) (col i fins) st) /\
    scan_core J o t (uf f) w r c cut join ctx ss =
      match join yss with
      | Err e => (w3, ss', Err e)
      | Ok ysF => let (w4, res) := update_state w3 r (UStates (Many (axsF ++ [cs'; []; []]))) in (w4, ss', rmap (fun _ => (c', ysF)) res)
      end.
Proof.
  intros Hne Hctx Hok Hcut Hn2 Hrun Ha Hy Hlast F1 F3 F4 F5 F6. destruct scan_parts as (P1 & P2 & P3 & P4 & P5 & P6).
  destruct (scan_input_ok J o axs cut pc layers P1 P6 Hne Hok Hcut Hn2) as (sl & lens & at_step & S1 & S2 & S3 & S4).
  destruct (stack_axes_ok J fins F1 (o_axes o) 0) as (axsF & A1 & A2 & A3); auto.
  exists axsF. split; [exact A2|]. split; [exact A3|].
  unfold scan_core, module_partition. rewrite Hd, Hs. cbn [rbind]. rewrite Hpart. cbn [rbind p_states p_def sts_list]. rewrite split3_app.
  rewrite S1. cbn [rbind]. rewrite S2. cbn [rbind fst snd]. rewrite S3. cbn [rbind]. rewrite Hctx. rewrite (Hrun _ _ _ S1 S2), Ha, Hy, A1. cbn [rbind].
  rewrite !stack_empty; try (eapply Forall_impl; [|exact Hlast]; intros y [? ?]; assumption). cbn [rbind]. destruct (join yss) as [ysF|e]; cbn [rbind]; [|reflexivity].
  destruct (update_state w3 r (UStates (Many (axsF ++ [cs'; []; []])))) as [w4 [[]|e]]; reflexivity.
Qed.

Lemma outs_facts (outs : list (layer_out_of Y)) fins : Forall (fun x => plain_list (fst x) /\ Forall wf_state (fst x) /\ List.length (fst x) = List.length (o_axes o)) outs ->
  Forall2 (left o) outs fins ->
  (forall x, In x fins -> List.length x = List.length (o_axes o)) /\ Forall plain_list fins /\ Forall (Forall (fun s : state => NoDup (keys s))) fins.
Proof.
  intros H1 H2. induction H2 as [|x fin outs fins Hx H2 IH]; [repeat split; try constructor; intros ? []|].
  inversion H1 as [|? ? (Q1 & Q2 & Q3) H1']; subst. destruct (IH H1') as (I1 & I2 & I3). unfold left in Hx. split; [|split].
  - intros y [<-|Hy]; [eapply leave_length; eauto|auto].
  - constructor; [eapply leave_plain; eauto|exact I2].
  - constructor; [|exact I3]. pose proof (leave_keys o _ _ Q3 Hx) as K. clear - K Q2. induction K as [|a b l l' K1 K IH]; constructor.
    + rewrite K1. apply wf_NoDup. now inversion Q2.
    + apply IH. now inversion Q2.
Qed.

(** what the theorem says about the result, for the layers in the order of the module *)
Definition scan_result t c cut (join : list Y -> result Z) ctx ss ss' (fins : list (list state)) (jr : result Z) (cs' : state) (c' : pyval) : Prop :=
  exists w3 axsF, good_after w w3 /\ List.length axsF = List.length (o_axes o) /\
    (forall i fx st, nth_error (o_axes o) i = Some fx -> nth_error axsF i = Some st -> is_stack J (snd fx) (col i fins) st) /\
    scan_core J o t (uf f) w r c cut join ctx ss =
      match jr with
      | Err e => (w3, ss', Err e)
      | Ok ysF => let (w4, res) := update_state w3 r (UStates (Many (axsF ++ [cs'; []; []]))) in (w4, ss', rmap (fun _ => (c', ysF)) res)
      end.

Theorem scan_forward (same : Y -> Y -> Prop) t c cut join ctx pc ss ss' layers outs css c' fins :
  o_reverse o = false -> layers <> [] -> scan_ctx (w_trace w) (o_split o) ctx ss = (Ok pc, ss') -> states_ok J o axs pc layers -> cut_ok o axs cut layers ->
  (forall m, o_length o = Some m -> m = List.length layers) ->
  loop w d (o_filters o) f b cs c layers outs css c' -> Forall2 (left o) outs fins -> uniform same cs outs fins css ->
  scan_result t c cut join ctx ss ss' fins (join (map snd outs)) (last css cs) c'.
Proof.
  intros Hrev Hne Hctx Hok Hcut Hn2 Hl Hleft Hu. destruct scan_parts as (P1 & P2 & P3 & P4 & P5 & P6). destruct scan_graph as [L Hg].
  pose proof (layers_plain J o axs pc layers HJ P4 P1 P6 Hok) as Hpl.
  destruct (loop_parts _ _ _ _ _ _ Hl P5 Hpl) as [O1 O2]. destruct (outs_facts outs fins O1 Hleft) as (O3 & O4 & O5).
  assert (Hno : outs <> []). { destruct Hl; [congruence|discriminate]. }
  assert (Hnf : fins <> []). { destruct Hleft; [congruence|discriminate]. }
  destruct (scan_input_ok J o axs cut pc layers P1 P6 Hne Hok Hcut Hn2) as (sl & lens & at_step & S1 & S2 & S3 & S4).
  destruct (run_new o f Hf w r d L Hw Hr Hg same t b cs c layers outs css c' (scan_input (List.length layers) pc sl at_step) fins w)
    as (w3 & all & nlast & R1 & R2 & R3 & R4 & R5); auto.
  { intros E. rewrite E in S4. inversion S4; subst. congruence. }
  destruct (scan_tail t c cut join ctx pc ss ss' layers w3 (last css cs) c' all nlast fins (map snd outs)) as (axsF & T1 & T2 & T5); auto.
  - intros sl' lens' at' E1 E2. assert (sl' = sl) by congruence. assert (at' = at_step) by congruence. subst sl' at'. exact R1.
  - apply Hu.
  - exists w3, axsF. auto 10.
Qed.

(** in reverse order, provided the function makes no new carry state *)
Theorem scan_same_carry (same : Y -> Y -> Prop) t c cut join ctx pc ss ss' layers outs css c' fins l0 axs1 cs1 c1 ys1 s1 fin1 :
  layers <> [] -> scan_ctx (w_trace w) (o_split o) ctx ss = (Ok pc, ss') -> states_ok J o axs pc layers -> cut_ok o axs cut layers ->
  (forall m, o_length o = Some m -> m = List.length layers) ->
  loop w d (o_filters o) f b cs c (if o_reverse o then rev layers else layers) outs css c' -> Forall2 (left o) outs fins -> uniform same cs outs fins css ->
  (forall x, In x css -> alike cs x) -> nth_error layers 0 = Some l0 ->
  call_on w d (snd (fst l0) ++ [b; cs]) (f (fst (fst l0)) c (snd l0)) = Some ((c1, ys1), s1) ->
  partition_state s1 (o_filters o) = Ok (Many (axs1 ++ [b; cs1])) -> alike cs cs1 -> leave_axes o axs1 = Ok fin1 ->
  scan_result t c cut join ctx ss ss' (if o_reverse o then rev fins else fins) (join (map snd (if o_reverse o then rev outs else outs))) (last css cs) c'.
Proof.
  intros Hne Hctx Hok Hcut Hn2 Hl Hleft Hu Hal Hl0 Hc Hp1 Ha1 Hf1. destruct scan_parts as (P1 & P2 & P3 & P4 & P5 & P6). destruct scan_graph as [L Hg].
  pose proof (layers_plain J o axs pc layers HJ P4 P1 P6 Hok) as Hpl.
  assert (Hpl' : Forall (fun l => plain_list (snd (fst l))) (if o_reverse o then rev layers else layers)) by (destruct (o_reverse o); [now apply Forall_rev|exact Hpl]).
  destruct (loop_parts _ _ _ _ _ _ Hl P5 Hpl') as [O1 O2]. destruct (outs_facts outs fins O1 Hleft) as (O3 & O4 & O5).
  assert (Hno : outs <> []).
  { destruct layers as [|l layers]; [congruence|]. destruct (o_reverse o); [cbn in Hl; destruct (rev layers ++ [l]) eqn:E; [now destruct (rev layers)|]|]; inversion Hl; discriminate. }
  assert (Hnf : fins <> []). { destruct Hleft; [congruence|discriminate]. }
  destruct (scan_input_ok J o axs cut pc layers P1 P6 Hne Hok Hcut Hn2) as (sl & lens & at_step & S1 & S2 & S3 & S4).
  destruct (nth_error (scan_input (List.length layers) pc sl at_step) 0) as [x0|] eqn:Ex0.
  2:{ exfalso. apply nth_error_None in Ex0. destruct S4; [congruence|cbn in Ex0; lia]. }
  destruct (run_same o f Hf w r d L Hw Hr Hg t b cs c layers outs css c' (scan_input (List.length layers) pc sl at_step) fins x0 l0 w axs1 cs1 c1 ys1 s1 fin1)
    as (w3 & R1 & R2); auto.
  { intros E. rewrite E in S4. inversion S4; subst. congruence. }
  assert (Hlen : List.length outs = List.length fins) by now apply Forall2_len in Hleft.
  destruct (scan_tail t c cut join ctx pc ss ss' layers w3 (last css cs) c' (if o_reverse o then rev (step_outs fins outs) else step_outs fins outs)
     (if o_reverse o then rev (step_outs fins outs) else step_outs fins outs) (if o_reverse o then rev fins else fins) (map snd (if o_reverse o then rev outs else outs)))
     as (axsF & T1 & T2 & T5); auto.
  - intros sl' lens' at' E1 E2. assert (sl' = sl) by congruence. assert (at' = at_step) by congruence. subst sl' at'. exact R1.
  - destruct (o_reverse o); [rewrite map_rev|]; now rewrite step_outs_axs.
  - destruct (o_reverse o); [rewrite !map_rev|]; now rewrite step_outs_ys.
  - assert (Hst : Forall (fun y => out_b_new y = [] /\ out_cs_new y = []) (step_outs fins outs)).
    { apply Forall_forall. intros y Hy. unfold step_outs in Hy. apply in_map_iff in Hy as (p & <- & _). split; reflexivity. }
    destruct (o_reverse o); [now apply Forall_rev|exact Hst].
  - destruct (o_reverse o); [|exact Hnf]. intros E. apply Hnf. rewrite <- (rev_involutive fins), E. reflexivity.
  - destruct (o_reverse o); [|exact O3]. intros x Hx. apply in_rev in Hx. now apply O3.
  - destruct (o_reverse o); [now apply Forall_rev|exact O4].
  - destruct (o_reverse o); [now apply Forall_rev|exact O5].
  - destruct (o_reverse o); [|apply Hu]. intros x y Hx Hy. apply in_rev in Hx. apply in_rev in Hy. now apply (u_axes _ _ _ _ _ Hu).
  - exists w3, axsF. auto 10.
Qed.

(** What the module is after scan, when the layers have left its structure as it was. *)
Definition scan_explicit t c cut (join : list Y -> result Z) ctx ss ss' (fins : list (list state)) (ysF : Z) (cs' : state) (c' : pyval) : Prop :=
  exists w4 axsF s', scan_core J o t (uf f) w r c cut join ctx ss = (w4, ss', Ok (c', ysF)) /\
    List.length axsF = List.length (o_axes o) /\
    (forall i fx st, nth_error (o_axes o) i = Some fx -> nth_error axsF i = Some st -> is_stack J (snd fx) (col i fins) st) /\
    get_state w4 r = Ok s' /\ keys s' = keys s /\
    (forall i st k a, nth_error axsF i = Some st -> dget k st = Some a -> dget k s' = Some a) /\
    (forall k a, dget k cs' = Some a -> dget k s' = Some a) /\
    (forall k a, dget k b = Some a -> dget k s' = Some a) /\
    get_module_def w4 r = Ok d /\ w_trace w4 = w_trace w /\ (forall p, follow w4 r p = follow w r p) /\
    (forall x ob, get_obj w x = Some ob -> ~ reaches w r x -> get_obj w4 x = Some ob) /\
    wf_world w4 /\ names_ok w4 r /\ live w4 r /\ w_nodes w4 = w_nodes w.

Lemma scan_finish t c cut join ctx ss ss' fins ysF cs' c' :
  names_ok w r -> live w r ->
  (forall st k v ax l, In st axs -> dget k st = Some (ARaw v) -> node_value w (ARaw (a_stack J ax l))) ->
  fins <> [] -> (forall x, In x fins -> Forall2 alike axs x) -> alike cs cs' -> plain_st cs' -> (forall k a, dget k cs' = Some a -> node_value w a) ->
  scan_result t c cut join ctx ss ss' fins (Ok ysF) cs' c' -> scan_explicit t c cut join ctx ss ss' fins ysF cs' c'.
Proof.
  intros Hno Hlive Hnode Hne Hfit Hcs Hplain Hcn (w3 & axsF & G & A1 & A2 & A5).
  destruct scan_parts as (P1 & P2 & P3 & P4 & P5 & P6).
  destruct (partition_parts s _ _ scan_wf_s (state_plain _ _ _ Hw Hs) Hpart) as (_ & _ & _ & Hdis & Hsub & _).
  destruct G as [W3 U3 T3 N3]. destruct (unchanged_state w w3 r Hw W3 Hr U3 N3) as [Us Ud].
  assert (HaxsF : forall i st, nth_error axsF i = Some st -> exists a0, nth_error axs i = Some a0 /\ alike a0 st).
  { intros i st Hi. assert (Hlt : i < List.length (o_axes o)) by (rewrite <- A1; apply nth_error_Some; congruence).
    destruct (nth_error (o_axes o) i) as [fx|] eqn:Ef; [|apply nth_error_None in Ef; lia].
    destruct (nth_error axs i) as [a0|] eqn:Ea; [|apply nth_error_None in Ea; lia]. exists a0. split; [reflexivity|].
    destruct (A2 i fx st Ef Hi) as [B1 _]. destruct fins as [|fin fins']; [congruence|].
    destruct (Forall2_nth _ _ _ _ _ (Hfit fin (or_introl eq_refl)) Ea) as (y & Hy & Q).
    eapply alike_trans; [exact Q|]. apply B1. unfold col. cbn. left. now apply nth_error_nth. }
  assert (Hidx : forall i a0, nth_error axs i = Some a0 -> nth_error (axs ++ [b; cs]) i = Some a0 /\ i < List.length axs).
  { intros i a0 Hi. assert (i < List.length axs) by (apply nth_error_Some; congruence). split; [|assumption]. now rewrite nth_error_app1. }
  assert (Hib : nth_error (axs ++ [b; cs]) (List.length axs) = Some b) by (rewrite nth_error_app2, Nat.sub_diag; [reflexivity|lia]).
  assert (Hic : nth_error (axs ++ [b; cs]) (S (List.length axs)) = Some cs).
  { rewrite nth_error_app2 by lia. replace (S (List.length axs) - List.length axs) with 1 by lia. reflexivity. }
  set (us := axsF ++ [cs'; []; []]).
  assert (Huk : forall u k, In u us -> In k (keys u) -> exists i st0, nth_error (axs ++ [b; cs]) i = Some st0 /\ alike st0 u /\ In k (keys st0) /\
            ((nth_error axsF i = Some u /\ i < List.length axs) \/ (i = S (List.length axs) /\ u = cs'))).
  { intros u k Hu Hk. unfold us in Hu. apply in_app_iff in Hu as [Hu|[<-|[<-|[<-|[]]]]]; try (cbn in Hk; contradiction).
    - apply In_nth_error in Hu as [i Hi]. destruct (HaxsF i u Hi) as (a0 & E1 & E2). destruct (Hidx i a0 E1) as [E3 E4].
      exists i, a0. split; [exact E3|]. split; [exact E2|]. split; [rewrite (alike_keys _ _ E2); exact Hk|]. left. auto.
    - exists (S (List.length axs)), cs. split; [exact Hic|]. split; [exact Hcs|]. split; [rewrite (alike_keys _ _ Hcs); exact Hk|]. right. auto. }
  assert (Hone : forall u v k, In u us -> In v us -> In k (keys u) -> In k (keys v) -> v = u).
  { intros u v k Hu Hv K1 K2. destruct (Huk u k Hu K1) as (i & s1 & E1 & _ & E3 & E4). destruct (Huk v k Hv K2) as (j & s2 & F1 & _ & F3 & F4).
    assert (i = j) by (eapply Hdis; eauto). subst j. destruct E4 as [[E4 E5]|[E4 E5]], F4 as [[F4 F5]|[F4 F5]]; try congruence; lia. }
  destruct (update_state_effect w3 r (UStates (Many us)) us s) as (w4 & E4 & UE); auto.
  { destruct (get_obj_ex _ _ Hr) as [ob Ho]. eapply get_obj_lt. apply U3. exact Ho. }
  { apply (unchanged_names w w3); auto. }
  { intros x ob Hx Ho. apply (unchanged_reaches w w3) in Hx; auto. rewrite (unchanged_get w w3 r x U3 Hx) in Ho. rewrite T3. eapply Hlive; eauto. }
  { congruence. }
  { discriminate. }
  { apply Forall_forall. intros u Hu. unfold us in Hu. apply in_app_iff in Hu as [Hu|[<-|[<-|[<-|[]]]]]; try constructor.
    - apply In_nth_error in Hu as [i Hi]. destruct (HaxsF i u Hi) as (a0 & E1 & E2). rewrite <- (alike_keys _ _ E2). apply wf_NoDup.
      rewrite Forall_forall in P1. apply P1. eapply nth_error_In; eauto.
    - rewrite <- (alike_keys _ _ Hcs). now apply wf_NoDup. }
  { intros k a Hla. apply latest_In in Hla as (u & Hu & D). destruct (Huk u k Hu (dget_In_keys _ _ _ D)) as (i & st0 & E1 & E2 & E3 & E4).
    destruct (alike_get _ _ k a (alike_sym _ _ E2) D) as (old & Dold & Hk).
    assert (Dolds : dget k s = Some old) by (eapply Hsub; [eapply nth_error_In; exact E1|exact Dold]).
    pose proof (dget_In _ _ _ Dolds) as Iold. pose proof (state_plain _ _ _ Hw Hs) as Pls. rewrite Forall_forall in Pls. destruct (Pls _ Iold) as [Q1 Q2]. cbn in Q1, Q2.
    assert (Hcls : node_value w old) by (eapply get_state_nodes; eauto).
    assert (Hres : plain_attr a /\ (forall v, a = ARaw v -> node_value w a)).
    { destruct E4 as [[E4 E5]|[E4 ->]].
      - assert (Ef : exists fx, nth_error (o_axes o) i = Some fx).
        { destruct (nth_error (o_axes o) i) eqn:Ef; [eauto|]. apply nth_error_None in Ef. lia. }
        destruct Ef as [fx Ef]. destruct (A2 i fx u Ef E4) as [_ B2]. destruct (B2 k (val_of a)) as (vs & _ & Ev). { exists a. split; [exact D|destruct a; reflexivity]. }
        destruct a as [v|ca].
        + destruct old as [v0|]; [|contradiction]. cbn in Ev. subst v. split.
          * pose proof (ao_stack J HJ (snd fx) vs) as Hm. destruct (a_stack J (snd fx) vs); try contradiction; split; try exact Logic.I; reflexivity.
          * intros v Ev. apply (Hnode st0 k v0); [|exact Dold].
            assert (Q : i < List.length axs) by exact E5. rewrite nth_error_app1 in E1 by exact Q. eapply nth_error_In; eauto.
        + destruct old as [|c0]; [contradiction|]. split; [|intros v Ev'; discriminate]. split; [|reflexivity]. cbn in Q1 |- *.
          destruct Hk as [H1 H2]. destruct ca as [x1 x2 x3], c0 as [y1 y2 y3]. cbn in *. subst. exact Q1.
      - split; [|intros v Ev; eapply Hcn; eauto]. unfold plain_st in Hplain. rewrite Forall_forall in Hplain. apply (Hplain (k, a)). now apply dget_In. }
    destruct Hres as [[R1 R2] R3]. split; [exact R1|]. split; [exact R2|]. exists old.
    destruct old as [v0|c0], a as [v|ca]; try contradiction.
    - exists (ARaw v). split; [exact Dolds|]. split; [reflexivity|]. destruct (R3 v eq_refl) as (tn & T1 & T2). exists tn. rewrite N3. auto.
    - exists (ACont (mkCont (c_cls c0) (c_meta c0) (c_val ca))). split; [exact Dolds|]. destruct Hk as [H1 H2]. split; [cbn; repeat split; [congruence|rewrite <- H2; apply same_meta_refl]|].
      destruct Hcls as (tn & T1 & T2). exists tn. rewrite N3. auto. }
  destruct (ue_state _ _ _ _ _ UE) as (s' & S1 & S2 & S3).
  assert (Hval : forall u k a, In u us -> dget k u = Some a -> dget k s' = Some a).
  { intros u k a Hu D. destruct (Huk u k Hu (dget_In_keys _ _ _ D)) as (i & st0 & E1 & E2 & E3 & _).
    destruct (alike_get _ _ k a (alike_sym _ _ E2) D) as (old & Dold & Hk).
    assert (Dolds : dget k s = Some old) by (eapply Hsub; [eapply nth_error_In; exact E1|exact Dold]).
    destruct (S3 k old Dolds) as (res & R1 & R2). rewrite R1. f_equal.
    rewrite (latest_only k us u a Hu D) in R2 by (intros v Hv Kv; apply (Hone u v k); auto; eapply dget_In_keys; eauto).
    destruct old as [v0|c0], a as [v|ca]; try contradiction; cbn in R2; [exact R2|]. destruct R2 as (_ & _ & ->). destruct Hk as [H1 H2].
    destruct ca as [x1 x2 x3], c0 as [y1 y2 y3]. cbn in *. now subst. }
  exists w4, axsF, s'. split. { rewrite A5. fold us. now rewrite E4. }
  split; [exact A1|]. split; [exact A2|]. split; [exact S1|]. split; [exact S2|].
  split. { intros i st k a Hi D. apply (Hval st); [|exact D]. unfold us. apply in_app_iff. left. eapply nth_error_In; eauto. }
  split. { intros k a D. apply (Hval cs'); [|exact D]. unfold us. apply in_app_iff. right. now left. }
  split.
  { intros k a D. assert (Dolds : dget k s = Some a) by (eapply Hsub; [eapply nth_error_In; exact Hib|exact D]).
    destruct (S3 k a Dolds) as (res & R1 & R2). rewrite R1. f_equal.
    rewrite latest_none in R2; [exact R2|]. intros v Hv Kv. destruct (Huk v k Hv Kv) as (i & st0 & E1 & _ & E3 & E5).
    assert (i = List.length axs) by (eapply Hdis; eauto; eapply dget_In_keys; eauto). destruct E5 as [[_ E5]|[E5 _]]; lia. }
  split. { rewrite (ue_def _ _ _ _ _ UE), Ud. exact Hd. }
  split. { destruct (ue_global _ _ _ _ _ UE) as (_ & Q & _). congruence. }
  split. { intros p. rewrite (ue_follow _ _ _ _ _ UE). now apply unchanged_follow. }
  split. { intros x ob Ho Hx. rewrite (ue_frame _ _ _ _ _ UE); [now apply U3|]. intros Q. apply (unchanged_reaches w w3) in Q; auto. }
  split; [apply (ue_wf _ _ _ _ _ UE)|]. split; [apply (ue_names _ _ _ _ _ UE)|].
  destruct (ue_global _ _ _ _ _ UE) as (_ & Q1 & Q2 & _). split; [|congruence].
  intros x ob [p Hp] Ho. rewrite (ue_follow _ _ _ _ _ UE) in Hp. assert (Hx : reaches w r x) by (apply (unchanged_reaches w w3); auto; exists p; exact Hp).
  destruct (get_obj w x) as [ox|] eqn:Ex; [|destruct Hx as [q Hq]; apply follow_valid in Hq as [ob' Hq]; congruence].
  destruct (ue_objs _ _ _ _ _ UE x ox (U3 _ _ Ex)) as [dd Hdd]. assert (ob = set_vars ox dd) by congruence. subst ob. cbn. rewrite Q1, T3. eapply Hlive; eauto.
Qed.

Lemma loop_nodes cs0 c layers outs css c' : loop w d (o_filters o) f b cs0 c layers outs css c' -> plain_list [b; cs0] ->
  Forall (fun l => plain_list (snd (fst l))) layers -> forall x k a, In x css -> dget k x = Some a -> node_value w a.
Proof.
  intros Hl. destruct scan_graph as [L Hg]. induction Hl as [cs0 c|cs0 c ctx axs0 xs c1 ys s1 axs1 cs1 rest outs css c2 Hc Hp Hl IH]; intros Hb Hpl x k a Hx D; [contradiction|].
  inversion Hpl as [|? ? P1 P2]; subst. cbn in P1.
  destruct (call_transfer (f ctx c xs) w r d L w w (axs0 ++ [b; cs0]) (c1, ys) s1) as (m & w1 & w2 & _ & _ & G & W2 & V2 & _ & _ & N2); auto.
  { apply plain_list_app. auto. }
  assert (Ws : wf_state s1). { destruct (get_state_total w2 m W2 V2) as (s' & E & W). congruence. }
  destruct (partition_parts s1 _ _ Ws (state_plain _ _ _ W2 G) Hp) as (W & P & N & _ & Sub & _).
  destruct Hx as [<-|Hx].
  - destruct (get_state_nodes w2 m s1 k a W2 G) as (tn & T1 & T2). { apply (Sub cs1); [|exact D]. apply in_app_iff. right. cbn. auto. }
    exists tn. rewrite <- N2. auto.
  - apply plain_list_app in P as [_ P4]. eapply IH; eauto.
Qed.

Lemma fit_uniform (same : Y -> Y -> Prop) outs fins css : (forall x y : layer_out_of Y, In x outs -> In y outs -> same (snd x) (snd y)) ->
  (forall x, In x fins -> Forall2 alike axs x) -> (forall x, In x css -> alike cs x) -> uniform same cs outs fins css.
Proof.
  intros H1 H2 H3. constructor; auto.
  - intros x y Hx Hy. pose proof (H2 x Hx) as A. pose proof (H2 y Hy) as B. clear - A B. revert y B. induction A as [|a x l l' A1 A IH]; intros y B; inversion B as [|? ? ? ? B1 B2]; subst; constructor.
    + eapply alike_trans; [apply alike_sym; exact A1|exact B1].
    + now apply IH.
  - intros x y Hx Hy. eapply alike_trans; [apply alike_sym, H3; exact Hx|now apply H3].
  - intros x k a Hx D. eapply alike_get; eauto.
Qed.

Theorem scan_explicit_ok (same : Y -> Y -> Prop) t c cut join ctx pc ss ss' layers outs css c' fins ysF :
  names_ok w r -> live w r -> (forall st k v ax l, In st axs -> dget k st = Some (ARaw v) -> node_value w (ARaw (a_stack J ax l))) ->
  layers <> [] -> scan_ctx (w_trace w) (o_split o) ctx ss = (Ok pc, ss') -> states_ok J o axs pc layers -> cut_ok o axs cut layers ->
  (forall m, o_length o = Some m -> m = List.length layers) ->
  loop w d (o_filters o) f b cs c (if o_reverse o then rev layers else layers) outs css c' -> Forall2 (left o) outs fins ->
  (forall x y : layer_out_of Y, In x outs -> In y outs -> same (snd x) (snd y)) ->
  (forall x, In x fins -> Forall2 alike axs x) -> (forall x, In x css -> alike cs x) ->
  (o_reverse o = true -> exists l0 axs1 cs1 c1 ys1 s1 fin1, nth_error layers 0 = Some l0 /\
     call_on w d (snd (fst l0) ++ [b; cs]) (f (fst (fst l0)) c (snd l0)) = Some ((c1, ys1), s1) /\
     partition_state s1 (o_filters o) = Ok (Many (axs1 ++ [b; cs1])) /\ alike cs cs1 /\ leave_axes o axs1 = Ok fin1) ->
  join (map snd (if o_reverse o then rev outs else outs)) = Ok ysF ->
  scan_explicit t c cut join ctx ss ss' (if o_reverse o then rev fins else fins) ysF (last css cs) c'.
Proof.
  intros Hno Hlive Hnode Hne Hctx Hok Hcut Hn2 Hl Hleft Hys Hfit Hcs Hprobe Hj. destruct scan_parts as (P1 & P2 & P3 & P4 & P5 & P6).
  pose proof (layers_plain J o axs pc layers HJ P4 P1 P6 Hok) as Hpl.
  assert (Hpl' : Forall (fun l => plain_list (snd (fst l))) (if o_reverse o then rev layers else layers)) by (destruct (o_reverse o); [now apply Forall_rev|exact Hpl]).
  assert (Hu : uniform same cs outs fins css) by now apply fit_uniform.
  destruct (loop_parts _ _ _ _ _ _ Hl P5 Hpl') as [_ O2].
  assert (Hlast : In (last css cs) css).
  { assert (css <> []).
    { destruct layers as [|l layers]; [congruence|]. destruct (o_reverse o); [cbn in Hl; destruct (rev layers ++ [l]) eqn:E; [now destruct (rev layers)|]|]; inversion Hl; discriminate. }
    destruct (exists_last H) as (css0 & x & ->). rewrite last_last. apply in_app_iff. right. now left. }
  apply scan_finish; auto.
  - assert (Hnf : fins <> []).
    { destruct Hleft; [|discriminate]. exfalso. destruct layers as [|l layers]; [congruence|].
      destruct (o_reverse o); [cbn in Hl; destruct (rev layers ++ [l]) eqn:E; [now destruct (rev layers)|]|]; inversion Hl. }
    destruct (o_reverse o); [|exact Hnf]. intros E. apply Hnf. rewrite <- (rev_involutive fins), E. reflexivity.
  - destruct (o_reverse o); [|exact Hfit]. intros x Hx. apply in_rev in Hx. now apply Hfit.
  - rewrite Forall_forall in O2. now apply O2.
  - intros k a D. eapply (loop_nodes _ _ _ _ _ _ Hl P5 Hpl'); eauto.
  - destruct (o_reverse o) eqn:Er.
    + destruct (Hprobe eq_refl) as (l0 & axs1 & cs1 & c1 & ys1 & s1 & fin1 & Q1 & Q2 & Q3 & Q4 & Q5).
      pose proof (scan_same_carry same t c cut join ctx pc ss ss' layers outs css c' fins l0 axs1 cs1 c1 ys1 s1 fin1) as R. rewrite Er in R. rewrite Hj in R. eapply R; eauto.
    + rewrite <- Hj. eapply scan_forward; eauto.
Qed.
End Scan.

(** ** arguments and results as lists of leaves *)
Definition same_length (x y : list pyval) : Prop := List.length x = List.length y.
Lemma layers_states J o axs xs pc layers : layers_ok J o axs xs pc layers -> states_ok J o axs pc layers.
Proof. intros H i l Hi. destruct (H i l Hi) as (A & B & _). split; assumption. Qed.
Lemma layers_cut J o axs xs pc layers : layers <> [] -> layers_ok J o axs xs pc layers ->
  (o_length o = None -> xs <> [] \/ exists s, In s axs /\ s <> []) -> cut_ok o axs (cut_leaves J (o_in o) xs) layers.
Proof.
  intros Hne Hok Hn. destruct layers as [|l0 layers]; [congruence|]. destruct (Hok 0 l0 eq_refl) as (_ & _ & R2).
  destruct (leaf_slices_ok J _ _ 0 xs _ R2) as (xsl & X1 & _ & X3 & X4). exists (map (@List.length pyval) xsl), (leaves_at xsl).
  unfold cut_leaves. rewrite X1. split; [reflexivity|]. split.
  { apply Forall_forall. intros n Hi. apply in_map_iff in Hi as (e & <- & He). rewrite Forall_forall in X3. now apply X3. }
  split.
  - intros i l Hi. destruct (Hok i l Hi) as (_ & _ & R). destruct (leaf_slices_ok J _ _ i xs _ R) as (xsl' & U1 & U2 & _). assert (xsl' = xsl) by congruence. subst xsl'. exact U2.
  - intros Hnone. destruct (Hn Hnone) as [Hx|Hx]; [left|right; exact Hx]. intros E. apply map_eq_nil in E. subst xsl. destruct xs; [congruence|discriminate].
Qed.

Section ScanLeaves.
Context (J : arrays) (o : scan_opts) (f : option pctx -> pyval -> list pyval -> prog (pyval * list pyval)).
Context (HJ : arrays_ok J) (Hf : forall pc c xs, ok_prog (f pc c xs)).
Context (w : world) (r : nat) (d : mdef) (s : state) (axs : list state) (b cs : state).
Context (Hw : wf_world w) (Hr : valid w r) (Hd : get_module_def w r = Ok d) (Hs : get_state w r = Ok s).
Context (Hpart : partition_state s (o_filters o) = Ok (Many (axs ++ [b; cs]))).

Theorem leaves_forward t c xs ctx pc ss ss' layers outs css c' fins :
  o_reverse o = false -> layers <> [] -> scan_ctx (w_trace w) (o_split o) ctx ss = (Ok pc, ss') -> layers_ok J o axs xs pc layers ->
  (o_length o = None -> xs <> [] \/ exists s, In s axs /\ s <> []) -> (forall m, o_length o = Some m -> m = List.length layers) ->
  loop w d (o_filters o) f b cs c layers outs css c' -> Forall2 (left o) outs fins -> uniform same_length cs outs fins css ->
  exists ysF, scan_result J o f w r t c (cut_leaves J (o_in o) xs) (stack_leaves J (o_out o)) ctx ss ss' fins (Ok ysF) (last css cs) c' /\
    leaf_stack J (o_out o) (map snd outs) ysF /\ (forall x, In x (map snd outs) -> List.length x = List.length ysF).
Proof.
  intros Hrev Hne Hctx Hok Hn1 Hn2 Hl Hleft Hu. assert (Hno : outs <> []) by (destruct Hl; [congruence|discriminate]).
  destruct (stack_leaves_ok J (o_out o) (map snd outs)) as (ysF & Y1 & Y2 & Y3).
  { intros E. apply map_eq_nil in E. contradiction. }
  { intros x y Hx Hy. apply in_map_iff in Hx as (x' & <- & Hx). apply in_map_iff in Hy as (y' & <- & Hy). now apply (u_ys _ _ _ _ _ Hu). }
  exists ysF. split; [|auto]. rewrite <- Y1. eapply scan_forward; eauto; [now apply layers_states with (xs := xs)|eapply layers_cut; eauto].
Qed.
Definition leaves_explicit t c xs ctx ss ss' (fins : list (list state)) (yss : list (list pyval)) (cs' : state) (c' : pyval) : Prop :=
  exists w4 axsF ysF s', scan_apply J o t (uf f) w r c xs ctx ss = (w4, ss', Ok (c', ysF)) /\
    List.length axsF = List.length (o_axes o) /\
    (forall i fx st, nth_error (o_axes o) i = Some fx -> nth_error axsF i = Some st -> is_stack J (snd fx) (col i fins) st) /\
    leaf_stack J (o_out o) yss ysF /\ (forall x, In x yss -> List.length x = List.length ysF) /\
    get_state w4 r = Ok s' /\ keys s' = keys s /\
    (forall i st k a, nth_error axsF i = Some st -> dget k st = Some a -> dget k s' = Some a) /\
    (forall k a, dget k cs' = Some a -> dget k s' = Some a) /\
    (forall k a, dget k b = Some a -> dget k s' = Some a) /\
    get_module_def w4 r = Ok d /\ w_trace w4 = w_trace w /\ (forall p, follow w4 r p = follow w r p) /\
    (forall x ob, get_obj w x = Some ob -> ~ reaches w r x -> get_obj w4 x = Some ob) /\
    wf_world w4 /\ names_ok w4 r /\ live w4 r /\ w_nodes w4 = w_nodes w.

Theorem leaves_explicit_ok t c xs ctx pc ss ss' layers outs css c' fins :
  names_ok w r -> live w r -> (forall st k v ax l, In st axs -> dget k st = Some (ARaw v) -> node_value w (ARaw (a_stack J ax l))) ->
  layers <> [] -> scan_ctx (w_trace w) (o_split o) ctx ss = (Ok pc, ss') -> layers_ok J o axs xs pc layers ->
  (o_length o = None -> xs <> [] \/ exists s, In s axs /\ s <> []) -> (forall m, o_length o = Some m -> m = List.length layers) ->
  loop w d (o_filters o) f b cs c (if o_reverse o then rev layers else layers) outs css c' -> Forall2 (left o) outs fins ->
  (forall x y : layer_out, In x outs -> In y outs -> List.length (snd x) = List.length (snd y)) ->
  (forall x, In x fins -> Forall2 alike axs x) -> (forall x, In x css -> alike cs x) ->
  (o_reverse o = true -> exists l0 axs1 cs1 c1 ys1 s1 fin1, nth_error layers 0 = Some l0 /\
     call_on w d (snd (fst l0) ++ [b; cs]) (f (fst (fst l0)) c (snd l0)) = Some ((c1, ys1), s1) /\
     partition_state s1 (o_filters o) = Ok (Many (axs1 ++ [b; cs1])) /\ alike cs cs1 /\ leave_axes o axs1 = Ok fin1) ->
  leaves_explicit t c xs ctx ss ss' (if o_reverse o then rev fins else fins) (map snd (if o_reverse o then rev outs else outs)) (last css cs) c'.
Proof.
  intros Hno Hlive Hnode Hne Hctx Hok Hn1 Hn2 Hl Hleft Hys Hfit Hcs Hprobe.
  assert (Hno' : outs <> []).
  { destruct layers as [|l layers]; [congruence|]. destruct (o_reverse o); [cbn in Hl; destruct (rev layers ++ [l]) eqn:E; [now destruct (rev layers)|]|]; inversion Hl; discriminate. }
  destruct (stack_leaves_ok J (o_out o) (map snd (if o_reverse o then rev outs else outs))) as (ysF & Y1 & Y2 & Y3).
  { intros E. apply map_eq_nil in E. destruct (o_reverse o); [|contradiction]. apply Hno'. rewrite <- (rev_involutive outs), E. reflexivity. }
  { intros x y Hx Hy. apply in_map_iff in Hx as (x' & <- & Hx). apply in_map_iff in Hy as (y' & <- & Hy).
    destruct (o_reverse o); [apply in_rev in Hx; apply in_rev in Hy|]; now apply Hys. }
  pose proof (scan_explicit_ok J o f HJ Hf w r d s axs b cs Hw Hr Hd Hs Hpart same_length t c (cut_leaves J (o_in o) xs) (stack_leaves J (o_out o)) ctx pc ss ss' layers outs css c' fins ysF
    Hno Hlive Hnode Hne Hctx (layers_states _ _ _ _ _ _ Hok) (layers_cut _ _ _ _ _ _ Hne Hok Hn1) Hn2 Hl Hleft Hys Hfit Hcs Hprobe Y1) as (w4 & axsF & s' & E & A1 & A2 & A5).
  exists w4, axsF, ysF, s'. split; [exact E|]. auto.
Qed.
End ScanLeaves.

(** ** remat *)
Definition remat_ctx (cur : trace_state) (ctx : option context) (ss : list stream) : result (option pctx) * list stream :=
  match ctx with
  | None => (Ok None, ss)
  | Some x => match context_partition cur x ss with
              | (Err e, ss') => (Err e, ss')
              | (Ok pc, ss') => (Ok (Some pc), ss')
              end
  end.
(** remat differs from jit in that it takes a context *)
Theorem remat_is_jit {A} (f : option pctx -> prog A) t w r ctx ss pc ss' :
  (forall pc, ok_prog (f pc)) -> wf_world w -> valid w r -> names_ok w r -> live w r -> remat_ctx (w_trace w) ctx ss = (Ok pc, ss') ->
  remat_apply t (fun pc => user_fun (f pc)) w r ctx ss = let (w', res) := jit_call true t (user_fun (f pc)) w r in (w', ss', res).
Proof.
  intros Hf Hw Hr Hno Hlive Hc. destruct (partition_all w r Hw Hr) as (p & s & Hp & Es).
  destruct (inner_run (f pc) w r [] p t [s] (Hf pc) Hw Hr Hno Hlive Hp) as (m & w1 & wd' & w2 & res & Hm & E1 & E2 & W1 & W2 & V2 & Vd & N1 & N2 & Hun & Hst).
  { rewrite Es. reflexivity. }
  unfold remat_apply, jit_call, jitted_fn. rewrite Hp. unfold remat_ctx in Hc. rewrite Hc. unfold pure_merge. rewrite Es. cbn [sts_list]. rewrite Hm, E2.
  destruct res as [out|e]; [|reflexivity].
  destruct (partition_ok_iff_state w2 m [] W2 V2) as (d & s2 & _ & Hs & _ & H). cbn in H. rewrite H. rewrite (set_trace_state w2 (w_trace w) m W2 V2), Hs. cbn [p_states].
  destruct (update_state _ r _) as [w4 [u|e]]; reflexivity.
Qed.
Theorem remat_ctx_fails {A} (f : option pctx -> prog A) t w r ctx ss e ss' :
  wf_world w -> valid w r -> remat_ctx (w_trace w) ctx ss = (Err e, ss') ->
  remat_apply t (fun pc => user_fun (f pc)) w r ctx ss = (w, ss', Err e).
Proof.
  intros Hw Hr Hc. destruct (partition_all w r Hw Hr) as (p & s & Hp & Es). unfold remat_apply. rewrite Hp. unfold remat_ctx in Hc. rewrite Hc. reflexivity.
Qed.

(** ** the number of layers *)
Lemma infer_inv given lens : match infer_length given lens with
  | Ok n => Forall (fun x => x = n) lens /\ match given with Some m => m = n | None => lens <> [] end
  | Err e => e = ValueError
  end.
Proof.
  unfold infer_length. pose proof (nodup_In Nat.eq_dec lens) as G. destruct (nodup Nat.eq_dec lens) as [|n [|m l]]; [| |reflexivity].
  - assert (lens = []) as ->. { destruct lens as [|x lens]; [reflexivity|]. exfalso. exact (proj2 (G x) (or_introl eq_refl)). }
    destruct given; [split; constructor|reflexivity].
  - assert (A : Forall (fun x => x = n) lens). { apply Forall_forall. intros x Hx. apply G in Hx. destruct Hx as [<-|[]]. reflexivity. }
    destruct given as [m|]; [destruct (Nat.eqb_spec m n); auto|]. split; [exact A|]. intros ->. exact (proj1 (G n) (or_introl eq_refl)).
Qed.

Lemma slice_state_total J ax s : (forall k a, In (k, a) s -> exists l, a_slices J ax (val_of a) = Ok l) ->
  exists sl, slice_state J ax s = Ok sl /\
    forall n, In n (map (fun x : string * (attr * list pyval) => List.length (snd (snd x))) sl) <->
      exists k a l, In (k, a) s /\ a_slices J ax (val_of a) = Ok l /\ n = List.length l.
Proof.
  unfold slice_state. induction s as [|[k a] s IH]; intros H.
  - exists []. split; [reflexivity|]. intros n. cbn. split; [contradiction|]. intros (? & ? & ? & [] & _).
  - destruct (H k a (or_introl eq_refl)) as [l E]. destruct IH as (sl & E2 & G). { intros k0 a0 I. apply (H k0 a0). now right. }
    exists ((k, (a, l)) :: sl). cbn [rmapM fst snd]. rewrite E. cbn [rbind]. rewrite E2. split; [reflexivity|]. intros n. cbn [map In fst snd]. rewrite (G n). split.
    + intros [<-|(k0 & a0 & l0 & I & E0 & ->)]; [exists k, a, l; auto|exists k0, a0, l0; auto].
    + intros (k0 & a0 & l0 & [I|I] & E0 & ->); [left; congruence|right; exists k0, a0, l0; auto].
Qed.

Lemma slice_states_total J axes : forall axs,
  (forall st g ax k a, In (st, (g, ax)) (combine axs axes) -> In (k, a) st -> exists l, a_slices J ax (val_of a) = Ok l) ->
  exists sl, slice_states J axes axs = Ok sl /\
    forall n, In n (flat_map (map (fun x : string * (attr * list pyval) => List.length (snd (snd x)))) sl) <->
      exists st g ax k a l, In (st, (g, ax)) (combine axs axes) /\ In (k, a) st /\ a_slices J ax (val_of a) = Ok l /\ n = List.length l.
Proof.
  induction axes as [|[g ax] axes IH]; intros [|s axs] H.
  1-3: exists []; split; [reflexivity|]; intros n; cbn; split; [contradiction|]; intros (? & ? & ? & ? & ? & ? & [] & _).
  destruct (slice_state_total J ax s) as (x & E & G). { intros k a I. apply (H s g ax k a); [now left|exact I]. }
  destruct (IH axs) as (sl & E2 & G2). { intros st g0 ax0 k a I. apply (H st g0 ax0). now right. }
  exists (x :: sl). cbn [slice_states]. rewrite E. cbn [rbind]. rewrite E2. split; [reflexivity|]. intros n. cbn [flat_map]. rewrite in_app_iff, (G n), (G2 n). cbn [combine In]. split.
  - intros [(k & a & l & I & El & ->)|(st & g0 & ax0 & k & a & l & I & R)]; [exists s, g, ax, k, a, l; auto|exists st, g0, ax0, k, a, l; auto].
  - intros (st & g0 & ax0 & k & a & l & [I|I] & R); [injection I as <- <- <-; left; exists k, a, l; exact R|right; exists st, g0, ax0, k, a, l; auto].
Qed.

Lemma array_at_In s k a : NoDup (keys s) -> In (k, a) s -> array_at k s (val_of a).
Proof. intros N I. exists a. split; [now apply In_dget|]. destruct a; reflexivity. Qed.

Lemma scan_states_nodup w r s axs b cs o : wf_world w -> r < List.length (w_heap w) -> get_state w r = Ok s ->
  partition_state s (o_filters o) = Ok (Many (axs ++ [b; cs])) -> forall st, In st axs -> NoDup (keys st).
Proof.
  intros W R Sx P. apply Forall_forall. destruct (get_state_total w r W R) as (s' & E & Ws). assert (s' = s) by congruence. subst s'.
  destruct (partition_parts s _ _ Ws (state_plain _ _ _ W Sx) P) as (Wp & _). apply Forall_app in Wp as [Wp _].
  eapply Forall_impl; [|exact Wp]. intros x. apply wf_NoDup.
Qed.
Lemma scan_lengths_gen {X Y Z} J o (f : scanned_of X Y) w r d s axs b cs t c cut lens at_step (join : list Y -> result Z) ctx ss (over : BinNums.Z -> pyval -> Prop) :
  wf_world w -> r < List.length (w_heap w) ->
  get_module_def w r = Ok d -> get_state w r = Ok s -> partition_state s (o_filters o) = Ok (Many (axs ++ [b; cs])) ->
  (forall st g ax k v, In (st, (g, ax)) (combine axs (o_axes o)) -> array_at k st v -> over ax v) ->
  (forall ax v, over ax v -> exists l, a_slices J ax v = Ok l) ->
  cut = Ok (lens, at_step) -> (forall n, In n lens -> exists ax v l, over ax v /\ a_slices J ax v = Ok l /\ n = List.length l) ->
  (forall ax v, over ax v -> (exists st g k, In (st, (g, ax)) (combine axs (o_axes o)) /\ array_at k st v) \/ exists l, a_slices J ax v = Ok l /\ In (List.length l) lens) ->
  (forall n, ~ ((forall ax v, over ax v -> exists l, a_slices J ax v = Ok l /\ List.length l = n) /\
                match o_length o with Some m => m = n | None => exists ax v, over ax v end)) ->
  scan_core J o t f w r c cut join ctx ss = (w, ss, Err ValueError).
Proof.
  intros W R D S P A0 A E2 G2 G3 N.
  assert (Ws : Forall (fun s : state => NoDup (keys s)) axs).
  { destruct (get_state_total w r W R) as (s' & E & Ws). assert (s' = s) by congruence. subst s'.
    destruct (partition_parts s _ _ Ws (state_plain _ _ _ W S) P) as (Wp & _). apply Forall_app in Wp as [Wp _].
    eapply Forall_impl; [|exact Wp]. intros x. apply wf_NoDup. }
  rewrite Forall_forall in Ws.
  destruct (slice_states_total J (o_axes o) axs) as (sl & E1 & G1).
  { intros st g ax k a I I2. apply (A ax). eapply A0; [exact I|]. apply array_at_In; [|exact I2]. apply Ws. eapply in_combine_l; exact I. }
  unfold scan_core, module_partition. rewrite D, S. cbn [rbind]. rewrite P. cbn [rbind p_states p_def sts_list]. rewrite split3_app.
  rewrite E1. cbn [rbind]. rewrite E2. cbn [rbind fst snd].
  assert (GL : forall m, In m (leaf_lengths sl lens) <-> exists ax v l, over ax v /\ a_slices J ax v = Ok l /\ m = List.length l).
  { intros m. unfold leaf_lengths. rewrite in_app_iff, G1. split.
    - intros [(st & g & ax & k & a & l & I & I2 & El & ->)|Hm]; [|now apply G2].
      exists ax, (val_of a), l. split; [|auto]. eapply A0; [exact I|]. apply array_at_In; [|exact I2]. apply Ws. eapply in_combine_l; exact I.
    - intros (ax & v & l & O & El & ->). destruct (G3 ax v O) as [(st & g & k & I & (a & Da & ->))|(l' & El' & I)].
      + left. exists st, g, ax, k, a, l. split; [exact I|]. split; [now apply dget_In|]. split; [|reflexivity]. destruct a; exact El.
      + right. assert (l' = l) by congruence. now subst l'. }
  pose proof (infer_inv (o_length o) (leaf_lengths sl lens)) as Q.
  destruct (infer_length (o_length o) (leaf_lengths sl lens)) as [n|e]; [|subst e; reflexivity].
  exfalso. destruct Q as [Q1 Q2]. rewrite Forall_forall in Q1. apply (N n). split.
  - intros ax v O. destruct (A ax v O) as [l El]. exists l. split; [exact El|]. apply Q1. apply GL. eauto 6.
  - destruct (o_length o); [exact Q2|]. destruct (leaf_lengths sl lens) as [|m ms] eqn:E; [congruence|].
    destruct (proj1 (GL m) (or_introl eq_refl)) as (ax & v & _ & O & _). eauto.
Qed.

Lemma scan_lengths J o (f : scanned) w r d s axs b cs t c xs ctx ss : wf_world w -> r < List.length (w_heap w) ->
  get_module_def w r = Ok d -> get_state w r = Ok s -> partition_state s (o_filters o) = Ok (Many (axs ++ [b; cs])) ->
  (forall ax v, scanned_over o axs xs ax v -> exists l, a_slices J ax v = Ok l) ->
  (forall n, ~ layer_count J o axs xs n) ->
  scan_apply J o t f w r c xs ctx ss = (w, ss, Err ValueError).
Proof.
  intros W R D S P A N.
  assert (exists xsl, rmapM (a_slices J (o_in o)) xs = Ok xsl /\
    forall n, In n (map (@List.length pyval) xsl) <-> exists v l, In v xs /\ a_slices J (o_in o) v = Ok l /\ n = List.length l) as (xsl & E2 & G2).
  { assert (A2 : forall v, In v xs -> exists l, a_slices J (o_in o) v = Ok l) by (intros v I; apply A; now apply over_arg). clear - A2.
    induction xs as [|v xs IH]; [exists []; split; [reflexivity|]; intros n; cbn; split; [contradiction|]; intros (? & ? & [] & _)|].
    destruct (A2 v (or_introl eq_refl)) as [l E]. destruct IH as (xsl & E2 & G). { intros u I. apply A2. now right. }
    exists (l :: xsl). cbn. rewrite E. cbn [rbind]. rewrite E2. split; [reflexivity|]. intros n. rewrite (G n). split.
    - intros [<-|(u & m & I & R)]; [exists v, l; auto|exists u, m; auto].
    - intros (u & m & [<-|I] & R & ->); [left; congruence|right; exists u, m; auto]. }
  unfold scan_apply. eapply (scan_lengths_gen J o f w r d s axs b cs) with (over := scanned_over o axs xs); eauto.
  - intros st g ax k v I H. eapply over_state; eauto.
  - unfold cut_leaves. rewrite E2. reflexivity.
  - intros n Hn. apply G2 in Hn as (v & l & I & El & ->). exists (o_in o), v, l. split; [now apply over_arg|auto].
  - intros ax v [st g ax' k v' I H|v' I]; [left; exists st, g, k; auto|]. right. destruct (A _ _ (over_arg o axs xs v' I)) as [l El]. exists l. split; [exact El|]. apply G2. exists v', l. auto.
Qed.
