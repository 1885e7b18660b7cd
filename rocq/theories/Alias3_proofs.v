(** Alias3_proofs: which Module attributes share a container object. *)
From Verif Require Import PyBase PyBaseFacts ValuesM FiltersM StateM ModuleM AliasM Spec_Alias Alias_proofs Alias2_proofs.
From Coq Require Import Permutation.
Local Open Scope string_scope.
Local Open Scope list_scope.

Notation ncells w := (List.length (rw_cells w)).

(** One library call that writes to no container. *)
Record ev (w w' : rworld) : Prop := mkEv {
  ev_cells : exists e, rw_cells w' = rw_cells w ++ e;
  ev_nodes : rw_nodes w' = rw_nodes w;
  ev_heap : List.length (rw_heap w) <= List.length (rw_heap w');
  ev_holds : forall r n k, holds w' r n k -> holds w r n k \/ ncells w <= k < ncells w' \/ (k < ncells w' /\ ~ node_cell w' k);
  ev_new : forall k, ncells w <= k -> node_cell w' k -> forall r1 n1 r2 n2, holds w' r1 n1 k -> holds w' r2 n2 k -> r1 = r2 /\ n1 = n2
}.
Lemma ev_len w w' : ev w w' -> ncells w <= ncells w'.
Proof. intros [[e E] _ _ _ _]. rewrite E, app_length. lia. Qed.
Lemma ev_node w w' k : ev w w' -> k < ncells w -> (node_cell w' k <-> node_cell w k).
Proof.
  intros [[e E] N _ _ _] L. unfold node_cell. rewrite N, E, look_ext by exact L. reflexivity.
Qed.
Lemma node_lt w k : node_cell w k -> k < ncells w \/ is_node (rw_nodes w) (ARaw PyNone) = true.
Proof.
  unfold node_cell, look. destruct (nth_error (rw_cells w) k) eqn:E; [|auto]. intros _. left. apply nth_error_Some. congruence.
Qed.
Lemma ev_trans a b c : ev a b -> ev b c -> ev a c.
Proof.
  intros E1 E2. pose proof (ev_len _ _ E1) as L1. pose proof (ev_len _ _ E2) as L2. split.
  - destruct (ev_cells _ _ E1) as [x X1], (ev_cells _ _ E2) as [y Y1]. exists (x ++ y). rewrite Y1, X1, app_assoc. reflexivity.
  - rewrite (ev_nodes _ _ E2). apply (ev_nodes _ _ E1).
  - pose proof (ev_heap _ _ E1). pose proof (ev_heap _ _ E2). lia.
  - intros r n k H. destruct (ev_holds _ _ E2 r n k H) as [H1|[H1|H1]].
    + destruct (ev_holds _ _ E1 r n k H1) as [H2|[H2|[H2 H3]]]; [auto|right; left; lia|].
      right. right. split; [lia|]. rewrite (ev_node _ _ k E2 H2). exact H3.
    + right. left. lia.
    + auto.
  - intros k Lk Nk r1 n1 r2 n2 H1 H2. destruct (le_lt_dec (ncells b) k) as [L|L]; [apply (ev_new _ _ E2 k L Nk r1 n1 r2 n2 H1 H2)|].
    pose proof (proj1 (ev_node _ _ k E2 L) Nk) as Nb.
    assert (Hb : forall r n, holds c r n k -> holds b r n k).
    { intros r n H. destruct (ev_holds _ _ E2 r n k H) as [K|[K|[_ K]]]; [exact K|lia|contradiction]. }
    apply (ev_new _ _ E1 k Lk Nb r1 n1 r2 n2 (Hb _ _ H1) (Hb _ _ H2)).
Qed.
(** nothing new is held *)
Lemma ev_less w w' : rw_cells w' = rw_cells w -> rw_nodes w' = rw_nodes w -> List.length (rw_heap w) <= List.length (rw_heap w') ->
  (wvalid w) -> (forall r n k, holds w' r n k -> holds w r n k \/ (k < ncells w /\ ~ node_cell w k)) -> ev w w'.
Proof.
  intros C N L V H. assert (Nc : forall k, node_cell w' k <-> node_cell w k) by (intro k; unfold node_cell; rewrite C, N; reflexivity). split.
  - exists []. rewrite app_nil_r. exact C.
  - exact N.
  - exact L.
  - intros r n k K. destruct (H r n k K) as [K1|[K1 K2]]; [auto|]. right. right. rewrite C, Nc. auto.
  - intros k Lk Nk r1 n1 r2 n2 H1 H2. exfalso. destruct (H _ _ _ H1) as [(o & G & i)|[K1 _]]; [|lia].
    pose proof (valid_slot w r1 o n1 (RCell k) V G i) as K. cbn in K. lia.
Qed.
Lemma ev_refl w : wvalid w -> ev w w.
Proof. intro V. apply ev_less; auto. Qed.

Lemma holds_put w r o w' h r' n k : holds w' r' n k -> rw_heap w' = list_set r o h -> (forall r', r' <> r -> nth_error h r' = nth_error (rw_heap w) r') ->
  (r' = r /\ In (n, RCell k) (ro_vars o)) \/ (r' <> r /\ holds w r' n k).
Proof.
  intros (o' & G & i) E H. unfold rget_obj in G. rewrite E in G. destruct (Nat.eq_dec r' r) as [e|e].
  - left. split; [exact e|]. subst r'. destruct (nth_error (list_set r o h) r) as [x|] eqn:Nx; [|discriminate]. inversion G; subst x.
    assert (o' = o); [|subst; exact i]. clear -Nx. revert r Nx. induction h as [|y t IH]; intros [|r] Nx; cbn in Nx; try discriminate; [congruence|apply (IH r Nx)].
  - right. split; [exact e|]. exists o'. split; [|exact i]. rewrite <- G. unfold rget_obj. rewrite <- (H r' e). symmetry. clear -e.
    revert r r' e. induction h as [|y t IH]; intros [|r] [|r'] e; cbn; try reflexivity; [congruence|]. apply IH. congruence.
Qed.

Lemma set_ev w r name a w' : wvalid w -> rsetattr w r name a = Ok w' -> ev w w'.
Proof.
  intro V. unfold rsetattr. destruct (rget_obj w r) as [o|] eqn:G; [|discriminate]. destruct (negb (rtrace_valid w (ro_trace o))); [discriminate|].
  destruct (String.eqb name "_module__state"); [discriminate|].
  assert (Raw : forall v, ev w (rput_obj w r (rset_vars o (dset name (RRaw v) (ro_vars o))))).
  { intro v. apply ev_less; [reflexivity..| |exact V|].
    - cbn. rewrite list_set_length. lia.
    - intros r' n k H. destruct (holds_put w r _ _ _ r' n k H eq_refl (fun _ _ => eq_refl)) as [[e i]|[e i]]; [|auto].
      cbn in i. destruct (In_dset' _ _ _ _ _ i) as [[_ e2]|j]; [discriminate|]. subst r'. left. exists o. auto. }
  assert (New : forall c, ev w (rput_obj (snd (ralloc w c)) r (rset_vars o (dset name (fst (ralloc w c)) (ro_vars o))))).
  { intro c. assert (Hh : forall r' n k, holds (rput_obj (snd (ralloc w c)) r (rset_vars o (dset name (fst (ralloc w c)) (ro_vars o)))) r' n k ->
       holds w r' n k \/ (r' = r /\ n = name /\ k = ncells w)).
    { intros r' n k H. destruct (holds_put w r _ _ _ r' n k H eq_refl (fun _ _ => eq_refl)) as [[e i]|[e i]]; [|auto].
      cbn in i. destruct (In_dset' _ _ _ _ _ i) as [[e1 e2]|j]; [right; inversion e2; auto|]. subst r'. left. exists o. auto. }
    split.
    - exists [c]. reflexivity.
    - reflexivity.
    - cbn. rewrite list_set_length. lia.
    - intros r' n k H. destruct (Hh r' n k H) as [K|(_ & _ & K)]; [auto|]. right. left. subst k. cbn. rewrite app_length. cbn. lia.
    - intros k Lk _ r1 n1 r2 n2 H1 H2.
      assert (forall r' n, holds w r' n k -> False). { intros r' n (o' & G' & i). pose proof (valid_slot w r' o' n (RCell k) V G' i) as K. cbn in K. lia. }
      destruct (Hh _ _ _ H1) as [K|(e1 & e2 & _)]; [exfalso; eauto|]. destruct (Hh _ _ _ H2) as [K|(e3 & e4 & _)]; [exfalso; eauto|]. subst. auto. }
  unfold rassign. destruct (dget name (ro_vars o)) as [[v|k]|].
  1, 3: destruct a as [v'|k']; [cbn; intro E; inversion E; apply Raw|];
    destruct (nth_error (rw_cells w) k') as [c|]; [|discriminate]; destruct (container_copy c) as [c'|e]; [|discriminate]; cbn [rbind]; intro E; inversion E; apply New.
  destruct (nth_error (rw_cells w) k) as [c|]; [|discriminate]. destruct (container_replace c (Some (look (rw_cells w) a)) []) as [c'|e]; [|discriminate].
  cbn [rbind]. intro E; inversion E; apply New.
Qed.
Lemma del_ev w r name w' : wvalid w -> rdelattr w r name = Ok w' -> ev w w'.
Proof.
  intro V. unfold rdelattr. destruct (rget_obj w r) as [o|] eqn:G; [|discriminate]. destruct (dmem name (ro_vars o)); [|discriminate].
  intro E. inversion E. apply ev_less; [reflexivity..| |exact V|].
  - cbn. rewrite list_set_length. lia.
  - intros r' n k H. destruct (holds_put w r _ _ _ r' n k H eq_refl (fun _ _ => eq_refl)) as [[e i]|[e i]]; [|auto].
    cbn in i. subst r'. left. exists o. split; [exact G|apply (In_ddel _ _ _ i)].
Qed.
Lemma set_path_ev parts a : forall w r w', wvalid w -> rset_path w r parts a = Ok w' -> ev w w'.
Proof.
  induction parts as [|n [|m t] IH]; intros w r w' V E; [discriminate|apply (set_ev w r n a w' V E)|].
  cbn [rset_path] in *. destruct (rget_obj w r) as [o|]; [|discriminate]. destruct (dget n (ro_vars o)) as [[v|k]|]; [|discriminate|].
  - destruct v; try discriminate. apply (IH w r0 w' V E).
  - destruct (String.eqb n "_module__state"); discriminate.
Qed.
Lemma update_loop_ev items : forall w r, wvalid w -> dvalid (ncells w) items -> ev w (fst (rupdate_loop w r items)).
Proof.
  induction items as [|[path a] t IH]; intros w r V Vi; [apply ev_refl, V|]. cbn [rupdate_loop].
  destruct (set_path_view w (split_slash path) a V (Vi path a (or_introl eq_refl)) r) as [_ G].
  destruct (rset_path w r (split_slash path) a) as [w1|e] eqn:E; [|apply ev_refl, V].
  pose proof (set_path_ev _ _ _ _ _ V E) as E1. apply (ev_trans _ w1 _ E1). apply IH; [apply (G w1 eq_refl), V|].
  intros x b i. apply (rvalid_mono (ncells w)); [apply (ev_len _ _ E1)|]. apply (Vi x b). right. exact i.
Qed.
Lemma update_ev w r current us : wvalid w -> dvalid (ncells w) current -> svalid (ncells w) us -> ev w (fst (rupdate_module w r current us)).
Proof.
  intros V Vc Vu. apply update_loop_ev; [exact V|].
  intros x a i. destruct (In_fold _ _ _ i) as [[]|(s & [E|E] & j)]; [subst s; apply (Vc x a j)|apply (Vu s E x a j)].
Qed.
Lemma update_state_ev w r us : wvalid w -> svalid (ncells w) us -> ev w (fst (rupdate_state w r us)).
Proof.
  intros V Vu. unfold rupdate_state. destruct (rget_state w r) as [s|e] eqn:Es; [|apply ev_refl, V]. apply update_ev; [exact V| |exact Vu].
  intros x a i. apply (state_In w (rvalid (ncells w)) r s (fun r o n a g j => valid_slot w r o n a V g j) Es x a i).
Qed.

(** static fields of a definition: valid and not nodes *)
Definition static (w : rworld) (a : rattr) : Prop := rvalid (ncells w) a /\ forall k, a = RCell k -> ~ node_cell w k.
Definition build_ev (d : rdef) : Prop := forall im w r im' w', wvalid w -> defall (static w) d -> rbuild d im w = Ok (r, im', w') -> ev w w' /\ rw_cells w' = rw_cells w /\ wvalid w'.
Lemma static_same w w' d : rw_cells w' = rw_cells w -> rw_nodes w' = rw_nodes w -> defall (static w) d -> defall (static w') d.
Proof.
  intros C N. apply defall_imp. intros a [H1 H2]. split; [rewrite C; exact H1|]. intros k E. unfold node_cell. rewrite C, N. apply (H2 k E).
Qed.
Lemma build_subs_ev l : Forall (fun nd => build_ev (snd nd)) l -> forall im w ds im' w', wvalid w -> subsall (static w) l ->
  rbuild_subs l im w = Ok (ds, im', w') -> ev w w' /\ rw_cells w' = rw_cells w /\ wvalid w'.
Proof.
  induction 1 as [|[n d] t H F IH]; intros im w ds im' w' V Vs E.
  - inversion E; subst. split; [apply ev_refl, V|]. auto.
  - cbn [rbuild_subs fst snd] in *. destruct (rbuild d im w) as [[[r1 im1] w1]|e] eqn:E1; [|discriminate]. cbn [rbind] in E. fold rbuild_subs in E.
    destruct (rbuild_subs t im1 w1) as [[[ds2 im2] w2]|e] eqn:E2; [|discriminate]. inversion E; subst.
    destruct (H im w r1 im1 w1 V (Vs n d (or_introl eq_refl)) E1) as (Ev1 & C1 & V1).
    assert (Vt : subsall (static w1) t).
    { intros n' d' i. apply (static_same w w1 d' C1 (ev_nodes _ _ Ev1)). apply (Vs n' d'). right. exact i. }
    destruct (IH im1 w1 ds2 im' w' V1 Vt E2) as (Ev2 & C2 & V2).
    split; [apply (ev_trans _ w1); assumption|]. split; [congruence|exact V2].
Qed.
Lemma nth_list_set_new {A} (l : list A) x y t : nth_error (list_set (List.length l) x (l ++ y :: t)) (List.length l) = Some x.
Proof. induction l; cbn; auto. Qed.
Lemma build_all_ev d : build_ev d.
Proof.
  induction d as [i|c idx subs st ini IH] using rdef_ind'; intros im w r im' w' V Vd E.
  - cbn in E. destruct (im_get i im); [|discriminate]. inversion E; subst. split; [apply ev_refl, V|auto].
  - rewrite rbuild_DDef in E. destruct (im_get idx im); [discriminate|].
    pose proof (proj1 (defall_DDef _ _ _ _ _ _) Vd) as [Vs Vst].
    set (w1 := rset_heap w (rw_heap w ++ [mkRobj c 0 false (0, 0) []])) in *.
    assert (V1 : wvalid w1).
    { intros o i x a j. cbn in *. apply in_app_or in i. destruct i as [i|[i|[]]]; [apply (V o i x a j)|subst o; destruct j]. }
    assert (E1 : ev w w1).
    { apply ev_less; [reflexivity..| |exact V|].
      - cbn. rewrite app_length. lia.
      - intros r' n k (o & G & i). left. unfold rget_obj, w1 in G. cbn in G. destruct (le_lt_dec (List.length (rw_heap w)) r') as [L|L].
        + rewrite nth_error_app2 in G by exact L. destruct (r' - List.length (rw_heap w)) as [|[|q]]; cbn in G; [|discriminate..]. inversion G; subst. destruct i.
        + rewrite nth_error_app1 in G by exact L. exists o. auto. }
    destruct (rbuild_subs subs ((idx, List.length (rw_heap w)) :: im) w1) as [[[ds im2] w2]|e] eqn:Eb; [|discriminate].
    destruct (build_subs_ev subs IH _ w1 _ _ _ V1 Vs Eb) as (E2 & C2 & V2). cbn [rbind] in E. inversion E; subst. clear E.
    set (o := mkRobj c (S (rw_uuid w2)) ini (rw_trace w2) (dupdate (dupdate [] st) (dict_of ds))).
    assert (Ho : forall x a, In (x, a) (ro_vars o) -> static w a).
    { intros x a j. cbn in j. destruct (In_dupdate' _ _ _ j) as [j1|j1].
      - destruct (In_dupdate' _ _ _ j1) as [[]|j2]. apply (Vst x a j2).
      - destruct (In_dupdate' _ _ _ j1) as [[]|j2]. destruct (rbuild_raw _ _ _ _ _ _ Eb x a j2) as [v Ev]. subst a. split; [exact Logic.I|discriminate]. }
    assert (V3 : wvalid (mkRworld (list_set (List.length (rw_heap w)) o (rw_heap w2)) (rw_cells w2) (S (rw_uuid w2)) (rw_trace w2) (rw_nodes w2))).
    { intros o' i x a j. cbn in *. rewrite C2. destruct (In_list_set _ _ _ _ i) as [E'|E'].
      - subst o'. apply (Ho x a j).
      - rewrite <- C2. apply (V2 o' E' x a j). }
    split; [|split; [exact C2|exact V3]].
    apply (ev_trans _ w1 _ E1). apply (ev_trans _ w2 _ E2). apply ev_less; [reflexivity..| |exact V2|].
    + cbn. rewrite list_set_length. lia.
    + intros r' n k H. destruct (holds_put w2 _ _ _ _ r' n k H eq_refl (fun _ _ => eq_refl)) as [[e i]|[e i]]; [|auto].
      right. destruct (Ho n (RCell k) i) as [K1 K2]. rewrite C2. split; [exact K1|]. unfold node_cell. rewrite C2, (ev_nodes _ _ E2). apply (K2 k eq_refl).
Qed.
Lemma merge_ev w d ss r w' : wvalid w -> defall (static w) d -> svalid (ncells w) ss -> rmerge w d ss = Ok (r, w') -> ev w w'.
Proof.
  intros V Vd Vs. unfold rmerge. destruct (rbuild d [] w) as [[[r1 im] w1]|e] eqn:Eb; [|discriminate].
  destruct (build_all_ev d _ _ _ _ _ V Vd Eb) as (E1 & C1 & V1). cbn [rbind].
  pose proof (update_ev w1 r1 [] ss V1) as U. destruct (rupdate_module w1 r1 [] ss) as [w2 [u|e]]; [|discriminate].
  intro E. inversion E; subst. apply (ev_trans _ w1 _ E1). apply U; [intros ? ? []|rewrite C1; exact Vs].
Qed.

(** pop_state: besides [ev], what it returns is held no more *)
Definition less (w w' : rworld) : Prop := rw_cells w' = rw_cells w /\ rw_nodes w' = rw_nodes w /\ List.length (rw_heap w) = List.length (rw_heap w')
  /\ forall r o', rget_obj w' r = Some o' -> exists o, rget_obj w r = Some o /\ ro_id o' = ro_id o /\
     forall n a, In (n, a) (ro_vars o') -> In (n, a) (ro_vars o).
Lemma less_refl w : less w w.
Proof. repeat split; auto. intros r o G. exists o. auto. Qed.
Lemma less_trans a b c : less a b -> less b c -> less a c.
Proof.
  intros (C1 & N1 & L1 & H1) (C2 & N2 & L2 & H2). split; [congruence|]. split; [congruence|]. split; [congruence|].
  intros r o G. destruct (H2 r o G) as (o1 & G1 & I1 & K1). destruct (H1 r o1 G1) as (o2 & G2 & I2 & K2). exists o2. split; [exact G2|]. split; [congruence|]. intros n x i. apply K2, K1, i.
Qed.
Lemma less_holds w w' r n k : less w w' -> holds w' r n k -> holds w r n k.
Proof. intros (_ & _ & _ & H) (o & G & i). destruct (H r o G) as (o1 & G1 & _ & K). exists o1. split; [exact G1|apply K, i]. Qed.
Lemma less_ev w w' : wvalid w -> less w w' -> ev w w'.
Proof.
  intros V L. pose proof L as (C & N & Ln & H). apply ev_less; [exact C|exact N|lia|exact V|]. intros r n k K. left. apply (less_holds w w' r n k L K).
Qed.
Lemma del_less w r name w' : rdelattr w r name = Ok w' -> less w w'.
Proof.
  unfold rdelattr. destruct (rget_obj w r) as [o|] eqn:G; [|discriminate]. destruct (dmem name (ro_vars o)); [|discriminate].
  intro E. inversion E. split; [reflexivity|]. split; [reflexivity|]. split; [cbn; rewrite list_set_length; reflexivity|].
  intros r' o' G'. destruct (Nat.eq_dec r' r) as [e|e].
  - subst r'. unfold rget_obj in G'. cbn in G'. assert (L : r < List.length (rw_heap w)) by (apply nth_error_Some; unfold rget_obj in G; congruence).
    rewrite nth_list_set_same in G' by exact L. inversion G'; subst. exists o. split; [exact G|]. split; [reflexivity|]. cbn. intros n a i. apply (In_ddel _ _ _ i).
  - unfold rget_obj in G'. cbn in G'. rewrite nth_list_set_other in G' by congruence. exists o'. auto.
Qed.
Definition nodups (w : rworld) : Prop := forall r o, rget_obj w r = Some o -> NoDup (keys (ro_vars o)).
Definition owned (w : rworld) : Prop := forall k, node_cell w k -> forall r1 n1 r2 n2, holds w r1 n1 k -> holds w r2 n2 k -> r1 = r2 /\ n1 = n2.
Lemma del_gone w r name w' k : nodups w -> owned w -> node_cell w k -> rdelattr w r name = Ok w' -> holds w r name k -> forall r' n', ~ holds w' r' n' k.
Proof.
  intros ND O N E H r' n' K. pose proof (less_holds _ _ _ _ _ (del_less _ _ _ _ E) K) as K0. destruct (O k N _ _ _ _ H K0) as [e1 e2]. subst r' n'.
  unfold rdelattr in E. destruct (rget_obj w r) as [o|] eqn:G; [|discriminate]. destruct (dmem name (ro_vars o)); [|discriminate]. inversion E; subst.
  destruct K as (o' & G' & i). unfold rget_obj in G'. cbn in G'. assert (L : r < List.length (rw_heap w)) by (apply nth_error_Some; unfold rget_obj in G; congruence).
  rewrite nth_list_set_same in G' by exact L. inversion G'; subst. cbn in i. apply (In_ddel_iff _ _ _ (ND r o G)) in i. destruct i as [_ i]. cbn in i. congruence.
Qed.
Lemma del_nodups w r name w' : nodups w -> rdelattr w r name = Ok w' -> nodups w'.
Proof.
  intros ND E. unfold rdelattr in E. destruct (rget_obj w r) as [o|] eqn:G; [|discriminate]. destruct (dmem name (ro_vars o)); [|discriminate]. inversion E; subst.
  intros r' o' G'. destruct (Nat.eq_dec r' r) as [e|e].
  - subst r'. unfold rget_obj in G'. cbn in G'. assert (L : r < List.length (rw_heap w)) by (apply nth_error_Some; unfold rget_obj in G; congruence).
    rewrite nth_list_set_same in G' by exact L. inversion G'; subst. cbn. apply NoDup_keys_ddel, (ND r o G).
  - unfold rget_obj in G'. cbn in G'. rewrite nth_list_set_other in G' by congruence. apply (ND r' o' G').
Qed.
Lemma less_owned w w' : less w w' -> owned w -> owned w'.
Proof.
  intros L O k N r1 n1 r2 n2 H1 H2. pose proof L as (C & Nn & _ & _). apply (O k); [unfold node_cell in *; rewrite <- C, <- Nn; exact N|apply (less_holds w w' _ _ _ L H1)|apply (less_holds w w' _ _ _ L H2)].
Qed.
(** what has been popped: nodes that nothing holds *)
Definition gone (w : rworld) (ss : list (dict rattr)) : Prop := forall s x k, In s ss -> In (x, RCell k) s -> node_cell w k /\ forall r n, ~ holds w r n k.
Lemma gone_less w w' ss : less w w' -> gone w ss -> gone w' ss.
Proof.
  intros L H s x k i j. pose proof L as (C & Nn & _ & _). destruct (H s x k i j) as [H1 H2]. split; [unfold node_cell in *; rewrite C, Nn; exact H1|].
  intros r n K. apply (H2 r n), (less_holds w w' r n k L K).
Qed.
Definition pop_post (w : rworld) (x : rpop_result) : Prop :=
  less w (fst x) /\ nodups (fst x) /\ owned (fst x) /\ forall mi ss, snd x = Ok (mi, ss) -> gone (fst x) ss.
Lemma pop_fields_gone nt ps self parts (rec : rworld -> nat -> list nat -> list string -> list (dict rattr) -> rpop_result) w0 o0 :
  (forall w r mi parts ss, rw_nodes w = nt -> nodups w -> owned w -> gone w ss -> pop_post w (rec w r mi parts ss)) ->
  rget_obj w0 self = Some o0 ->
  forall l, (forall x, In x l -> In x (ro_vars o0)) -> NoDup (keys (ro_vars o0)) ->
  forall w mi ss, rw_nodes w = nt -> less w0 w -> nodups w -> owned w -> gone w ss -> pop_post w (rpop_fields rec nt ps self l w mi parts ss).
Proof.
  intros H G0 l. induction l as [|[n a] t IH]; intros Hl ND0 w mi ss Nt L ND O Gn.
  - split; [apply less_refl|]. split; [exact ND|]. split; [exact O|]. intros mi' ss' E. inversion E; subst. exact Gn.
  - specialize (IH (fun x j => Hl x (or_intror j)) ND0).
    assert (D : pop_post w (if is_node nt (look (rw_cells w) a) then
            match rpop_match (rw_cells w) ps ss (join_path (parts ++ [n])) a with
            | Some states1 =>
                match rdelattr w self n with
                | Ok w1 => rpop_fields rec nt ps self t w1 mi parts states1
                | Err e => (w, Err e)
                end
            | None => rpop_fields rec nt ps self t w mi parts ss
            end
          else rpop_fields rec nt ps self t w mi parts ss)).
    { destruct (is_node nt (look (rw_cells w) a)) eqn:Na; [|apply IH; assumption].
      destruct (rpop_match (rw_cells w) ps ss (join_path (parts ++ [n])) a) as [ss1|] eqn:Em; [|apply IH; assumption].
      destruct (rdelattr w self n) as [w1|e] eqn:Ed.
      2: { split; [apply less_refl|]. split; [exact ND|]. split; [exact O|]. discriminate. }
      pose proof (del_less _ _ _ _ Ed) as L1.
      assert (Held : forall k, a = RCell k -> holds w self n k).
      { intros k Ek. subst a. pose proof Ed as Ed'. unfold rdelattr in Ed'. destruct (rget_obj w self) as [o|] eqn:G; [|discriminate].
        destruct (dmem n (ro_vars o)) eqn:Dm; [|discriminate]. exists o. split; [exact G|].
        unfold dmem in Dm. destruct (dget n (ro_vars o)) as [b|] eqn:Dg; [|discriminate]. apply dget_In in Dg.
        destruct L as (_ & _ & _ & L). destruct (L self o G) as (o1 & G1 & _ & K). rewrite G0 in G1. inversion G1; subst o1.
        pose proof (K n b Dg) as K1. pose proof (Hl (n, RCell k) (or_introl eq_refl)) as K2.
        pose proof (In_dget n b _ ND0 K1) as D1. pose proof (In_dget n (RCell k) _ ND0 K2) as D2. assert (b = RCell k) by congruence. subst b. exact Dg. }
      destruct (IH w1 mi ss1) as (P1 & P2 & P3 & P4).
      - destruct L1 as (_ & N1 & _). congruence.
      - apply (less_trans _ w); assumption.
      - apply (del_nodups _ _ _ _ ND Ed).
      - apply (less_owned _ _ L1 O).
      - pose proof (pop_match_In (fun b => forall k, b = RCell k -> node_cell w1 k /\ forall r' n', ~ holds w1 r' n' k)
          (rw_cells w) ps (join_path (parts ++ [n])) a) as PM.
        intros s x k i j. refine (PM _ ss ss1 _ Em s x (RCell k) i j k eq_refl).
        + intros k' Ek. subst a. pose proof L1 as (C1 & N1 & _). split; [unfold node_cell; rewrite C1, N1, Nt; exact Na|].
          apply (del_gone w self n w1 k' ND O); [unfold node_cell; rewrite Nt; exact Na|exact Ed|apply Held; reflexivity].
        + intros s' x' b i' j' k' Ek. subst b. apply (gone_less w w1 ss L1 Gn s' x' k' i' j').
      - split; [apply (less_trans _ w1); assumption|]. split; [exact P2|]. split; [exact P3|exact P4]. }
    cbn [rpop_fields]. destruct a as [v|k]; [destruct v|]; try exact D.
    pose proof (H w r mi (parts ++ [n]) ss Nt ND O Gn) as (R1 & R2 & R3 & R4). destruct (rec w r mi (parts ++ [n]) ss) as [w1 [[mi1 ss1]|e]]; cbn [fst snd] in *.
    + destruct (IH w1 mi1 ss1) as (P1 & P2 & P3 & P4); [destruct R1 as (_ & N1 & _); congruence|apply (less_trans _ w); assumption|exact R2|exact R3|apply (R4 mi1 ss1 eq_refl)|].
      split; [apply (less_trans _ w1); assumption|]. split; [exact P2|]. split; [exact P3|exact P4].
    + split; [exact R1|]. split; [exact R2|]. split; [exact R3|]. discriminate.
Qed.
Lemma pop_rec_gone ps fuel : forall w r mi parts ss, nodups w -> owned w -> gone w ss -> pop_post w (rpop_rec fuel ps w r mi parts ss).
Proof.
  induction fuel as [|n IH]; intros w r mi parts ss ND O Gn.
  { split; [apply less_refl|]. split; [exact ND|]. split; [exact O|]. discriminate. }
  cbn [rpop_rec]. destruct (rget_obj w r) as [o|] eqn:G.
  2: { split; [apply less_refl|]. split; [exact ND|]. split; [exact O|]. discriminate. }
  destruct (nmem (ro_id o) mi).
  { split; [apply less_refl|]. split; [exact ND|]. split; [exact O|]. intros mi' ss' E. inversion E; subst. exact Gn. }
  pose proof (pop_fields_gone (rw_nodes w) ps r parts (fun w r mi parts st => rpop_rec n ps w r mi parts st) w o
    (fun w r mi p ss _ a b c => IH w r mi p ss a b c) G (ro_vars o) (fun x j => j) (ND r o G) w mi ss eq_refl (less_refl w) ND O Gn) as (R1 & R2 & R3 & R4).
  destruct (rpop_fields _ (rw_nodes w) ps r (ro_vars o) w mi parts ss) as [w1 [[mi1 ss1]|e]]; cbn [fst snd] in *; (split; [exact R1|]; split; [exact R2|]; split; [exact R3|]); [|discriminate].
  intros mi' ss' E. inversion E; subst. apply (R4 mi1 ss' eq_refl).
Qed.
Lemma pop_gone fuel w r fs : nodups w -> owned w -> less w (fst (rpop_state fuel w r fs)) /\ nodups (fst (rpop_state fuel w r fs)) /\
  forall ss, snd (rpop_state fuel w r fs) = Ok ss -> gone (fst (rpop_state fuel w r fs)) ss.
Proof.
  intros ND O. unfold rpop_state. destruct fs as [|f t]; [split; [apply less_refl|split; [exact ND|discriminate]]|].
  destruct (rmapM to_predicate (f :: t)) as [ps|e]; [|split; [apply less_refl|split; [exact ND|discriminate]]].
  assert (G0 : gone w (repeat [] (List.length ps))) by (intros s x k i; rewrite (repeat_spec _ _ _ i); intros []).
  destruct (pop_rec_gone ps fuel w r [] [] _ ND O G0) as (R1 & R2 & _ & R4).
  destruct (rpop_rec fuel ps w r [] [] (repeat [] (List.length ps))) as [w1 [[mi1 ss1]|e]]; cbn [fst snd] in *; (split; [exact R1|split; [exact R2|]]); [|discriminate].
  intros ss E. inversion E; subst. intros s x k i j. apply in_map_iff in i. destruct i as (s0 & E0 & i). subst s. apply (R4 mi1 ss1 eq_refl s0 x k i), In_gmk, j.
Qed.
