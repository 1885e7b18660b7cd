(** Revalue_proofs: replacing or dropping the node attributes of a heap; merging a
    definition with any states that fit it. *)
From Coq Require Import Permutation Sorted Lia.
From Verif Require Import PyBase PyBaseFacts ValuesM Spec_Eq ValuesFacts FiltersM StateM State_proofs ModuleM Spec_Module Graph_facts Dfs_proofs
  Bisim_proofs Update_proofs RoundTrip_proofs Clone_proofs Laws_proofs.
Local Open Scope string_scope.
Local Open Scope list_scope.

Section Revalue.
Variable g : nat -> string -> option attr.
Variable nt : list string.
Hypothesis g_ok : forall x n b, g x n = Some b -> is_submodule b = false /\ is_node nt b = true /\ wf_attr b.

Definition isn (a : attr) : bool := negb (is_submodule a) && is_node nt a.
Definition re1 (x : nat) (na : string * attr) : list (string * attr) :=
  if isn (snd na) then match g x (fst na) with Some b => [(fst na, b)] | None => [] end else [na].
Definition revars (x : nat) (l : list (string * attr)) : list (string * attr) := flat_map (re1 x) l.
Definition reobj (xo : nat * mobj) : mobj := set_vars (snd xo) (revars (fst xo) (m_vars (snd xo))).
Definition reheap (h : list mobj) : list mobj := map reobj (combine (seq 0 (List.length h)) h).
Definition reworld (w : world) : world := set_heap w (reheap (w_heap w)).

Lemma re_get w x : get_obj (reworld w) x = option_map (fun o => set_vars o (revars x (m_vars o))) (get_obj w x).
Proof.
  unfold get_obj, reworld, reheap. cbn.
  assert (H : forall h k, nth_error (map reobj (combine (seq k (List.length h)) h)) x = option_map (fun o => set_vars o (revars (k + x) (m_vars o))) (nth_error h x)).
  { clear. induction x as [|x IH]; intros [|o h] k; cbn; try reflexivity.
    - now rewrite Nat.add_0_r.
    - rewrite IH. now rewrite Nat.add_succ_r. }
  apply (H (w_heap w) 0).
Qed.
Lemma re_len w : List.length (w_heap (reworld w)) = List.length (w_heap w).
Proof. unfold reworld, reheap. cbn. rewrite map_length, combine_length, seq_length. lia. Qed.

Lemma re_keys_in x l n : In n (keys (revars x l)) -> In n (keys l).
Proof.
  induction l as [|[m a] l IH]; cbn; [auto|]. unfold keys in *. rewrite map_app, in_app_iff. intros [H|H]; [|auto].
  left. unfold re1 in H. cbn in H. destruct (isn a); [destruct (g x m)|]; cbn in H; tauto.
Qed.
Lemma re_NoDup x l : NoDup (keys l) -> NoDup (keys (revars x l)).
Proof.
  induction l as [|[m a] l IH]; cbn; [auto|]. intros H. inversion H as [|? ? H1 H2]; subst.
  assert (K : ~ In m (keys (revars x l))) by (intros I; apply H1; eapply re_keys_in; eauto).
  unfold re1. cbn. destruct (isn a); [destruct (g x m)|]; cbn; auto; constructor; auto.
Qed.
Lemma re_dget x l n : NoDup (keys l) -> dget n (revars x l) =
  match dget n l with Some a => if isn a then g x n else Some a | None => None end.
Proof.
  induction l as [|[m a] l IH]; intros H; [reflexivity|]. inversion H as [|? ? H1 H2]; subst. cbn [dget revars flat_map].
  destruct (String.eqb_spec n m) as [->|NE].
  - assert (K : dget m (flat_map (re1 x) l) = None) by (apply dget_None; intros I; apply H1; eapply re_keys_in; eauto).
    unfold re1. cbn. destruct (isn a); [destruct (g x m)|]; cbn; rewrite ?String.eqb_refl; auto.
  - unfold re1 at 1. cbn. destruct (isn a); [destruct (g x m)|]; cbn [app dget]; try (destruct (String.eqb_spec n m); [congruence|]); now apply IH.
Qed.
Lemma re_sorted x l : StronglySorted klt l -> StronglySorted klt (revars x l).
Proof.
  induction 1 as [|[m a] l HS IH HF]; cbn; [constructor|].
  assert (K : Forall (klt (m, a)) (revars x l)).
  { apply Forall_forall. intros [n b] I. assert (In n (keys l)) as J by (eapply re_keys_in; apply in_map_iff; exists (n, b); split; [reflexivity|exact I]).
    apply in_map_iff in J as ((n' & c) & E & J). cbn in E. subst n'. rewrite Forall_forall in HF. exact (HF _ J). }
  unfold re1. cbn. destruct (isn a); [destruct (g x m)|]; cbn; auto; constructor; auto.
Qed.
Lemma re_sort x l : NoDup (keys l) -> sort_by_key (revars x l) = revars x (sort_by_key l).
Proof.
  intros H. apply strict_perm_eq.
  - apply sort_strict. now apply re_NoDup.
  - apply re_sorted, sort_strict. exact H.
  - rewrite sort_perm. apply Permutation_flat_map. symmetry. apply sort_perm.
Qed.

Lemma isn_sub a : is_submodule a = true -> isn a = false.
Proof. intros H. unfold isn. now rewrite H. Qed.
Lemma re_wf w : wf_world w -> wf_world (reworld w).
Proof.
  intros W. constructor.
  - unfold reworld, reheap. cbn. rewrite map_map. replace (map _ _) with (map m_id (w_heap w)); [apply W|].
    generalize 0. induction (w_heap w) as [|o h IH]; intros k; cbn; [reflexivity|]. f_equal. apply IH.
  - intros x o. rewrite re_get. destruct (get_obj w x) as [p|] eqn:E; [|discriminate]. cbn. intros [= <-].
    destruct (wf_objs w W x p E) as [W1 W2 W3 W4 W5]. constructor; cbn.
    + exact W1.
    + now apply re_NoDup.
    + intros I. apply W3. eapply re_keys_in; eauto.
    + intros n y. rewrite re_dget by exact W2. destruct (dget n (m_vars p)) as [a|] eqn:D; [|discriminate].
      destruct (isn a); [|intros [= ->]; pose proof (re_len w) as RL; cbn in RL; rewrite RL; exact (W4 n y D)]. intros Hg. apply g_ok in Hg as [H _]. discriminate.
    + intros n a. rewrite re_dget by exact W2. destruct (dget n (m_vars p)) as [b|] eqn:D; [|discriminate].
      destruct (isn b); [|intros [= ->]; exact (W5 n a D)]. intros Hg. now apply g_ok in Hg.
Qed.
Lemma re_sub_dget w x o n y : wf_world w -> get_obj w x = Some o ->
  (dget n (revars x (m_vars o)) = Some (ARaw (PyMod y)) <-> dget n (m_vars o) = Some (ARaw (PyMod y))).
Proof.
  intros W Ho. rewrite re_dget by (apply (wf_objs w W x o Ho)). destruct (dget n (m_vars o)) as [a|]; [|tauto].
  destruct (isn a) eqn:E; [|tauto]. split; [intros H; apply g_ok in H as [H _]; discriminate|].
  intros [= ->]. discriminate.
Qed.
Lemma re_follow w : wf_world w -> forall p x, follow (reworld w) x p = follow w x p.
Proof.
  intros W. induction p as [|n p IH]; intros x; cbn [follow]; rewrite re_get; destruct (get_obj w x) as [o|] eqn:Ho; cbn [option_map]; auto.
  change (m_vars (set_vars o (revars x (m_vars o)))) with (revars x (m_vars o)).
  pose proof (fun y => re_sub_dget w x o n y W Ho) as R.
  destruct (dget n (m_vars o)) as [a|], (dget n (revars x (m_vars o))) as [b|]; auto.
  - destruct (is_submodule a) eqn:Sa; [|destruct (is_submodule b) eqn:Sb].
    + apply is_sub_inv in Sa as [c ->]. pose proof (proj2 (R c) eq_refl) as K. injection K as ->. apply IH.
    + apply is_sub_inv in Sb as [c ->]. pose proof (proj1 (R c) eq_refl) as K. injection K as ->. discriminate.
    + destruct a as [[]|], b as [[]|]; try discriminate; reflexivity.
  - destruct (is_submodule a) eqn:Sa.
    + apply is_sub_inv in Sa as [c ->]. pose proof (proj2 (R c) eq_refl). discriminate.
    + destruct a as [[]|]; try discriminate; reflexivity.
  - destruct (is_submodule b) eqn:Sb.
    + apply is_sub_inv in Sb as [c ->]. pose proof (proj1 (R c) eq_refl). discriminate.
    + destruct b as [[]|]; try discriminate; reflexivity.
Qed.
Lemma re_reaches w r x : wf_world w -> (reaches (reworld w) r x <-> reaches w r x).
Proof. intros W. unfold reaches. split; intros [p H]; exists p; [rewrite re_follow in H|rewrite re_follow]; auto. Qed.

(** ** the definition *)
Lemma re_make_fields rec rec' x : (forall r mi, rec' r mi = rec r mi) -> forall l mi,
  make_fields rec' nt (revars x l) mi = make_fields rec nt l mi.
Proof.
  intros HR. induction l as [|[n a] l IH]; intros mi; [reflexivity|]. cbn [revars flat_map]. unfold re1 at 1. cbn [fst snd].
  destruct (isn a) eqn:E.
  - unfold isn in E. apply andb_prop in E as [E1 E2]. apply negb_true_iff in E1.
    assert (R : make_fields rec nt ((n, a) :: l) mi = make_fields rec nt l mi).
    { cbn [make_fields]. destruct a as [[]|]; try discriminate; rewrite E2; cbn [negb andb];
        destruct (make_fields rec nt l mi) as [[[? ?] ?]|]; reflexivity. }
    rewrite R. destruct (g x n) as [b|] eqn:G; [|apply IH]. apply g_ok in G as (G1 & G2 & _). cbn [app].
    cbn [make_fields]. fold (revars x l). rewrite IH. destruct b as [[]|]; try discriminate; rewrite G2; cbn [negb andb];
        destruct (make_fields rec nt l mi) as [[[? ?] ?]|]; reflexivity.
  - cbn [app make_fields]. fold (revars x l). destruct a as [[]|]; rewrite ?HR, ?IH; try reflexivity.
    destruct (rec _ mi) as [[d mi1]|]; [|reflexivity]. cbn [rbind]. now rewrite IH.
Qed.
Lemma re_make_def w : wf_world w -> w_nodes w = nt -> forall fuel r mi, make_def fuel (reworld w) r mi = make_def fuel w r mi.
Proof.
  intros W N. induction fuel as [|n IH]; intros r mi; [reflexivity|]. cbn [make_def]. rewrite re_get.
  destruct (get_obj w r) as [o|] eqn:Ho; [|reflexivity]. cbn [option_map]. cbn [set_vars m_id m_vars m_cls m_init].
  destruct (index_of (m_id o) mi); [reflexivity|]. change (w_nodes (reworld w)) with (w_nodes w). rewrite N.
  rewrite re_sort by (apply (wf_objs w W r o Ho)). now rewrite (re_make_fields (make_def n w) (make_def n (reworld w))).
Qed.
Lemma re_module_def w r : wf_world w -> w_nodes w = nt -> get_module_def (reworld w) r = get_module_def w r.
Proof. intros W N. unfold get_module_def, dfs_fuel. now rewrite re_len, re_make_def. Qed.

(** ** the state *)
Record ritem := mkRi { ri_path : list string; ri_own : nat; ri_name : string; ri_val : attr }.
Definition ri_kv (parts : list string) (i : ritem) : string * attr := (join_path (parts ++ ri_path i ++ [ri_name i]), ri_val i).
Definition ri_re (parts : list string) (i : ritem) : list (string * attr) :=
  match g (ri_own i) (ri_name i) with Some b => [(join_path (parts ++ ri_path i ++ [ri_name i]), b)] | None => [] end.
Definition ri_sub (n : string) (i : ritem) : ritem := mkRi (n :: ri_path i) (ri_own i) (ri_name i) (ri_val i).
Definition iter_ok (w : world) (x : nat) (parts : list string) (res res' : result (list (string * attr) * list nat)) : Prop :=
  match res with
  | Err e => res' = Err e
  | Ok (xs, sn) => exists its, xs = map (ri_kv parts) its /\ res' = Ok (flat_map (ri_re parts) its, sn) /\
      Forall (fun i => follow w x (ri_path i) = Some (ri_own i) /\ node_attr w (ri_own i) (ri_name i) (ri_val i)) its
  end.
Lemma ri_sub_kv parts n its : map (ri_kv (parts ++ [n])) its = map (ri_kv parts) (map (ri_sub n) its).
Proof. rewrite map_map. apply map_ext. intros i. unfold ri_kv, ri_sub. cbn. now rewrite <- app_assoc. Qed.
Lemma ri_sub_re parts n its : flat_map (ri_re (parts ++ [n])) its = flat_map (ri_re parts) (map (ri_sub n) its).
Proof.
  induction its as [|i its IH]; cbn [flat_map map]; [reflexivity|]. rewrite IH. f_equal. unfold ri_re, ri_sub. cbn. now rewrite <- app_assoc.
Qed.
Lemma re_iter_fields w rec rec' x o parts : wf_world w -> w_nodes w = nt -> get_obj w x = Some o ->
  (forall r seen parts, iter_ok w r parts (rec r seen parts) (rec' r seen parts)) ->
  forall l, (forall n a, In (n, a) l -> dget n (m_vars o) = Some a) -> forall seen,
  iter_ok w x parts (iter_fields rec nt l seen parts) (iter_fields rec' nt (revars x l) seen parts).
Proof.
  intros W N Ho HR. induction l as [|[n a] l IH]; intros HL seen.
  - exists []. cbn. auto.
  - assert (HL' : forall n a, In (n, a) l -> dget n (m_vars o) = Some a) by (intros ? ? I; apply HL; now right).
    specialize (IH HL'). cbn [revars flat_map]. unfold re1 at 1. cbn [fst snd]. destruct (isn a) eqn:E.
    + unfold isn in E. apply andb_prop in E as [E1 E2]. apply negb_true_iff in E1.
      assert (R : iter_fields rec nt ((n, a) :: l) seen parts =
                  (do (ys, seen2) <- iter_fields rec nt l seen parts; Ok ((join_path (parts ++ [n]), a) :: ys, seen2))).
      { cbn [iter_fields]. rewrite E2. destruct a as [[]|]; try discriminate; reflexivity. }
      assert (NA : node_attr w x n a).
      { apply node_attr_iff. exists o. split; [exact Ho|]. split; [apply HL; now left|]. rewrite N. auto. }
      assert (FX : follow w x [] = Some x) by (cbn; now rewrite Ho).
      rewrite R. pose proof (IH seen) as I. unfold iter_ok in I |- *. destruct (iter_fields rec nt l seen parts) as [[ys s2]|e].
      * destruct I as (its & -> & I2 & I3). cbn [rbind]. exists (mkRi [] x n a :: its). split; [reflexivity|].
        split; [|constructor; [split; [exact FX|exact NA]|exact I3]].
        cbn [flat_map]. unfold ri_re at 1. cbn [ri_own ri_name ri_path app].
        destruct (g x n) as [b|] eqn:G; [|exact I2]. apply g_ok in G as (G1 & G2 & _). cbn [app iter_fields]. fold (revars x l). rewrite I2, G2.
        destruct b as [[]|]; try discriminate; reflexivity.
      * cbn [rbind]. destruct (g x n) as [b|] eqn:G; [|exact I]. apply g_ok in G as (G1 & G2 & _). cbn [app iter_fields]. fold (revars x l). rewrite I, G2.
        destruct b as [[]|]; try discriminate; reflexivity.
    + cbn [app]. fold (revars x l).
      assert (NS : is_submodule a = false -> iter_ok w x parts (iter_fields rec nt ((n, a) :: l) seen parts) (iter_fields rec' nt ((n, a) :: revars x l) seen parts)).
      { intros E1. unfold isn in E. rewrite E1 in E. cbn in E.
        assert (R : forall rec l, iter_fields rec nt ((n, a) :: l) seen parts = (do (ys, seen2) <- iter_fields rec nt l seen parts; Ok (ys, seen2))).
        { intros rc l0. cbn [iter_fields]. rewrite E. destruct a as [[]|]; try discriminate; reflexivity. }
        rewrite !R. pose proof (IH seen) as I. unfold iter_ok in I |- *. destruct (iter_fields rec nt l seen parts) as [[ys s2]|e]; cbn [rbind].
        - destruct I as (its & -> & I2 & I3). exists its. rewrite I2. auto.
        - rewrite I. reflexivity. }
      destruct (is_submodule a) eqn:Sa; [|now apply NS]. clear NS. apply is_sub_inv in Sa as [r ->]. cbn [iter_fields].
      pose proof (HR r seen (parts ++ [n])) as H. unfold iter_ok in H. destruct (rec r seen (parts ++ [n])) as [[xs s1]|e]; [|rewrite H; reflexivity].
      destruct H as (its1 & -> & H2 & H3). rewrite H2. cbn [rbind]. pose proof (IH s1) as I. unfold iter_ok in I.
      destruct (iter_fields rec nt l s1 parts) as [[ys s2]|e]; [|rewrite I; reflexivity].
      destruct I as (its2 & -> & I2 & I3). rewrite I2. cbn [rbind]. exists (map (ri_sub n) its1 ++ its2).
      split; [now rewrite map_app, ri_sub_kv|]. split; [now rewrite flat_map_app, ri_sub_re|].
      apply Forall_app. split; [|exact I3]. apply Forall_forall. intros i I. apply in_map_iff in I as (j & <- & I). rewrite Forall_forall in H3.
      destruct (H3 j I) as [F1 F2]. cbn [ri_sub ri_path ri_own ri_name ri_val]. split; [|exact F2].
      cbn [follow]. rewrite Ho, (HL n _ (or_introl eq_refl)). exact F1.
Qed.
Lemma re_iter w : wf_world w -> w_nodes w = nt -> forall fuel r seen parts,
  iter_ok w r parts (iter_state_rec fuel w r seen parts) (iter_state_rec fuel (reworld w) r seen parts).
Proof.
  intros W N. induction fuel as [|n IH]; intros r seen parts; [reflexivity|]. cbn [iter_state_rec]. rewrite re_get.
  destruct (get_obj w r) as [o|] eqn:Ho; [|reflexivity]. cbn [option_map]. cbn [set_vars m_id m_vars].
  destruct (nmem (m_id o) seen); [exists []; cbn; auto|]. change (w_nodes (reworld w)) with (w_nodes w). rewrite N.
  rewrite re_sort by (apply (wf_objs w W r o Ho)). apply (re_iter_fields w _ _ r o parts W N Ho IH).
  intros m a I. apply In_dget; [apply (wf_objs w W r o Ho)|]. eapply Permutation_in; [apply sort_perm|exact I].
Qed.
End Revalue.

(** ** merging a definition with states that fit it *)
Definition refill (U : state) (kv : string * attr) : list (string * attr) :=
  match dget (fst kv) U with Some b => [(fst kv, b)] | None => [] end.
Lemma refill_keys U l k : In k (keys (flat_map (refill U) l)) <-> In k (keys l) /\ In k (keys U).
Proof.
  induction l as [|[m a] l IH]; cbn [flat_map keys map]; [cbn; tauto|]. unfold keys in *. rewrite map_app, in_app_iff, IH. cbn [map fst].
  unfold refill. cbn [fst]. destruct (dget m U) as [b|] eqn:D; cbn.
  - apply dget_In_keys in D. split; [intros [[<-|[]]|[H1 H2]]; auto|]. intros [[<-|H] H2]; auto.
  - apply dget_None in D. split; [intros [[]|[H1 H2]]; auto|]. intros [[<-|H] H2]; [now destruct D|auto].
Qed.
Lemma refill_NoDup U l : NoDup (keys l) -> NoDup (keys (flat_map (refill U) l)).
Proof.
  induction l as [|[m a] l IH]; cbn [flat_map]; [auto|]. intros H. inversion H as [|? ? H1 H2]; subst. unfold refill at 1. cbn [fst].
  destruct (dget m U); cbn; [|now apply IH]. constructor; [|now apply IH]. intros I. apply (refill_keys U l) in I as [I _]. contradiction.
Qed.
Lemma refill_dget U l k : NoDup (keys l) -> dget k (flat_map (refill U) l) = if in_dec string_dec k (keys l) then dget k U else None.
Proof.
  intros N. destruct (in_dec string_dec k (keys l)) as [I|I].
  - destruct (dget k U) as [b|] eqn:D.
    + apply In_dget; [now apply refill_NoDup|]. apply in_map_iff in I as ((k' & a) & E & I). cbn in E. subst k'.
      apply in_flat_map. exists (k, a). split; [exact I|]. unfold refill. cbn. rewrite D. now left.
    + apply dget_None. rewrite refill_keys. apply dget_None in D. tauto.
  - apply dget_None. rewrite refill_keys. tauto.
Qed.

Lemma merge_fit w r d s us U wb :
  wf_world w -> valid w r -> names_ok w r -> get_module_def w r = Ok d -> get_state w r = Ok s ->
  wf_world wb -> w_nodes wb = w_nodes w ->
  Forall wf_state us -> wf_state U -> (forall k, dget k U = latest k us) ->
  (forall k a, dget k U = Some a -> In k (keys s) /\ wf_attr a /\ is_submodule a = false /\ node_value w a) ->
  exists m wb' g, (forall x n b, g x n = Some b -> is_submodule b = false /\ is_node (w_nodes w) b = true /\ wf_attr b) /\
    merge wb d us = Ok (m, wb') /\ w_nodes wb' = w_nodes wb /\ faithful_copy (reworld g (w_nodes w) w) r wb wb' m /\ get_state (reworld g (w_nodes w) w) r = Ok U /\
    names_ok (reworld g (w_nodes w) w) r.
Proof.
  intros W V NO HD HS Wb NB Hus HU HL Hfit.
  destruct (get_state_entries w r W V NO) as (s' & path & Hs' & Hinc & P1 & P2 & P3). assert (s' = s) by congruence. subst s'.
  set (nt := w_nodes w).
  set (g := fun x n => dget (join_path (path x n ++ [n])) U).
  assert (GOK : forall x n b, g x n = Some b -> is_submodule b = false /\ is_node nt b = true /\ wf_attr b).
  { intros x n b Hg. apply Hfit in Hg as (_ & F1 & F2 & t & F3 & F4). split; [exact F2|]. split; [|exact F1].
    unfold is_node, isinstance. apply existsb_exists. exists t. split; [exact F3|]. now apply smem_In. }
  set (w2 := reworld g nt w).
  assert (W2 : wf_world w2) by (apply re_wf; auto).
  assert (V2 : valid w2 r) by (unfold valid, w2; rewrite re_len; exact V).
  assert (NO2 : names_ok w2 r).
  { intros x o2 n a HR Ho2 Hd2. apply re_reaches in HR; auto. unfold w2 in Ho2. rewrite re_get in Ho2. destruct (get_obj w x) as [o|] eqn:Ho; [|discriminate].
    injection Ho2 as <-. cbn [set_vars m_vars] in Hd2. pose proof (wfo_names _ _ (wf_objs w W x o Ho)) as ND.
    pose proof Hd2 as Hd3. rewrite re_dget in Hd3 by exact ND. destruct (dget n (m_vars o)) as [b|] eqn:D; [|discriminate].
    destruct (NO x o n b HR Ho D) as (N1 & N2 & N3). destruct (isn nt b) eqn:IB.
    - assert (NA : node_attr w x n b).
      { unfold isn in IB. apply andb_prop in IB as [I1 I2]. apply negb_true_iff in I1. apply node_attr_iff. exists o. auto. }
      destruct (GOK _ _ _ Hd3) as (G1 & G2 & G3). split; [congruence|]. split; [intros _; now apply N2|].
      intros (o' & _ & _ & _ & Hno). exfalso. unfold is_node, isinstance in G2. apply existsb_exists in G2 as (t & T1 & T2). apply smem_In in T2. now apply (Hno t).
    - injection Hd3 as ->. split; [exact N1|]. split.
      + intros (o' & H1 & H2 & H3 & H4). apply N2. exists o. auto.
      + intros (o' & H1 & H2 & H3 & H4). apply N3. exists o. auto. }
  assert (HS2 : get_state w2 r = Ok U).
  { destruct (graph_exists w r W V) as (d' & L & Hg). destruct (iter_state_graph w r d' L W V Hg) as (E & HE & HEf & HIt).
    destruct (items_keys _ _ _ _ _ W V Hg NO HE HEf) as [_ HND].
    pose proof (re_iter g nt GOK w W eq_refl (dfs_fuel w) r [] []) as HI.
    assert (HS3 := HS). unfold get_state in HS3. rewrite HIt in HS3. unfold iter_state in HIt. cbn [rbind] in HS3. injection HS3 as HS3.
    unfold get_state, iter_state. replace (dfs_fuel w2) with (dfs_fuel w) by (unfold dfs_fuel, w2; now rewrite re_len).
    unfold iter_ok in HI. fold w2 in HI. destruct (iter_state_rec (dfs_fuel w) w r [] []) as [[xs sn]|e]; [|discriminate].
    destruct HI as (its & -> & -> & HF). cbn [rbind] in HIt |- *. injection HIt as HIt. f_equal. rewrite Forall_forall in HF.
    rewrite <- HIt in *. rewrite mk_state_NoDup in HS3 by exact HND.
    assert (KS : forall k, In k (keys (map (ri_kv []) its)) <-> In k (keys s)).
    { intros k. rewrite <- HS3. unfold keys. split; apply Permutation_in; apply Permutation_map; [symmetry|]; apply sort_perm. }
    assert (EQ : flat_map (ri_re g []) its = flat_map (refill U) (map (ri_kv []) its)).
    { rewrite flat_map_concat_map, flat_map_concat_map, map_map. f_equal. apply map_ext_in. intros i Hi. unfold ri_re, refill, ri_kv, g. cbn [fst app].
      replace (join_path (path (ri_own i) (ri_name i) ++ [ri_name i])) with (join_path (ri_path i ++ [ri_name i])); [reflexivity|].
      destruct (HF i Hi) as [F1 F2].
      set (key := join_path (ri_path i ++ [ri_name i])). assert (KI : In key (keys s)).
      { apply KS. unfold keys. rewrite map_map. apply in_map_iff. exists i. auto. }
      destruct (dget key s) as [a|] eqn:KD; [|apply dget_None in KD; contradiction]. clear KI. rename KD into KI. apply P2 in KI as (x & n & Hx & Ha & KE). pose proof (P1 x n a Hx Ha) as FP.
      pose proof KE as KE0. apply join_key_inj in KE as [K1 K2].
      - rewrite K1 in F1. assert (KO : ri_own i = x) by congruence. rewrite KO, K2. exact KE0.
      - eapply (names_no_slash w r); eauto.
      - destruct F2 as (o & O1 & O2 & O3). apply (NO (ri_own i) o _ (ri_val i) (ex_intro _ _ F1) O1 O2). now exists o.
      - eapply (names_no_slash w r); eauto.
      - pose proof Ha as (o & O1 & O2 & O3). now apply (NO x o _ a Hx O1 O2). }
    rewrite EQ. rewrite mk_state_NoDup by (now apply refill_NoDup). apply state_ext; [|exact HU|].
    { rewrite <- mk_state_NoDup by (now apply refill_NoDup). apply mk_state_wf. }
    intros k. rewrite (dget_perm k _ (flat_map (refill U) (map (ri_kv []) its))).
    - rewrite refill_dget by exact HND. destruct (in_dec string_dec k _) as [I|I]; [reflexivity|].
      destruct (dget k U) as [a|] eqn:D; [|reflexivity]. exfalso. apply I, KS. now apply Hfit in D.
    - eapply NoDup_keys_perm; [symmetry; apply sort_perm|]. now apply refill_NoDup.
    - apply sort_perm. }
  destruct (graph_exists w2 r W2 V2) as (d2 & L2 & Hg2).
  assert (d2 = d). { pose proof (get_module_def_graph _ _ _ _ W2 V2 Hg2) as K. unfold w2 in K. rewrite re_module_def in K by auto. congruence. }
  subst d2. destruct (get_state_graph w2 r d L2 W2 V2 Hg2 NO2) as (E2 & s2 & Hs2 & _ & HE2 & HEf2 & HPE2 & HND2 & _).
  assert (s2 = U) by congruence. subst s2.
  destruct (merge_graph w2 r d L2 E2 wb us W2 V2 Hg2 NO2 HE2 HEf2) as (wb' & objs & HM & HMG).
  { rewrite <- HPE2. apply dget_ext_perm.
    - apply fold_dupdate_NoDup. constructor.
    - now apply wf_NoDup.
    - intros k. rewrite dget_merge_gen. 2:{ eapply Forall_impl; [|exact Hus]. intros u Hu. now apply wf_NoDup. }
      change (last_value k us) with (latest k us). rewrite HL. now destruct (latest k us). }
  exists (List.length (w_heap wb)), wb', g. split; [exact GOK|]. split; [exact HM|]. split; [exact (mg_nodes _ _ _ _ _ HMG)|]. split; [|auto].
  eapply merged_faithful; eauto.
Qed.

Lemma look_app w p n : forall r x, follow w r p = Some x -> look w r (p ++ [n]) = look w x [n].
Proof.
  induction p as [|m p IH]; intros r x; cbn [follow app].
  - destruct (get_obj w r); [|discriminate]. now intros [= ->].
  - intros H. cbn [look]. destruct (get_obj w r) as [o|]; [|discriminate]. destruct (dget m (m_vars o)) as [[[]|]|]; try discriminate. now apply IH.
Qed.
Lemma look_module w p c i : forall r, look w r p = SModule c i <-> exists x o, follow w r p = Some x /\ get_obj w x = Some o /\ m_cls o = c /\ m_init o = i.
Proof.
  induction p as [|m p IH]; intros r; cbn [look follow].
  - destruct (get_obj w r) as [o|] eqn:E; split; try discriminate.
    + intros [= <- <-]. exists r, o. auto.
    + intros (x & o' & [= <-] & H & <- & <-). congruence.
    + intros (x & o' & H & _). discriminate.
  - destruct (get_obj w r) as [o|]; [|split; [discriminate|intros (x & o' & H & _); discriminate]].
    assert (D : forall oa : option attr, oa = dget m (m_vars o) -> (match oa with
               | Some (ARaw (PyMod r')) => look w r' p | Some a => match p with [] => SValue a | _ => SNothing end | None => SNothing end) = SModule c i
               <-> exists x o0, match oa with Some (ARaw (PyMod r')) => follow w r' p | _ => None end = Some x /\ get_obj w x = Some o0 /\ m_cls o0 = c /\ m_init o0 = i).
    { intros oa _. destruct oa as [[[]|]|]; try apply IH; (split; [destruct p; discriminate|intros (x & o' & H & _); discriminate]). }
    apply D. reflexivity.
Qed.
Lemma static_look w r p x n a : follow w r p = Some x ->
  (static_attr w x n a <-> look w r (p ++ [n]) = SValue a /\ forall t, In t (w_nodes w) -> ~ In t (cls_of_attr a)).
Proof.
  intros F. rewrite (look_app w p n r x F). unfold static_attr. cbn [look]. split.
  - intros (o & -> & -> & S & H). split; [|exact H]. destruct a as [[]|]; try discriminate; reflexivity.
  - intros [H H']. destruct (get_obj w x) as [o|]; [|discriminate]. exists o. split; [reflexivity|].
    destruct (dget n (m_vars o)) as [b|]; [|discriminate].
    assert (b = a /\ is_submodule b = false) as [-> S].
    { destruct b as [[]|]; cbn in H; try (injection H as <-; split; reflexivity). destruct (get_obj w _); discriminate. }
    auto.
Qed.

Theorem merge_refills w r d s us U wb :
  wf_world w -> valid w r -> names_ok w r -> get_module_def w r = Ok d -> get_state w r = Ok s ->
  wf_world wb -> w_nodes wb = w_nodes w ->
  Forall wf_state us -> wf_state U -> (forall k, dget k U = latest k us) ->
  (forall k a, dget k U = Some a -> In k (keys s) /\ wf_attr a /\ is_submodule a = false /\ node_value w a) ->
  exists m wb', merge wb d us = Ok (m, wb') /\ refilled_copy w r U wb wb' m.
Proof.
  intros W V NO HD HS Wb NB Hus HU HL Hfit.
  destruct (merge_fit w r d s us U wb W V NO HD HS Wb NB Hus HU HL Hfit) as (m & wb' & g & GOK & HM & NT & FC & HS2 & NO2).
  exists m, wb'. split; [exact HM|]. set (w2 := reworld g (w_nodes w) w) in *. destruct FC as [F1 F2 F3 F4 F5 F6 F7 F8 F9 F10].
  assert (NN : w_nodes wb = w_nodes w2) by exact NB.
  assert (FL : forall p x, follow w2 x p = follow w x p) by (apply re_follow; auto).
  constructor.
  - rewrite F4; auto.
  - rewrite F5 by auto. apply re_module_def; auto.
  - intros p. rewrite F2. now rewrite FL.
  - intros p q. rewrite F3. now rewrite !FL.
  - intros p c i. rewrite F1, !look_module. split.
    + intros (x & o & A1 & A2 & A3 & A4). rewrite FL in A1. unfold w2 in A2. rewrite re_get in A2. destruct (get_obj w x) as [o'|] eqn:Ho; [|discriminate].
      injection A2 as <-. exists x, o'. auto.
    + intros (x & o & A1 & A2 & A3 & A4). exists x, (set_vars o (revars g (w_nodes w) x (m_vars o))). rewrite FL. unfold w2. rewrite re_get, A2. auto.
  - intros p x y n a Hx Hy. rewrite (static_look wb' m p y n a Hy), F1, NT, NB.
    assert (Hx2 : follow w2 r p = Some x) by now rewrite FL. change (w_nodes w) with (w_nodes w2) at 1. rewrite <- (static_look w2 r p x n a Hx2).
    unfold static_attr. unfold w2. rewrite re_get. change (w_nodes (reworld g (w_nodes w) w)) with (w_nodes w). split.
    + intros (o & A1 & A2 & A3 & A4). destruct (get_obj w x) as [o'|] eqn:Ho; [|discriminate]. injection A1 as <-. exists o'. split; [reflexivity|].
      cbn [set_vars m_vars] in A2. rewrite re_dget in A2 by (apply (wf_objs w W x o' Ho)). destruct (dget n (m_vars o')) as [b|]; [|discriminate].
      destruct (isn (w_nodes w) b); [|auto]. exfalso. apply GOK in A2 as (_ & B & _). unfold is_node, isinstance in B.
      apply existsb_exists in B as (t & T1 & T2). apply smem_In in T2. now apply (A4 t).
    + intros (o & A1 & A2 & A3 & A4). rewrite A1. cbn [option_map]. eexists. split; [reflexivity|]. cbn [set_vars m_vars].
      rewrite re_dget by (apply (wf_objs w W x o A1)). rewrite A2. replace (isn (w_nodes w) a) with false; [auto|]. symmetry.
      unfold isn. rewrite A3. cbn. destruct (is_node (w_nodes w) a) eqn:E; [|reflexivity]. exfalso. unfold is_node, isinstance in E.
      apply existsb_exists in E as (t & T1 & T2). apply smem_In in T2. now apply (A4 t).
  - exact F6.
  - exact F7.
  - exact F8.
  - destruct (F9 Wb) as [G1 G2]. split; [exact G1|]. split; [exact G2|]. apply F10; auto.
Qed.
