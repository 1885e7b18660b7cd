(** Address_proofs: update_state with keys that are any paths to attributes. *)
From Coq Require Import Permutation Sorted Lia.
From Verif Require Import PyBase PyBaseFacts ValuesM Spec_Eq ValuesFacts FiltersM StateM Spec_State State_proofs ModuleM Spec_Module Spec_Prog Spec_Path Graph_facts
  Dfs_proofs Build_proofs Bisim_proofs Skel_proofs RoundTrip_proofs Clone_proofs Update_proofs Grow_proofs Path_proofs Prop_Path
  Leaf_proofs Revalue_proofs Laws_proofs
  TransformM GradFunM Spec_GradFun Spec_TrainLoop TrainLoop_proofs Resume_proofs Rollback_proofs Undo_proofs Spec_Address.
Local Open Scope string_scope.
Local Open Scope list_scope.

(** ** Two dicts, one after the other *)
Definition over (s : state) (kv : string * attr) : string * attr := (fst kv, match dget (fst kv) s with Some a => a | None => snd kv end).
Lemma dset_present (d : state) k a : NoDup (keys d) -> In k (keys d) -> dset k a d = map (fun kv => (fst kv, if String.eqb k (fst kv) then a else snd kv)) d.
Proof.
  induction d as [|[k' v] d IH]; cbn; [tauto|]. intros N H. inversion N as [|? ? N1 N2]; subst. destruct (String.eqb_spec k k') as [->|Ne].
  - f_equal. rewrite <- (map_id d) at 1. apply map_ext_in. intros [j u] Hj. cbn. destruct (String.eqb_spec k' j) as [->|]; [|reflexivity]. destruct N1. apply (in_map fst) in Hj. exact Hj.
  - f_equal. apply IH; [exact N2|]. destruct H; [congruence|assumption].
Qed.
Lemma keys_map_fst {B C} (f : string * B -> C) (d : list (string * B)) : map fst (map (fun kv => (fst kv, f kv)) d) = map fst d.
Proof. rewrite map_map. apply map_ext. reflexivity. Qed.
Lemma dupdate_split (s : state) : forall cur : state, NoDup (keys cur) -> NoDup (keys s) ->
  dupdate cur s = map (over s) cur ++ filter (fun kv => negb (dmem (fst kv) cur)) s.
Proof.
  induction s as [|[k a] s IH]; intros cur Nc Ns.
  - cbn [filter]. rewrite app_nil_r, dupdate_nil. rewrite <- (map_id cur) at 1. apply map_ext. now intros [j u].
  - rewrite dupdate_cons. cbn [fst snd]. cbn in Ns. inversion Ns as [|? ? N1 N2]; subst. rewrite IH; [|now apply NoDup_keys_dset|exact N2]. cbn [filter fst].
    assert (Ek : dget k s = None) by now apply dget_None. destruct (dmem k cur) eqn:Ec.
    + apply dmem_In in Ec as Hk. cbn [negb]. rewrite dset_present by assumption. f_equal.
      * rewrite map_map. apply map_ext. intros [j u]. unfold over. cbn [fst snd dget]. rewrite (String.eqb_sym k j). destruct (String.eqb_spec j k) as [->|]; [now rewrite Ek|reflexivity].
      * apply filter_ext_in. intros [j u] _. cbn [fst]. f_equal. apply Bool.eq_iff_eq_true. rewrite !dmem_In. unfold keys. now rewrite keys_map_fst.
    + apply dmem_false in Ec as Hk. cbn [negb]. rewrite dset_new by assumption. rewrite map_app, <- app_assoc. f_equal.
      * apply map_ext_in. intros [j u] Hj. unfold over. cbn [fst snd dget]. destruct (String.eqb_spec j k) as [->|]; [|reflexivity]. destruct Hk. apply (in_map fst) in Hj. exact Hj.
      * cbn [map app over fst snd]. unfold over at 1. cbn [fst snd]. rewrite Ek. f_equal. apply filter_ext_in. intros [j u] Hj. cbn [fst]. f_equal. apply Bool.eq_iff_eq_true. rewrite !dmem_In.
        unfold keys. rewrite map_app, in_app_iff. cbn. split; [|auto]. intros [H|[<-|[]]]; [exact H|]. destruct N1. apply (in_map fst) in Hj. exact Hj.
Qed.
Lemma update_loop_app l1 : forall w r l2 w', update_loop w r l1 = (w', Ok tt) -> update_loop w r (l1 ++ l2) = update_loop w' r l2.
Proof.
  induction l1 as [|[k a] l1 IH]; intros w r l2 w'; cbn [update_loop app]; [congruence|]. destruct (set_path w r (split_slash k) a); [apply IH|congruence].
Qed.

(** ** Where a key points *)
Definition target (w : world) (r : nat) (k : string) : option (nat * string) :=
  match follow w r (removelast (split_slash k)) with Some x => Some (x, last (split_slash k) "") | None => None end.
Lemma named_target w r k x n : named w r k x n <-> target w r k = Some (x, n).
Proof.
  unfold named, target. pose proof (split_slash_nonnil k) as Nk. split.
  - intros (q & E & F). rewrite E, removelast_last, last_last, F. reflexivity.
  - intros H. exists (removelast (split_slash k)). destruct (follow w r (removelast (split_slash k))) as [y|]; [|discriminate]. injection H as -> <-. split; [|reflexivity]. now apply app_removelast_last.
Qed.
(** the value that [s] has for the attribute [n] of [x] *)
Fixpoint hit (w : world) (r : nat) (s : state) (x : nat) (n : string) : option attr :=
  match s with
  | [] => None
  | (k, a) :: t => match target w r k with
                   | Some (y, m) => if Nat.eqb y x && String.eqb m n then Some a else hit w r t x n
                   | None => hit w r t x n
                   end
  end.
Lemma hit_Some w r s x n a : hit w r s x n = Some a -> exists k, In (k, a) s /\ named w r k x n.
Proof.
  induction s as [|[k b] s IH]; cbn; [discriminate|]. destruct (target w r k) as [[y m]|] eqn:E.
  - destruct (Nat.eqb_spec y x) as [->|]; cbn [andb]; [destruct (String.eqb_spec m n) as [->|]|].
    + intros [= ->]. exists k. split; [now left|now apply named_target].
    + intros H. destruct (IH H) as (j & ? & ?). eauto.
    + intros H. destruct (IH H) as (j & ? & ?). eauto.
  - intros H. destruct (IH H) as (j & ? & ?). eauto.
Qed.
Lemma hit_None w r s x n : hit w r s x n = None -> forall k, In k (keys s) -> ~ named w r k x n.
Proof.
  induction s as [|[k b] s IH]; cbn; [tauto|]. intros H j Hj Hn. apply named_target in Hn.
  destruct Hj as [<-|Hj].
  - rewrite Hn, Nat.eqb_refl, String.eqb_refl in H. discriminate.
  - apply named_target in Hn. revert Hn. apply IH; [|exact Hj]. destruct (target w r k) as [[y m]|]; [|exact H]. destruct (Nat.eqb y x && String.eqb m n); [discriminate|exact H].
Qed.
Lemma hit_fits w r s x n k a : fits w r s -> dget k s = Some a -> named w r k x n -> hit w r s x n = Some a.
Proof.
  intros (N & _ & U) Hk Hn. destruct (hit w r s x n) as [b|] eqn:E.
  - apply hit_Some in E as (j & Hj & Hjn). pose proof (In_dget _ _ _ N Hj) as Dj.
    assert (j = k) by (apply (U j k x n); auto; eapply dget_In_keys; eauto). congruence.
  - exfalso. exact (hit_None _ _ _ _ _ E k (dget_In_keys _ _ _ Hk) Hn).
Qed.

(** what is stored, computed *)
Definition put (o : mobj) (n : string) (a : attr) : attr := match assign_value (dget n (m_vars o)) a with Ok v => v | Err _ => a end.
Lemma stored_put w x o n a res : wf_world w -> get_obj w x = Some o -> wf_attr a -> is_submodule a = false -> stored w x n a res ->
  assign_value (dget n (m_vars o)) a = Ok res /\ (forall b, dget n (m_vars o) = Some b -> is_submodule b = false) /\ n <> "_module__state".
Proof.
  intros W Ho Wa Sa (o' & Ho' & R & H). assert (o' = o) by congruence. subst o'. destruct (dget n (m_vars o)) as [b|] eqn:E.
  - destruct H as [Sb H]. pose proof (wfo_attrs _ _ (wf_objs _ W _ _ Ho) _ _ E) as Wb. split; [now apply assign_overwrites|]. split; [intros c [= <-]; exact Sb|exact R].
  - subst res. split; [|split; [discriminate|exact R]]. unfold assign_value. destruct a as [v|c]; [reflexivity|]. cbn in Wa. now rewrite container_copy_id.
Qed.
Lemma assign_wf old a res : (forall b, old = Some b -> wf_attr b) -> wf_attr a -> assign_value old a = Ok res -> wf_attr res.
Proof.
  intros Wo Wa H. destruct old as [b|].
  - specialize (Wo b eq_refl). apply assign_overwrites in H; auto. destruct b as [v|c], a as [v'|c']; cbn in *.
    + now subst. + now subst. + subst. destruct Wo as [A B]. split; assumption. + destruct H as (_ & _ & ->). destruct Wo as [A B]. split; assumption.
  - unfold assign_value in H. destruct a as [v|c]; [now injection H as <-|]. cbn in Wa. rewrite container_copy_id in H by assumption. now injection H as <-.
Qed.

(** ** The assignments *)
Definition hits (w : world) (r : nat) (s : state) (w' : world) : Prop :=
  forall x o, get_obj w x = Some o -> exists d, get_obj w' x = Some (set_vars o d) /\
    forall n, dget n d = match hit w r s x n with Some a => Some (put o n a) | None => dget n (m_vars o) end.

Theorem update_hits w r s : wf_world w -> valid w r -> names_ok w r -> live w r -> fits w r s ->
  exists w', update_state w r (UStates (One s)) = (w', Ok tt) /\ wf_world w' /\ hits w r s w' /\
    (forall x, ~ reaches w r x -> get_obj w' x = get_obj w x) /\ (forall x q, follow w' x q = follow w x q) /\
    w_trace w' = w_trace w /\ w_nodes w' = w_nodes w /\ List.length (w_heap w') = List.length (w_heap w).
Proof.
  intros Hw Hr Hno Hlive HF. pose proof HF as (NDs & HS & HU).
  destruct (graph_exists w r Hw Hr) as (d & L & Hg).
  destruct (get_state_graph w r d L Hw Hr Hg Hno) as (E & cur & Hs & Hwf & (HE1 & HE2 & HE3) & HEf & HPE & HND & Hsl).
  pose proof (state_item E cur HND HPE) as Hitem. assert (NDc : NoDup (keys cur)) by now apply wf_NoDup.
  set (ikey := fun i => join_path (i_path i ++ [i_name i])).
  assert (Hik : forall i, In i E -> split_slash (ikey i) = i_path i ++ [i_name i]).
  { intros i Hi. destruct (Hsl i Hi) as [S1 S2]. apply split_join; [destruct (i_path i); discriminate|]. apply Forall_app. auto. }
  assert (Hin : forall i, In i E -> named w r (ikey i) (i_own i) (i_name i)).
  { intros i Hi. exists (i_path i). split; [now apply Hik|now apply HEf]. }
  assert (Hi0 : forall i, In i E -> exists o, get_obj w (i_own i) = Some o /\ dget (i_name i) (m_vars o) = Some (i_val i) /\ is_submodule (i_val i) = false /\ wf_attr (i_val i) /\ i_name i <> "_module__state").
  { intros i Hi. destruct (HE1 i Hi) as [_ G]. apply node_attr_iff in G as (o & G1 & G2 & G3 & G4). exists o. do 3 (split; [assumption|]).
    split; [exact (wfo_attrs _ _ (wf_objs _ Hw _ _ G1) _ _ G2)|]. intros Q. apply (wfo_reserved _ _ (wf_objs _ Hw _ _ G1)). rewrite <- Q. eapply dget_In_keys; eauto. }
  set (val := fun i => match dget (ikey i) s with Some a => a | None => i_val i end).
  set (new := fun i => match dget (ikey i) s with Some a => match get_obj w (i_own i) with Some o => put o (i_name i) a | None => a end | None => i_val i end).
  set (ent := fun i => mkE (i_path i) (i_own i) (i_name i) (val i) (new i)).
  (* the first part: the entries the module has *)
  assert (HM1 : exists ES1, map (over s) cur = map (fun e => (e_key e, e_val e)) ES1 /\ Permutation (map ent E) ES1).
  { assert (Q : Permutation (map (over s) cur) (map (fun e => (e_key e, e_val e)) (map ent E))).
    { rewrite (Permutation_map (over s) HPE), !map_map. apply Permutation_refl'. apply map_ext. intros i. reflexivity. }
    apply Permutation_map_inv in Q. exact Q. }
  destruct HM1 as (ES1 & HM1 & Hp1).
  assert (HES1 : forall e, In e ES1 -> exists i, In i E /\ e = ent i).
  { intros e He. apply (Permutation_in _ (Permutation_sym Hp1)) in He. apply in_map_iff in He as (i & <- & Hi). eauto. }
  assert (Hnd1 : NoDup (map e_slot ES1)).
  { eapply Permutation_NoDup; [apply Permutation_map; exact Hp1|]. rewrite map_map. exact HE3. }
  assert (Hval : forall i, In i E -> exists o, get_obj w (i_own i) = Some o /\ is_submodule (val i) = false /\ wf_attr (new i) /\ is_submodule (new i) = false /\ i_name i <> "_module__state" /\
            assign_value (dget (i_name i) (m_vars o)) (val i) = Ok (new i) /\ (forall b, dget (i_name i) (m_vars o) = Some b -> is_submodule b = false)).
  { intros i Hi. destruct (Hi0 i Hi) as (o & G1 & G2 & G3 & G4 & G5). exists o. split; [exact G1|]. unfold val, new. destruct (dget (ikey i) s) as [a|] eqn:Ea.
    - destruct (HS _ _ Ea) as (Wa & Sa & x & n & res & Hn & Hst). pose proof (Hin i Hi) as Hn'. apply named_target in Hn, Hn'. rewrite Hn in Hn'. injection Hn' as -> ->.
      destruct (stored_put w _ o _ a res Hw G1 Wa Sa Hst) as (A1 & A2 & A3). rewrite G1. unfold put. rewrite A1. split; [exact Sa|]. split; [|split; [|split; [|split]]]; auto.
      + apply (assign_wf (dget (i_name i) (m_vars o)) a res); auto. intros b Eb. exact (wfo_attrs _ _ (wf_objs _ Hw _ _ G1) _ _ Eb).
      + exact (assign_not_sub _ _ _ Sa A1).
    - split; [exact G3|]. split; [exact G4|]. split; [exact G3|]. split; [exact G5|]. rewrite G2. split; [apply assign_overwrites; auto; now apply overwrites_refl|intros b [= <-]; exact G3]. }
  destruct (update_loop_entries ES1 w r Hnd1) as (w1 & Hrun1 & Hwr1 & Hpl1).
  { apply Forall_forall. intros e He. destruct (HES1 e He) as (i & Hi & ->). destruct (Hval i Hi) as (o & A & B1 & B2 & B3 & B4 & B5 & B6). destruct (Hsl i Hi) as [S1 S2].
    unfold entry_ok, ent. cbn [e_parts e_own e_name e_val e_new]. split; [now apply HEf|]. do 4 (split; [assumption|]). exists o. split; [exact A|].
    split; [apply (Hlive (i_own i)); [exists (i_path i); now apply HEf|exact A]|]. auto. }
  assert (HT1 : forall x n a, writes ES1 x n = Some a -> exists i, In i E /\ i_own i = x /\ i_name i = n /\ a = new i).
  { intros x n a Hwa. apply writes_Some in Hwa as (e & He & E1 & E2 & E3). destruct (HES1 e He) as (i & Hi & ->). eauto 6. }
  assert (HTi1 : forall i, In i E -> writes ES1 (i_own i) (i_name i) = Some (new i)).
  { intros i Hi. apply (writes_In ES1 (ent i) Hnd1). eapply Permutation_in; [exact Hp1|]. apply in_map. exact Hi. }
  assert (Hw1 : wf_world w1).
  { apply (wrote_wf w w1 (writes ES1)); auto. intros x n a Ha. apply HT1 in Ha as (i & Hi & <- & <- & ->). destruct (Hval i Hi) as (o & A & B1 & B2 & B3 & B4 & B5 & B6). auto. }
  assert (F1 : forall x q, follow w1 x q = follow w x q) by (intros x q; now apply (wrote_follow w w1 (writes ES1))).
  (* the second part: keys the module does not list *)
  set (rest := filter (fun kv => negb (dmem (fst kv) cur)) s).
  assert (Hrest : forall k a, In (k, a) rest -> dget k s = Some a /\ ~ In k (keys cur)).
  { intros k a H. apply filter_In in H as [H Q]. split; [now apply In_dget|]. cbn in Q. intros Hk. apply dmem_In in Hk. rewrite Hk in Q. discriminate. }
  set (tent := fun kv : string * attr => match target w r (fst kv) with
     | Some (x, n) => mkE (removelast (split_slash (fst kv))) x n (snd kv) (match get_obj w x with Some o => put o n (snd kv) | None => snd kv end)
     | None => mkE [] 0 "" (snd kv) (snd kv) end).
  assert (Htent : forall k a, In (k, a) rest -> exists x n res o, target w r k = Some (x, n) /\ get_obj w x = Some o /\ stored w x n a res /\ put o n a = res /\
            tent (k, a) = mkE (removelast (split_slash k)) x n a res /\ wf_attr a /\ is_submodule a = false /\ split_slash k = removelast (split_slash k) ++ [n] /\ follow w r (removelast (split_slash k)) = Some x).
  { intros k a H. destruct (Hrest k a H) as [Hk _]. destruct (HS k a Hk) as (Wa & Sa & x & n & res & Hn & Hst). pose proof Hst as (o & Ho & _). exists x, n, res, o.
    pose proof Hn as (q & Q1 & Q2). apply named_target in Hn. split; [exact Hn|]. split; [exact Ho|]. split; [exact Hst|]. destruct (stored_put w x o n a res Hw Ho Wa Sa Hst) as (A1 & A2 & A3).
    assert (P : put o n a = res) by (unfold put; now rewrite A1). split; [exact P|]. unfold tent. cbn [fst snd]. rewrite Hn, Ho, P. split; [reflexivity|]. do 2 (split; [assumption|]).
    rewrite Q1, removelast_last. split; [reflexivity|exact Q2]. }
  set (ES2 := map tent rest).
  assert (HM2 : map (fun e => (e_key e, e_val e)) ES2 = rest).
  { unfold ES2. rewrite map_map. rewrite <- (map_id rest) at 2. apply map_ext_in. intros [k a] H. destruct (Htent k a H) as (x & n & res & o & _ & _ & _ & _ & Q & _ & _ & Q2 & _).
    rewrite Q. unfold e_key. cbn [e_parts e_name e_val]. now rewrite <- Q2, join_split. }
  assert (HES2 : forall e, In e ES2 -> exists k a, In (k, a) rest /\ e = tent (k, a)).
  { intros e He. apply in_map_iff in He as ([k a] & <- & H). eauto. }
  assert (Hnd2 : NoDup (map e_slot ES2)).
  { assert (Nr : NoDup (map fst rest)) by (unfold rest; now apply NoDup_filter_map).
    unfold ES2. rewrite map_map. apply (NoDup_map_via fst _ rest Nr). intros [k a] [k' a'] H H' Q.
    destruct (Htent k a H) as (x & n & res & o & T1 & _ & _ & _ & Q1 & _). destruct (Htent k' a' H') as (x' & n' & res' & o' & T1' & _ & _ & _ & Q1' & _).
    rewrite Q1, Q1' in Q. unfold e_slot in Q. cbn [e_own e_name] in Q. injection Q as <- <-. cbn [fst].
    apply (HU k k' x n); try (now apply named_target); eapply dget_In_keys; eapply Hrest; eauto. }
  (* a key of the second part names no attribute whose listed key is also in [s] *)
  assert (Hsec : forall k a x n, In (k, a) rest -> target w r k = Some (x, n) -> forall i, In i E -> i_own i = x -> i_name i = n -> new i = i_val i).
  { intros k a x n H T1 i Hi <- <-. unfold new. destruct (dget (ikey i) s) as [b|] eqn:Eb; [|reflexivity]. exfalso. destruct (Hrest k a H) as [Hk Hnk].
    assert (k = ikey i) by (apply (HU k (ikey i) (i_own i) (i_name i)); [eapply dget_In_keys; eauto|eapply dget_In_keys; eauto|now apply named_target|now apply Hin]).
    apply Hnk. apply (dget_In_keys _ (i_val i)). apply Hitem. exists i. auto. }
  assert (Hsame : forall k a x n o, In (k, a) rest -> target w r k = Some (x, n) -> get_obj w x = Some o -> match writes ES1 x n with Some b => Some b | None => dget n (m_vars o) end = dget n (m_vars o)).
  { intros k a x n o H T1 Ho. destruct (writes ES1 x n) as [b|] eqn:Ew; [|reflexivity]. apply HT1 in Ew as (i & Hi & Ex & En & ->). rewrite (Hsec k a x n H T1 i Hi Ex En).
    destruct (Hi0 i Hi) as (o' & G1 & G2 & _). subst x n. assert (o' = o) by congruence. subst o'. now rewrite G2. }
  destruct (update_loop_entries ES2 w1 r Hnd2) as (w2 & Hrun2 & Hwr2 & Hpl2).
  { apply Forall_forall. intros e He. destruct (HES2 e He) as (k & a & H & ->). destruct (Htent k a H) as (x & n & res & o & T1 & Ho & Hst & P & -> & Wa & Sa & Q2 & Q3).
    destruct (stored_put w x o n a res Hw Ho Wa Sa Hst) as (A1 & A2 & A3). pose proof (split_slash_noslash k) as NS. rewrite Q2 in NS. apply Forall_app in NS as [NS1 NS2]. inversion NS2; subst.
    unfold entry_ok. cbn [e_parts e_own e_name e_val e_new]. split; [now rewrite F1|]. do 4 (split; [assumption|]).
    destruct (wr_obj _ _ _ Hwr1 _ _ Ho) as (dd & Hd1 & _ & _ & Hd2). exists (set_vars o dd). split; [exact Hd1|]. cbn [m_trace m_vars set_vars].
    split; [rewrite (wr_trace _ _ _ Hwr1); apply (Hlive x); [eexists; eauto|exact Ho]|]. rewrite Hd2, (Hsame k a x n o H T1 Ho). split; [exact A1|exact A2]. }
  assert (HT2 : forall x n b, writes ES2 x n = Some b -> exists k a res o, In (k, a) rest /\ target w r k = Some (x, n) /\ get_obj w x = Some o /\ stored w x n a res /\ put o n a = res /\ b = res /\ wf_attr a /\ is_submodule a = false).
  { intros x n b Hwb. apply writes_Some in Hwb as (e & He & E1 & E2 & E3). destruct (HES2 e He) as (k & a & H & ->). destruct (Htent k a H) as (y & m & res & o & T1 & Ho & Hst & P & Q & Wa & Sa & _).
    rewrite Q in E1, E2, E3. cbn [e_own e_name e_new] in *. subst y m b. exists k, a, res, o. auto 10. }
  assert (HTi2 : forall k a x n o, In (k, a) rest -> target w r k = Some (x, n) -> get_obj w x = Some o -> writes ES2 x n = Some (put o n a)).
  { intros k a x n o H T1 Ho. destruct (Htent k a H) as (y & m & res & o' & T1' & Ho' & _ & P & Q & _). rewrite T1 in T1'. injection T1' as <- <-. assert (o' = o) by congruence. subst o'.
    pose proof (writes_In ES2 (tent (k, a)) Hnd2) as R. rewrite Q in R. cbn [e_own e_name e_new] in R. rewrite P. apply R. rewrite <- Q. unfold ES2. now apply in_map. }
  exists w2. split.
  { unfold update_state. rewrite Hs. cbn [sts_list]. unfold update_module. cbn [fold_left]. rewrite (dupdate_new cur []) by (auto; cbn; tauto). cbn [app].
    rewrite dupdate_split by assumption. rewrite HM1. rewrite (update_loop_app _ w r _ w1 Hrun1). fold rest. rewrite <- HM2. exact Hrun2. }
  split.
  { apply (wrote_wf w1 w2 (writes ES2)); auto. intros x n b Hb. apply HT2 in Hb as (k & a & res & o & H & T1 & Ho & Hst & P & -> & Wa & Sa).
    destruct (stored_put w x o n a res Hw Ho Wa Sa Hst) as (A1 & A2 & A3). split; [|split; [exact (assign_not_sub _ _ _ Sa A1)|exact A3]].
    apply (assign_wf (dget n (m_vars o)) a res); auto. intros c Ec. exact (wfo_attrs _ _ (wf_objs _ Hw _ _ Ho) _ _ Ec). }
  split.
  { intros x o Ho. destruct (wr_obj _ _ _ Hwr1 _ _ Ho) as (d1 & Hd1 & _ & _ & Hd1'). destruct (wr_obj _ _ _ Hwr2 _ _ Hd1) as (d2 & Hd2 & _ & _ & Hd2').
    exists d2. split; [rewrite Hd2; now destruct o|]. intros n. rewrite Hd2'. cbn [m_vars set_vars]. rewrite Hd1'.
    destruct (hit w r s x n) as [a|] eqn:Eh.
    - apply hit_Some in Eh as (k & Hk & Hn). apply named_target in Hn as T1. destruct (dmem k cur) eqn:Ec.
      + (* listed *)
        apply dmem_In in Ec. apply dget_Some_keys in Ec as (b & Eb). apply Hitem in Eb as (i & Hi & Ki & ->). pose proof (Hin i Hi) as Hn'. unfold ikey in Hn'. rewrite <- Ki in Hn'. apply named_target in Hn'. rewrite T1 in Hn'. injection Hn' as Ex En.
        pose proof (HTi1 i Hi) as W1. rewrite <- Ex, <- En in W1. rewrite W1. destruct (writes ES2 x n) as [c|] eqn:Ew2.
        * exfalso. apply HT2 in Ew2 as (k' & a' & res & o' & H & T1' & _). destruct (Hrest k' a' H) as [Hk' Hn2].
          assert (k' = k) by (apply (HU k' k x n); [eapply dget_In_keys; eauto|apply (in_map fst) in Hk; exact Hk|now apply named_target|exact Hn]). subst k'. apply Hn2. apply (dget_In_keys _ (i_val i)). apply Hitem. exists i. auto.
        * unfold new, ikey. rewrite <- Ki, (In_dget _ _ _ NDs Hk). rewrite <- Ex, Ho, <- En. reflexivity.
      + assert (H : In (k, a) rest) by (apply filter_In; split; [exact Hk|cbn; now rewrite Ec]). rewrite (HTi2 k a x n o H T1 Ho). reflexivity.
    - pose proof (hit_None _ _ _ _ _ Eh) as Hno'. destruct (writes ES2 x n) as [c|] eqn:Ew2.
      + exfalso. apply HT2 in Ew2 as (k' & a' & res & o' & H & T1' & _). apply (Hno' k'); [eapply dget_In_keys; apply (Hrest k' a' H)|now apply named_target].
      + destruct (writes ES1 x n) as [c|] eqn:Ew1; [|reflexivity]. apply HT1 in Ew1 as (i & Hi & Ex & En & ->). unfold new. destruct (dget (ikey i) s) as [b|] eqn:Eb.
        * exfalso. apply (Hno' (ikey i)); [eapply dget_In_keys; eauto|]. rewrite <- Ex, <- En. now apply Hin.
        * destruct (Hi0 i Hi) as (o' & G1 & G2 & _). subst x n. assert (o' = o) by congruence. subst o'. now rewrite G2. }
  split.
  { intros x Hx. rewrite (wr_same _ _ _ Hwr2).
    - apply (wr_same _ _ _ Hwr1). intros n. destruct (writes ES1 x n) as [b|] eqn:Ew; [|reflexivity]. apply HT1 in Ew as (i & Hi & <- & _). destruct Hx. exists (i_path i). now apply HEf.
    - intros n. destruct (writes ES2 x n) as [b|] eqn:Ew; [|reflexivity]. apply HT2 in Ew as (k & a & res & o & H & T1 & _). apply named_target in T1 as (q & _ & Q). destruct Hx. now exists q. }
  split; [intros x q; rewrite (wrote_follow w1 w2 (writes ES2)) by auto; apply F1|].
  split; [rewrite (wr_trace _ _ _ Hwr2); apply Hwr1|]. split; [rewrite (wr_nodes _ _ _ Hwr2); apply Hwr1|]. rewrite (wr_len _ _ _ Hwr2); apply Hwr1.
Qed.

(** ** As one reads it *)
Theorem update_assigns w r s : wf_world w -> valid w r -> names_ok w r -> live w r -> fits w r s ->
  exists w', update_state w r (UStates (One s)) = (w', Ok tt) /\ assigned w r s w'.
Proof.
  intros W V N L HF. destruct (update_hits w r s W V N L HF) as (w' & U & W' & HH & HO & FF & T & NT & Len). exists w'. split; [exact U|]. pose proof HF as (ND & HS & HU).
  split; [|split; [|split; [|split; [|split; [|split]]]]]; auto.
  - intros p x n k a res Hp Hk Hn Hst. pose proof Hst as (o & Ho & _). destruct (HH x o Ho) as (d & Ho' & Hd). destruct (HS k a Hk) as (Wa & Sa & _).
    destruct (stored_put w x o n a res W Ho Wa Sa Hst) as (A1 & _). apply (look_slot w' r p n x (set_vars o d) res); [now rewrite FF|exact Ho'| |exact (assign_not_sub _ _ _ Sa A1)].
    cbn [m_vars set_vars]. rewrite Hd, (hit_fits w r s x n k a HF Hk Hn). unfold put. now rewrite A1.
  - intros p x n Hp Hn. pose proof Hp as Hx. apply follow_valid in Hx as [o Ho]. destruct (HH x o Ho) as (d & Ho' & Hd).
    rewrite (look_app w' p n r x) by now rewrite FF. rewrite (look_app w p n r x) by exact Hp. cbn [look]. rewrite Ho, Ho'. cbn [m_vars set_vars]. rewrite Hd.
    destruct (hit w r s x n) as [a|] eqn:Eh.
    + exfalso. apply hit_Some in Eh as (k & Hk & Hkn). apply (Hn k); [apply (in_map fst) in Hk; exact Hk|exact Hkn].
    + destruct (dget n (m_vars o)) as [b|] eqn:Eb; [|reflexivity]. destruct b as [v|c]; [|reflexivity]. destruct v as [| | | | |y|]; try reflexivity.
      cbn [look]. assert (Ry : reaches w x y) by (apply (reaches_child w _ n _ W); exists o; split; eassumption). destruct Ry as [py Hy]. apply follow_valid in Hy as [oy Hoy]. destruct (HH y oy Hoy) as (dy & Hoy' & _). rewrite Hoy, Hoy'. reflexivity.
Qed.

(** ** Through a part *)
Definition twins (w w' : world) : Prop := forall x, match get_obj w x, get_obj w' x with
  | Some o, Some o' => m_cls o = m_cls o' /\ m_init o = m_init o' /\ forall n, dget n (m_vars o) = dget n (m_vars o')
  | None, None => True
  | _, _ => False
  end.
Lemma twins_look w w' : twins w w' -> forall q x, look w x q = look w' x q /\ follow w x q = follow w' x q.
Proof.
  intros H. induction q as [|n q IH]; intros x; specialize (H x); cbn [look follow]; destruct (get_obj w x) as [o|], (get_obj w' x) as [o'|]; try tauto; destruct H as (A & B & C).
  - rewrite A, B. auto.
  - rewrite <- C. destruct (dget n (m_vars o)) as [a|]; [|auto]. destruct a as [v|c]; [|auto]. destruct v; auto.
Qed.
Lemma twins_same w w' : wf_world w -> wf_world w' -> w_nodes w = w_nodes w' -> List.length (w_heap w) = List.length (w_heap w') -> twins w w' -> same_everywhere w w'.
Proof.
  intros W W' NT Len H. split; [intros x q; now apply twins_look|]. split; [intros x q; now apply twins_look|].
  assert (B : bisim w w' (fun x y => x = y /\ exists o, get_obj w x = Some o)).
  { constructor; [|intros x y y' [-> _] [-> _]; reflexivity|intros x x' y [-> _] [-> _]; reflexivity].
    intros x y [<- [o Ho]]. pose proof (H x) as Hx. rewrite Ho in Hx. destruct (get_obj w' x) as [o'|]; [|destruct Hx]. destruct Hx as (A & B & C). exists o, o'. do 4 (split; [auto|]).
    intros n. rewrite <- C. destruct (dget n (m_vars o)) as [a|] eqn:Ea; [|exact Logic.I]. destruct a as [v|c]; [|split; reflexivity]. destruct v as [| | | | |y|]; try (split; reflexivity).
    cbn. split; [reflexivity|]. assert (Ry : reaches w x y) by (apply (reaches_child w _ n _ W); exists o; split; eassumption). destruct Ry as [py Hy]. now apply follow_valid in Hy. }
  split; intros x; destruct (get_obj w x) as [o|] eqn:Ho.
  - apply (bisim_get_state w w' _ x x W W' B NT). split; [reflexivity|eauto].
  - pose proof (H x) as Hx. rewrite Ho in Hx. destruct (get_obj w' x) as [o'|] eqn:Ho'; [destruct Hx|]. unfold get_state, iter_state, dfs_fuel. rewrite Len. cbn [iter_state_rec]. now rewrite Ho, Ho'.
  - apply (bisim_module_def w w' _ x x W W' B NT). split; [reflexivity|eauto].
  - pose proof (H x) as Hx. rewrite Ho in Hx. destruct (get_obj w' x) as [o'|] eqn:Ho'; [destruct Hx|]. unfold get_module_def, dfs_fuel. rewrite Len. cbn. now rewrite Ho, Ho'.
Qed.
Lemma split_below p k : p <> [] -> Forall no_slash p -> split_slash (join_path p ++ "/" ++ k) = p ++ split_slash k.
Proof.
  intros Ne Np. rewrite <- (join_split k) at 1. rewrite <- join_app by (auto; apply split_slash_nonnil). apply split_join; [destruct p; [congruence|discriminate]|]. apply Forall_app. split; [exact Np|apply split_slash_noslash].
Qed.
Lemma target_below w r p c k : p <> [] -> Forall no_slash p -> follow w r p = Some c -> target w r (join_path p ++ "/" ++ k) = target w c k.
Proof.
  intros Ne Np F. unfold target. rewrite split_below by assumption. pose proof (split_slash_nonnil k) as Nk. assert (Q : p ++ split_slash k = (p ++ removelast (split_slash k)) ++ [last (split_slash k) ""]) by (rewrite <- app_assoc; f_equal; now apply app_removelast_last).
  rewrite Q, removelast_last, last_last, follow_app, F. reflexivity.
Qed.
Lemma named_below w r p c k x n : p <> [] -> Forall no_slash p -> follow w r p = Some c -> named w r (join_path p ++ "/" ++ k) x n <-> named w c k x n.
Proof. intros Ne Np F. rewrite !named_target. now rewrite (target_below w r p c). Qed.
Lemma hit_below w r p c s x n : p <> [] -> Forall no_slash p -> follow w r p = Some c -> hit w r (below p s) x n = hit w c s x n.
Proof.
  intros Ne Np F. induction s as [|[k a] s IH]; [reflexivity|]. unfold below. cbn [map hit fst snd]. fold (below p s). rewrite (target_below w r p c) by assumption. rewrite IH. reflexivity.
Qed.
Lemma below_inj (p : list string) k k' : (join_path p ++ "/" ++ k)%string = (join_path p ++ "/" ++ k')%string -> k = k'.
Proof. induction (join_path p) as [|ch t IH]; cbn; intros H; [congruence|]. injection H as H. auto. Qed.
Lemma dget_below p s k a : dget k (below p s) = Some a -> exists k0, k = (join_path p ++ "/" ++ k0)%string /\ dget k0 s = Some a.
Proof.
  induction s as [|[j b] s IH]; [discriminate|]. unfold below. cbn [map dget fst snd]. fold (below p s). destruct (String.eqb_spec k (join_path p ++ "/" ++ j)%string) as [->|Ne].
  - intros [= ->]. exists j. now rewrite String.eqb_refl.
  - intros H. destruct (IH H) as (k0 & -> & D). exists k0. split; [reflexivity|]. destruct (String.eqb_spec k0 j) as [->|]; [congruence|exact D].
Qed.
Lemma keys_below p s k : In k (keys (below p s)) -> exists k0, k = (join_path p ++ "/" ++ k0)%string /\ In k0 (keys s).
Proof. unfold keys, below. rewrite map_map. cbn [fst]. intros H. apply in_map_iff in H as ([k0 a] & <- & H). exists k0. split; [reflexivity|]. apply (in_map fst) in H. exact H. Qed.
Lemma fits_below w r p c s : p <> [] -> Forall no_slash p -> follow w r p = Some c -> fits w c s -> fits w r (below p s).
Proof.
  intros Ne Np F (ND & HS & HU). split; [|split].
  - unfold keys, below. rewrite map_map. cbn [fst]. apply (NoDup_map_via fst _ s ND). intros x y _ _ Q. now apply below_inj in Q.
  - intros k a Hk. apply dget_below in Hk as (k0 & -> & Hk). destruct (HS k0 a Hk) as (Wa & Sa & x & n & res & Hn & Hst). split; [exact Wa|]. split; [exact Sa|]. exists x, n, res. split; [|exact Hst]. now apply (named_below w r p c).
  - intros k k' x n Hk Hk' Hn Hn'. apply keys_below in Hk as (j & -> & Hj). apply keys_below in Hk' as (j' & -> & Hj'). apply (named_below w r p c) in Hn, Hn'; auto. now rewrite (HU j j' x n Hj Hj' Hn Hn').
Qed.
Lemma hits_twins w r s c s' w1 w2 : hits w r s w1 -> hits w c s' w2 -> List.length (w_heap w1) = List.length (w_heap w) -> List.length (w_heap w2) = List.length (w_heap w) ->
  (forall x n, hit w r s x n = hit w c s' x n) -> twins w1 w2.
Proof.
  intros H1 H2 L1 L2 HE x. destruct (get_obj w x) as [o|] eqn:Ho.
  - destruct (H1 x o Ho) as (d1 & A1 & B1). destruct (H2 x o Ho) as (d2 & A2 & B2). rewrite A1, A2. split; [reflexivity|]. split; [reflexivity|]. intros n. cbn [m_vars set_vars]. now rewrite B1, B2, HE.
  - assert (Q : forall v, List.length (w_heap v) = List.length (w_heap w) -> get_obj v x = None).
    { intros v Lv. destruct (get_obj v x) eqn:Q; [|reflexivity]. apply get_obj_lt in Q. rewrite Lv in Q. apply get_obj_ex in Q as [oo Q]. congruence. }
    now rewrite (Q w1 L1), (Q w2 L2).
Qed.
Theorem update_part w r p c s : wf_world w -> valid w r -> names_ok w r -> live w r -> p <> [] -> follow w r p = Some c -> fits w c s ->
  exists w1 w2, update_state w r (UStates (One (below p s))) = (w1, Ok tt) /\ update_state w c (UStates (One s)) = (w2, Ok tt) /\ same_everywhere w1 w2 /\ w_trace w1 = w_trace w2.
Proof.
  intros W V N L Ne F HF. pose proof (names_no_slash w r p c N F) as Np. assert (Rc : reaches w r c) by now exists p.
  assert (Nc : names_ok w c) by (intros x o n a Hx; apply N; eapply reaches_trans; eauto).
  assert (Lc : live w c) by (intros x o Hx; apply L; eapply reaches_trans; eauto).
  assert (Vc : valid w c) by (apply follow_valid in F as [o Ho]; eapply get_obj_lt; eauto).
  destruct (update_hits w r (below p s) W V N L (fits_below w r p c s Ne Np F HF)) as (w1 & U1 & W1 & H1 & _ & _ & T1 & N1 & L1).
  destruct (update_hits w c s W Vc Nc Lc HF) as (w2 & U2 & W2 & H2 & _ & _ & T2 & N2 & L2).
  exists w1, w2. split; [exact U1|]. split; [exact U2|]. split; [|congruence]. apply twins_same; auto; try congruence.
  apply (hits_twins w r (below p s) c s); auto. intros x n. now apply hit_below.
Qed.
(** the same attributes under other names *)
Theorem update_renamed w r s s' : wf_world w -> valid w r -> names_ok w r -> live w r -> fits w r s -> fits w r s' ->
  (forall x n a, (exists k, dget k s = Some a /\ named w r k x n) <-> (exists k, dget k s' = Some a /\ named w r k x n)) ->
  exists w1 w2, update_state w r (UStates (One s)) = (w1, Ok tt) /\ update_state w r (UStates (One s')) = (w2, Ok tt) /\ same_everywhere w1 w2 /\ w_trace w1 = w_trace w2.
Proof.
  intros W V N L HF HF' HE.
  destruct (update_hits w r s W V N L HF) as (w1 & U1 & W1 & H1 & _ & _ & T1 & N1 & L1).
  destruct (update_hits w r s' W V N L HF') as (w2 & U2 & W2 & H2 & _ & _ & T2 & N2 & L2).
  exists w1, w2. split; [exact U1|]. split; [exact U2|]. split; [|congruence]. apply twins_same; auto; try congruence.
  apply (hits_twins w r s r s'); auto. intros x n.
  assert (Q : forall a, hit w r s x n = Some a <-> hit w r s' x n = Some a).
  { intros a. split; intros H; apply hit_Some in H as (k & Hk & Hn).
    - destruct (proj1 (HE x n a)) as (k' & Hk' & Hn'); [exists k; split; [apply In_dget; [apply HF|exact Hk]|exact Hn]|]. now apply (hit_fits w r s' x n k').
    - destruct (proj2 (HE x n a)) as (k' & Hk' & Hn'); [exists k; split; [apply In_dget; [apply HF'|exact Hk]|exact Hn]|]. now apply (hit_fits w r s x n k'). }
  destruct (hit w r s x n) as [a|] eqn:E1; [symmetry; now apply Q|]. destruct (hit w r s' x n) as [a|] eqn:E2; [now apply Q|reflexivity].
Qed.

Lemma dget_keys_ext (l l' : state) : keys l = keys l' -> NoDup (keys l) -> (forall k, dget k l = dget k l') -> l = l'.
Proof.
  revert l'. induction l as [|[k a] l IH]; intros [|[k' a'] l']; cbn; try discriminate; auto. intros [= <- K] N D. inversion N as [|? ? N1 N2]; subst.
  pose proof (D k) as Dk. rewrite String.eqb_refl in Dk. injection Dk as <-. f_equal. apply IH; auto. intros j. specialize (D j). destruct (String.eqb_spec j k) as [Ej|]; [rewrite Ej|exact D].
  assert (N1' : ~ In k (keys l')) by (unfold keys; rewrite <- K; exact N1). apply dget_None in N1, N1'. congruence.
Qed.
(** ** Loading the values of another model into a part *)
Theorem transfer w r p c b sb sc : wf_world w -> valid w r -> names_ok w r -> live w r -> valid w b -> names_ok w b -> p <> [] -> follow w r p = Some c ->
  get_state w b = Ok sb -> get_state w c = Ok sc -> Forall2 (fun x y => fst x = fst y /\ same_shape (snd x) (snd y)) sc sb ->
  exists w1, update_state w r (UStates (One (below p sb))) = (w1, Ok tt) /\ assigned w r (below p sb) w1 /\ get_state w1 c = Ok sb /\ get_module_def w1 c = get_module_def w c.
Proof.
  intros W V N L Vb Nb Ne F Gb Gc HS. pose proof (names_no_slash w r p c N F) as Np. assert (Rc : reaches w r c) by now exists p.
  assert (Nc : names_ok w c) by (intros x o n a Hx; apply N; eapply reaches_trans; eauto).
  assert (Lc : live w c) by (intros x o Hx; apply L; eapply reaches_trans; eauto).
  assert (Vc : valid w c) by (apply follow_valid in F as [o Ho]; eapply get_obj_lt; eauto).
  destruct (graph_exists w c W Vc) as (d & LL & Hg).
  destruct (get_state_graph w c d LL W Vc Hg Nc) as (E & s0 & Hs0 & Hwf & (HE1 & HE2 & HE3) & HEf & HPE & HND & Hsl). assert (s0 = sc) by congruence. subst s0.
  pose proof (state_item E sc HND HPE) as Hitem.
  destruct (graph_exists w b W Vb) as (db & LB & Hgb).
  destruct (get_state_graph w b db LB W Vb Hgb Nb) as (EB & s0 & Hsb0 & Hwfb & (HB1 & _) & _ & HPB & HNDB & _). assert (s0 = sb) by congruence. subst s0.
  pose proof (state_item EB sb HNDB HPB) as Bitem.
  assert (HK : keys sb = keys sc) by (clear - HS; unfold keys; induction HS as [|x y l l' [Q _] _ IH]; cbn; congruence).
  assert (HD : forall k a, dget k sb = Some a -> exists old, dget k sc = Some old /\ same_shape old a).
  { intros k a. clear - HS. induction HS as [|[k1 x] [k2 y] l l' [Q Q2] _ IH]; cbn in *; [discriminate|]. subst k2. destruct (String.eqb k k1); [intros [= <-]; eauto|exact IH]. }
  assert (HA : forall k a, dget k sb = Some a -> wf_attr a /\ is_submodule a = false /\ node_value w a).
  { intros k a Hk. apply Bitem in Hk as (j & Hj & _ & ->). destruct (HB1 j Hj) as [_ G]. pose proof G as (o & A1 & A2 & A3 & A4). split; [exact (wfo_attrs _ _ (wf_objs _ W _ _ A1) _ _ A2)|]. split; [exact A3|exact A4]. }
  assert (HI : forall i, In i E -> named w c (join_path (i_path i ++ [i_name i])) (i_own i) (i_name i)).
  { intros i Hi. exists (i_path i). destruct (Hsl i Hi). split; [|now apply HEf]. apply split_join; [destruct (i_path i); discriminate|]. apply Forall_app. auto. }
  assert (HF : fits w c sb).
  { split; [now apply wf_NoDup|]. split.
    - intros k a Hk. destruct (HA k a Hk) as (Wa & Sa & _). split; [exact Wa|]. split; [exact Sa|]. destruct (HD k a Hk) as (old & Ho & Hsh). apply Hitem in Ho as (i & Hi & -> & ->).
      exists (i_own i), (i_name i), a. split; [now apply HI|]. destruct (HE1 i Hi) as [_ G]. pose proof G as (o & A1 & A2 & A3 & A4). exists o. split; [exact A1|]. split.
      + intros Q. apply (wfo_reserved _ _ (wf_objs _ W _ _ A1)). rewrite <- Q. eapply dget_In_keys; eauto.
      + rewrite A2. split; [exact A3|]. now apply shape_overwrites.
    - intros k k' x n Hk Hk' Hn Hn'. rewrite HK in Hk, Hk'. apply dget_Some_keys in Hk as (u & Hk). apply dget_Some_keys in Hk' as (u' & Hk'). apply Hitem in Hk as (i & Hi & -> & _). apply Hitem in Hk' as (i' & Hi' & -> & _).
      pose proof (HI i Hi) as Q. pose proof (HI i' Hi') as Q'. apply named_target in Hn, Hn', Q, Q'. rewrite Q in Hn. rewrite Q' in Hn'. injection Hn as A1 A2. injection Hn' as B1 B2.
      assert (i = i') by (apply (slot_inj E); auto; unfold i_slot; congruence). now subst i'. }
  destruct (update_assigns w r (below p sb) W V N L (fits_below w r p c sb Ne Np F HF)) as (w1 & U1 & AS). exists w1. split; [exact U1|]. split; [exact AS|].
  destruct (update_part w r p c sb W V N L Ne F HF) as (w1' & w2 & U1' & U2 & (_ & _ & S3 & S4) & _). assert (w1' = w1) by congruence. subst w1'. rewrite S3, S4.
  destruct (update_state_effect w c (UStates (One sb)) [sb] sc W Vc Nc Lc Gc eq_refl) as (w2' & U2' & UE).
  - discriminate.
  - constructor; [now apply wf_NoDup|constructor].
  - intros k a Hk. cbn [latest] in Hk. destruct (HA k a Hk) as (Wa & Sa & Na). split; [exact Wa|]. split; [exact Sa|]. destruct (HD k a Hk) as (old & Ho & Hsh). exists old, a. split; [exact Ho|]. split; [now apply shape_overwrites|exact Na].
  - assert (w2' = w2) by congruence. subst w2'. split; [|apply UE]. destruct (ue_state _ _ _ _ _ UE) as (s' & Gs & Ks & Ds). rewrite Gs. f_equal.
    apply dget_keys_ext; [congruence|rewrite Ks; now apply wf_NoDup|]. intros k. destruct (dget k sb) as [a|] eqn:Ea.
    + destruct (HD k a Ea) as (old & Ho & Hsh). destruct (Ds k old Ho) as (res & Hres & Hl). cbn [latest] in Hl. rewrite Ea in Hl. apply shape_overwrites in Hsh. rewrite Hres. f_equal.
      destruct old as [v|c0], a as [v'|c']; cbn in Hl, Hsh; try congruence. destruct Hl as (_ & _ & ->). destruct Hsh as (_ & _ & ->). reflexivity.
    + apply dget_None. rewrite Ks, <- HK. now apply dget_None.
Qed.

(** ** Keys that name nothing *)
Lemma set_path_inv parts : forall w r a w', set_path w r parts a = Ok w' -> exists q n x, parts = q ++ [n] /\ follow w r q = Some x /\ setattr w x n a = Ok w'.
Proof.
  induction parts as [|m parts IH]; intros w r a w'; cbn [set_path]; [discriminate|]. destruct parts as [|m' parts].
  - intros H. exists [], m, r. split; [reflexivity|]. split; [|exact H]. unfold setattr in H. cbn [follow]. destruct (get_obj w r); [reflexivity|discriminate].
  - destruct (get_obj w r) as [o|] eqn:Ho; [|discriminate]. destruct (dget m (m_vars o)) as [b|] eqn:Eb; [|destruct (String.eqb m "_module__state"); discriminate].
    destruct b as [v|c]; [|discriminate]. destruct v; try discriminate. intros H. destruct (IH _ _ _ _ H) as (q & n & x & E & F & G). exists (m :: q), n, x. split; [cbn; now rewrite E|]. split; [|exact G]. cbn [follow]. now rewrite Ho, Eb.
Qed.
Lemma setattr_shrinks w x n a w' : is_submodule a = false -> setattr w x n a = Ok w' -> forall q y z, follow w' y q = Some z -> follow w y q = Some z.
Proof.
  intros Sa H. unfold setattr in H. destruct (get_obj w x) as [o|] eqn:Ho; [|discriminate]. destruct (trace_valid w (m_trace o)); [|discriminate]. cbn [negb] in H. destruct (String.eqb n "_module__state"); [discriminate|].
  destruct (assign_value (dget n (m_vars o)) a) as [b|] eqn:Eb; [|discriminate]. cbn [rbind] in H. injection H as <-. pose proof (assign_not_sub _ _ _ Sa Eb) as Sb.
  induction q as [|m q IH]; intros y z; cbn [follow]; destruct (Nat.eq_dec y x) as [->|Ne].
  - rewrite (get_put_same _ _ _ _ Ho), Ho. auto.
  - rewrite get_put_other by auto. auto.
  - rewrite (get_put_same _ _ _ _ Ho), Ho. cbn [m_vars set_vars]. rewrite dget_dset. destruct (String.eqb m n) eqn:Em.
    + destruct b as [v|c]; [|discriminate]. destruct v; discriminate.
    + destruct (dget m (m_vars o)) as [c|]; [|discriminate]. destruct c as [v|c]; [|discriminate]. destruct v; try discriminate. apply IH.
  - rewrite get_put_other by auto. destruct (get_obj w y) as [oy|]; [|discriminate]. destruct (dget m (m_vars oy)) as [c|]; [|discriminate]. destruct c as [v|c]; [|discriminate]. destruct v; try discriminate. apply IH.
Qed.
Lemma update_loop_named items : forall w r w', (forall k a, In (k, a) items -> is_submodule a = false) -> update_loop w r items = (w', Ok tt) ->
  forall k a, In (k, a) items -> exists x n, named w r k x n.
Proof.
  induction items as [|[k0 a0] items IH]; intros w r w' Hp H k a Hi; [destruct Hi|]. cbn [update_loop] in H. destruct (set_path w r (split_slash k0) a0) as [w1|e] eqn:E; [|discriminate].
  apply set_path_inv in E as (q & n & x & Q & F & G). destruct Hi as [[= <- <-]|Hi].
  - exists x, n, q. auto.
  - destruct (IH w1 r w') with (k := k) (a := a) as (y & m & q' & Q' & F'); auto; [intros; eapply Hp; right; eauto|]. exists y, m, q'. split; [exact Q'|].
    apply (setattr_shrinks w x n a0 w1); auto. apply (Hp k0). now left.
Qed.
Theorem update_named w r s w' : wf_world w -> valid w r -> names_ok w r -> NoDup (keys s) -> (forall k a, dget k s = Some a -> is_submodule a = false) ->
  update_state w r (UStates (One s)) = (w', Ok tt) -> forall k, In k (keys s) -> exists x n, named w r k x n.
Proof.
  intros W V N ND Hp U k Hk. destruct (graph_exists w r W V) as (d & L & Hg).
  destruct (get_state_graph w r d L W V Hg N) as (E & cur & G & Hwf & (HE1 & _) & _ & HPE & HND & _). pose proof (state_item E cur HND HPE) as Hitem.
  unfold update_state in U. rewrite G in U. cbn [sts_list] in U. unfold update_module in U. cbn [fold_left] in U. rewrite (dupdate_new cur []) in U by (cbn; auto; now apply wf_NoDup). cbn [app] in U.
  set (M := dupdate cur s) in U.
  assert (HM : forall j, dget j M = match dget j s with Some a => Some a | None => dget j cur end) by (intros j; unfold M; now rewrite dget_dupdate).
  assert (NM : NoDup (keys M)) by (unfold M; apply NoDup_keys_dupdate; now apply wf_NoDup).
  apply dget_Some_keys in Hk as (a & Ha). pose proof (HM k) as Mk. rewrite Ha in Mk. apply dget_In in Mk.
  eapply (update_loop_named M w r w'); [|exact U|exact Mk].
  intros j b Hj. apply (In_dget _ _ _ NM) in Hj. rewrite HM in Hj. destruct (dget j s) as [c|] eqn:Ec; [injection Hj as <-; eauto|].
  apply Hitem in Hj as (i & Hi & _ & ->). destruct (HE1 i Hi) as [_ (o & _ & _ & Si & _)]. exact Si.
Qed.
