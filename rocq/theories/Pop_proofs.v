(** pop_state. *)
From Coq Require Import Permutation.
From Verif Require Import PyBase PyBaseFacts ValuesM Spec_Eq ValuesFacts FiltersM StateM Spec_State State_proofs ModuleM Spec_Module Graph_facts
  Dfs_proofs RoundTrip_proofs Update_proofs Write_proofs.
Local Open Scope string_scope.
Local Open Scope list_scope.

(** ** deletions *)
Record popped (w v : world) (D : nat -> string -> bool) : Prop := {
  pp_uuid : w_uuid v = w_uuid w;
  pp_trace : w_trace v = w_trace w;
  pp_nodes : w_nodes v = w_nodes w;
  pp_len : List.length (w_heap v) = List.length (w_heap w);
  pp_obj : forall x, get_obj v x = match get_obj w x with
                                   | Some o => Some (set_vars o (filter (fun kv => negb (D x (fst kv))) (m_vars o)))
                                   | None => None
                                   end
}.

Lemma filter_all {A} (f : A -> bool) l : (forall x, In x l -> f x = true) -> filter f l = l.
Proof.
  induction l as [|x l IH]; cbn; intros H; [reflexivity|]. rewrite H by auto. f_equal. auto.
Qed.
Lemma popped_refl w : popped w w (fun _ _ => false).
Proof.
  constructor; auto. intros x. destruct (get_obj w x) as [o|]; [|reflexivity]. cbn. rewrite filter_all by reflexivity. now rewrite set_vars_id.
Qed.
Lemma popped_ext w v D D' : popped w v D -> (forall x n, D x n = D' x n) -> popped w v D'.
Proof.
  intros [H1 H2 H3 H4 H5] E. constructor; auto. intros x. rewrite H5. destruct (get_obj w x) as [o|]; [|reflexivity].
  do 2 f_equal. apply filter_ext. intros kv. now rewrite E.
Qed.

Lemma ddel_filter {A} n (d : list (string * A)) : NoDup (keys d) -> ddel n d = filter (fun kv => negb (String.eqb n (fst kv))) d.
Proof.
  induction d as [|[m a] d IH]; cbn; [reflexivity|]. intros H. inversion H as [|? ? H1 H2]; subst.
  destruct (String.eqb_spec n m) as [->|Hne]; cbn.
  - rewrite filter_all; [reflexivity|]. intros [k b] Hi. cbn. apply negb_true_iff. apply String.eqb_neq. intros ->.
    apply H1. change k with (fst (k, b)). now apply in_map.
  - f_equal. apply IH. exact H2.
Qed.
Lemma filter_filter {A} (f g : A -> bool) l : filter f (filter g l) = filter (fun x => g x && f x) l.
Proof. induction l as [|x l IH]; cbn; [reflexivity|]. destruct (g x); cbn; [destruct (f x)|]; now rewrite IH. Qed.

Lemma popped_del w v D x n o : wf_world w -> popped w v D -> get_obj w x = Some o -> In n (keys (m_vars o)) -> D x n = false ->
  exists v', delattr v x n = Ok v' /\ popped w v' (fun y m => D y m || (Nat.eqb x y && String.eqb n m)).
Proof.
  intros Hw Hp Ho Hn HD. pose proof (wf_objs _ Hw _ _ Ho) as W. unfold delattr. rewrite (pp_obj _ _ _ Hp), Ho. cbn.
  set (f := fun kv : string * attr => negb (D x (fst kv))).
  assert (Hm : dmem n (filter f (m_vars o)) = true).
  { apply dmem_In. unfold keys in *. apply in_map_iff in Hn as ([k a] & E & Hi). cbn in E. subst k.
    apply in_map_iff. exists (n, a). split; [reflexivity|]. apply filter_In. split; [exact Hi|]. unfold f. cbn. now rewrite HD. }
  rewrite Hm. eexists. split; [reflexivity|]. constructor; cbn; try apply Hp.
  - rewrite list_set_length. apply Hp.
  - intros y. rewrite get_put. rewrite (pp_len _ _ _ Hp). destruct (Nat.eqb_spec x y) as [->|Hne].
    + rewrite Ho. assert (L : y < List.length (w_heap w)) by (eapply get_obj_lt; eauto). apply Nat.ltb_lt in L. rewrite L.
      cbn. unfold set_vars. cbn. do 2 f_equal. rewrite ddel_filter by (apply NoDup_keys_filter; apply W).
      rewrite filter_filter. apply filter_ext. intros kv. unfold f. now rewrite negb_orb.
    + cbn. rewrite (pp_obj _ _ _ Hp). destruct (get_obj w y); [|reflexivity]. do 2 f_equal. apply filter_ext. intros kv.
      now rewrite orb_false_r.
Qed.

Lemma popped_child w v D : wf_world w -> popped w v D ->
  (forall x n y, D x n = true -> ~ child w x n y) -> forall x n y, child w x n y <-> child v x n y.
Proof.
  intros Hw Hp HD x n y. unfold child. rewrite (pp_obj _ _ _ Hp). destruct (get_obj w x) as [o|] eqn:Ho; [|split; intros (? & ? & _); discriminate].
  pose proof (wf_objs _ Hw _ _ Ho) as W.
  assert (G : dget n (filter (fun kv => negb (D x (fst kv))) (m_vars o)) = if D x n then None else dget n (m_vars o)).
  { rewrite (dget_filter_keys (fun k => negb (D x k))). destruct (D x n); reflexivity. }
  split.
  - intros (o' & [= <-] & Hd). eexists. split; [reflexivity|]. cbn. rewrite G. destruct (D x n) eqn:E; [|exact Hd].
    exfalso. apply (HD _ _ y E). exists o. auto.
  - intros (o' & [= <-] & Hd). cbn in Hd. rewrite G in Hd. destruct (D x n); [discriminate|]. eauto.
Qed.

(** ** the popped dicts *)
Section Pop.
Variable ps : list predicate.
Definition matched (k : string) (a : attr) : bool := existsb (fun p : predicate => p k a) ps.
End Pop.
Definition pstep (ps : list predicate) (states : list (dict attr)) (i : item) : list (dict attr) :=
  match pop_match ps states (join_path (i_path i ++ [i_name i])) (i_val i) with Some s => s | None => states end.
Definition i_matched (ps : list predicate) (i : item) : bool := matched ps (join_path (i_path i ++ [i_name i])) (i_val i).

Lemma pop_match_spec ps : forall states k a, List.length states = List.length ps ->
  match pop_match ps states k a with
  | Some s => matched ps k a = true /\ List.length s = List.length ps /\
      exists i p, nth_error ps i = Some p /\ p k a = true /\ (forall j q, j < i -> nth_error ps j = Some q -> q k a = false) /\
        forall j, nth_error s j = if Nat.eqb j i then option_map (dset k a) (nth_error states j) else nth_error states j
  | None => matched ps k a = false
  end.
Proof.
  induction ps as [|p ps IH]; intros [|s states] k a Hl; try discriminate; [reflexivity|]. cbn in *.
  destruct (p k a) eqn:E.
  - cbn. split; [reflexivity|]. split; [lia|]. exists 0, p. split; [reflexivity|]. split; [exact E|]. split; [lia|].
    intros [|j]; reflexivity.
  - cbn. injection Hl as Hl. specialize (IH states k a Hl). destruct (pop_match ps states k a) as [s'|]; [|exact IH].
    destruct IH as (H1 & H2 & i & q & H3 & H4 & H5 & H6). split; [exact H1|]. split; [cbn; lia|]. exists (S i), q.
    split; [exact H3|]. split; [exact H4|]. split.
    + intros [|j] q' Hj Hq; cbn in Hq; [congruence|]. apply (H5 j); auto. lia.
    + intros [|j]; cbn; [reflexivity|apply H6].
Qed.
Lemma pstep_length ps states i : List.length states = List.length ps -> List.length (pstep ps states i) = List.length ps.
Proof.
  intros H. unfold pstep. pose proof (pop_match_spec ps states (join_path (i_path i ++ [i_name i])) (i_val i) H) as G.
  destruct (pop_match _ _ _ _); [apply G|exact H].
Qed.
Lemma psteps_length ps E : forall states, List.length states = List.length ps -> List.length (fold_left (pstep ps) E states) = List.length ps.
Proof. induction E; intros states H; cbn; auto. apply IHE. now apply pstep_length. Qed.

Definition first_pred (ps : list predicate) (i : nat) (k : string) (a : attr) : Prop :=
  (exists p, nth_error ps i = Some p /\ p k a = true) /\ (forall j q, j < i -> nth_error ps j = Some q -> q k a = false).
Lemma first_pred_unique ps i j k a : first_pred ps i k a -> first_pred ps j k a -> i = j.
Proof.
  intros [(p & P1 & P2) P3] [(q & Q1 & Q2) Q3]. destruct (Nat.lt_total i j) as [H|[H|H]]; auto.
  - rewrite (Q3 _ _ H P1) in P2. discriminate.
  - rewrite (P3 _ _ H Q1) in Q2. discriminate.
Qed.
Lemma matched_first ps k a : matched ps k a = true <-> exists i, first_pred ps i k a.
Proof.
  unfold matched. rewrite existsb_exists. split.
  - intros (p & Hp & E). induction ps as [|q ps IH]; [destruct Hp|]. destruct (q k a) eqn:Eq.
    + exists 0. split; [exists q; auto|]. intros j q' Hj. lia.
    + destruct Hp as [->|Hp]; [congruence|]. destruct (IH Hp) as (i & (p' & P1 & P2) & P3). exists (S i). split; [exists p'; auto|].
      intros [|j] q' Hj Hq; cbn in Hq; [congruence|]. apply (P3 j); auto. lia.
  - intros (i & (p & P1 & P2) & _). exists p. split; [eapply nth_error_In; eauto|exact P2].
Qed.

Lemma psteps_dget ps E : forall states, List.length states = List.length ps ->
  NoDup (map (fun i => join_path (i_path i ++ [i_name i])) E) ->
  forall j d, nth_error (fold_left (pstep ps) E states) j = Some d ->
  exists d0, nth_error states j = Some d0 /\ (NoDup (keys d0) -> NoDup (keys d)) /\
    ((forall i, In i E -> ~ In (join_path (i_path i ++ [i_name i])) (keys d0)) ->
     forall k a, dget k d = Some a <-> dget k d0 = Some a \/
       exists i, In i E /\ k = join_path (i_path i ++ [i_name i]) /\ a = i_val i /\ first_pred ps j k a).
Proof.
  induction E as [|i E IH]; intros states Hl Hn j d Hd; cbn in *.
  - exists d. split; [exact Hd|]. split; [auto|]. intros _ k a. split; [auto|intros [H|(? & [] & _)]; exact H].
  - inversion Hn as [|? ? Hni Hn']; subst.
    destruct (IH _ (pstep_length _ _ i Hl) Hn' _ _ Hd) as (d1 & H1 & H2 & H3). unfold pstep in H1.
    set (k0 := join_path (i_path i ++ [i_name i])) in *.
    pose proof (pop_match_spec ps states k0 (i_val i) Hl) as G. destruct (pop_match ps states k0 (i_val i)) as [s|] eqn:Em.
    + destruct G as (G1 & G2 & m & p & G3 & G4 & G5 & G6). rewrite G6 in H1. destruct (Nat.eqb_spec j m) as [->|Hne].
      * destruct (nth_error states m) as [d0|] eqn:Es; [|discriminate]. cbn in H1. injection H1 as <-. exists d0.
        split; [reflexivity|]. split; [intros; apply H2; now apply NoDup_keys_dset|].
        intros Hfresh k a. rewrite H3.
        -- rewrite dget_dset. assert (Hk0 : dget k0 d0 = None). { apply dget_None. apply Hfresh. now left. }
           destruct (String.eqb_spec k k0) as [->|Hk].
           ++ rewrite Hk0. split.
              ** intros [[= <-]|(i' & Hi & E1 & E2)]; [|exfalso; apply Hni; rewrite E1; apply in_map_iff; eauto].
                 right. exists i. split; [auto|]. split; [reflexivity|]. split; [reflexivity|]. split; [exists p; auto|exact G5].
              ** intros [H|(i' & [<-|Hi] & E1 & E2 & E3)]; [discriminate|left; congruence|].
                 exfalso. apply Hni. rewrite E1. apply in_map_iff; eauto.
           ++ split.
              ** intros [H|(i' & Hi & E1)]; [auto|]. right. exists i'. auto.
              ** intros [H|(i' & [<-|Hi] & E1)]; [auto|now destruct E1|]. right. exists i'. auto.
        -- intros i' Hi' Hk. apply In_keys_dset in Hk as [Hk|Hk]; [|now apply (Hfresh i' (or_intror Hi'))].
           apply Hni. rewrite <- Hk. apply in_map_iff; eauto.
      * exists d1. split; [exact H1|]. split; [exact H2|]. intros Hfresh k a. rewrite H3 by auto. split.
        -- intros [H|(i' & Hi & E1)]; [auto|]. right. exists i'. auto.
        -- intros [H|(i' & [<-|Hi] & E1 & E2 & E3)]; [auto| |right; exists i'; auto]. exfalso. apply Hne. apply (first_pred_unique ps j m k a); auto.
           subst k a. split; [exists p; auto|exact G5].
    + exists d1. split; [exact H1|]. split; [exact H2|]. intros Hfresh k a. rewrite H3 by auto. split.
      * intros [H|(i' & Hi & E1)]; [auto|]. right. exists i'. auto.
      * intros [H|(i' & [<-|Hi] & E1 & E2 & E3)]; [auto| |right; exists i'; auto]. exfalso. subst k a.
        assert (matched ps k0 (i_val i) = true) by (apply matched_first; eauto). congruence.
Qed.

(** ** the traversal on an acyclic module *)
Definition dset_of (ps : list predicate) (E : list item) (x : nat) (n : string) : bool :=
  existsb (fun i => Nat.eqb (i_own i) x && String.eqb (i_name i) n && i_matched ps i) E.

Section Walk.
Context (w : world) (ps : list predicate) (r0 : nat).
Hypothesis Hw : wf_world w.
Hypothesis Hac : acyclic w r0.

Record walked (V : list nat) (new : list nat) (E : list item) (self : nat -> string -> attr -> Prop) : Prop := {
  wk_nd : NoDup (V ++ new);
  wk_valid : Forall (valid w) (V ++ new);
  wk_closed : forall x n y, In x (V ++ new) -> child w x n y -> In y (V ++ new);
  wk_items : forall i, In i E -> node_attr w (i_own i) (i_name i) (i_val i) /\ follow w r0 (i_path i) = Some (i_own i) /\
                         (In (i_own i) new \/ self (i_own i) (i_name i) (i_val i));
  wk_all : forall x n a, (In x new \/ self x n a) -> node_attr w x n a -> exists i, In i E /\ i_own i = x /\ i_name i = n /\ i_val i = a;
  wk_slots : NoDup (map i_slot E);
  wk_paths : forall i j, In i E -> In j E -> i_own i = i_own j -> i_path i = i_path j
}.

Lemma walked_nil V (self : nat -> string -> attr -> Prop) : NoDup V -> Forall (valid w) V ->
  (forall x n y, In x V -> child w x n y -> In y V) -> (forall x n a, ~ self x n a) -> walked V [] [] self.
Proof.
  intros H1 H2 H3 H4. constructor; rewrite ?app_nil_r; auto.
  - intros i [].
  - intros x n a [[]|H]. now apply H4 in H.
  - constructor.
  - intros i j [].
Qed.

Definition inv (v : world) (D : nat -> string -> bool) (V : list nat) (r : nat) : Prop :=
  popped w v D /\ NoDup V /\ Forall (valid w) V /\ (forall x n y, In x V -> child w x n y -> In y V) /\
  (forall x n, reaches w r x -> x <> r -> D x n = true -> In x V).

Lemma is_sub_child x o n r : get_obj w x = Some o -> dget n (m_vars o) = Some (ARaw (PyMod r)) -> child w x n r.
Proof. intros. exists o. auto. Qed.

Lemma closed_reach V x y : (forall x n y, In x V -> child w x n y -> In y V) -> In x V -> reaches w x y -> In y V.
Proof. intros HC Hx Hr. apply (closed_reaches w (fun z => In z V) x); auto. Qed.

(** the attribute fields: the path of an item found below [l] *)
Definition field_first (l : list (string * attr)) (r : nat) (parts : list string) (i : item) : Prop :=
  (i_own i = r /\ i_path i = parts) \/
  exists n c q, In (n, ARaw (PyMod c)) l /\ i_path i = parts ++ n :: q /\ first_assigned w c q (i_own i) /\
    forall m d q', In (m, ARaw (PyMod d)) l -> follow w d q' = Some (i_own i) ->
      m = n \/ exists l1 l2 l3, keys l = l1 ++ n :: l2 ++ m :: l3.

Lemma field_first_cons l r parts i na : (forall d q', snd na = ARaw (PyMod d) -> follow w d q' <> Some (i_own i)) ->
  field_first l r parts i -> field_first (na :: l) r parts i.
Proof.
  intros Hn [H|(n & c & q & H1 & H2 & H3 & H4)]; [now left|]. right. exists n, c, q. split; [now right|]. split; [exact H2|]. split; [exact H3|].
  intros m d q' [->|Hm] Hf; [exfalso; apply (Hn d q'); auto|]. destruct (H4 m d q' Hm Hf) as [->|(l1 & l2 & l3 & E)]; [now left|].
  right. exists (fst na :: l1), l2, l3. change (keys (na :: l)) with (fst na :: keys l). now rewrite E.
Qed.

Lemma assigned_before_cons x n c p q : child w x n c -> assigned_before w c p q -> assigned_before w x (n :: p) (n :: q).
Proof.
  intros Hc (c0 & a & b & p' & q' & z & o & l1 & l2 & l3 & -> & -> & Hf & Ho & Hk).
  exists (n :: c0), a, b, p', q', z, o, l1, l2, l3. repeat (split; [reflexivity|]). split; [|auto].
  destruct Hc as (ox & Hox & Hd). cbn. now rewrite Hox, Hd.
Qed.

Definition rec_ok (fuel : nat) : Prop := forall v r V parts states stack D,
  inv v D V r -> (forall n, D r n = true -> In r V) -> follow w r0 parts = Some r ->
  NoDup stack -> Forall (valid w) stack -> (forall s, In s stack -> reaches w r0 s /\ exists p, p <> [] /\ follow w s p = Some r) ->
  List.length (w_heap w) - List.length stack < fuel -> List.length states = List.length ps ->
  exists new E v', pop_rec fuel ps v r (ids w V) parts states = (v', Ok (ids w (V ++ new), fold_left (pstep ps) E states)) /\
    walked V new E (fun _ _ _ => False) /\ In r (V ++ new) /\ (forall x, In x new -> reaches w r x) /\
    (forall i, In i E -> exists q, i_path i = parts ++ q /\ first_assigned w r q (i_own i)) /\
    popped w v' (fun x n => D x n || dset_of ps E x n).

Lemma fields_ok fuel r o parts stack : rec_ok fuel -> get_obj w r = Some o -> follow w r0 parts = Some r ->
  NoDup stack -> Forall (valid w) stack -> In r stack ->
  (forall s, In s stack -> reaches w r0 s) ->
  (forall s, In s stack -> s = r \/ exists p, p <> [] /\ follow w s p = Some r) ->
  List.length (w_heap w) - List.length stack < fuel ->
  forall l pre V v D states, m_vars o = pre ++ l -> ~ In r V ->
  inv v D V r -> (forall n, D r n = true -> In n (keys pre)) -> List.length states = List.length ps ->
  exists new E v', pop_fields (fun w r mi parts st => pop_rec fuel ps w r mi parts st) (w_nodes w) ps r l v (ids w V) parts states
      = (v', Ok (ids w (V ++ new), fold_left (pstep ps) E states)) /\
    walked V new E (fun x n a => x = r /\ In (n, a) l) /\ ~ In r (V ++ new) /\ (forall x, In x new -> reaches w r x) /\
    (forall n y, In (n, ARaw (PyMod y)) l -> In y (V ++ new)) /\
    (forall i, In i E -> i_own i = r -> i_path i = parts) /\
    (forall i, In i E -> field_first l r parts i) /\
    popped w v' (fun x n => D x n || dset_of ps E x n).
Proof.
  intros Hrec Ho Hfp Hst Hstv Hrs Hsr Hsp Hfuel. pose proof (wf_objs _ Hw _ _ Ho) as W.
  assert (Hrr : reaches w r0 r) by (exists parts; auto).
  assert (Hnr : forall c p n, child w r n c -> follow w c p <> Some r).
  { intros c p n Hc Hp. apply (Hac r (n :: p) Hrr); [discriminate|]. now rewrite (child_follow _ _ _ _ _ Hc). }
  induction l as [|[n a] l IH]; intros pre V v D states Hpre HrV Hinv HD Hlen.
  - exists [], [], v. cbn. rewrite !app_nil_r. destruct Hinv as (I1 & I2 & I3 & I4 & I5). split; [reflexivity|].
    split; [apply walked_nil; auto; intros ? ? ? [_ []]|].
    split; [exact HrV|]. split; [intros ? []|]. split; [intros ? ? []|]. split; [intros ? []|]. split; [intros ? []|].
    eapply popped_ext; [exact I1|]. intros. cbn. now rewrite orb_false_r.
  - assert (Hdget : dget n (m_vars o) = Some a).
    { apply In_dget; [apply W|]. rewrite Hpre. apply in_or_app. right. now left. }
    assert (Hpre' : m_vars o = (pre ++ [(n, a)]) ++ l) by (rewrite <- app_assoc; exact Hpre).
    assert (Hnpre : ~ In n (keys pre)).
    { pose proof (wfo_names _ _ W) as Hnd. rewrite Hpre in Hnd. unfold keys in *. rewrite map_app in Hnd. cbn in Hnd.
      apply NoDup_remove_2 in Hnd. intros Hi. apply Hnd. apply in_or_app. auto. }
    assert (HDn : D r n = false) by (destruct (D r n) eqn:E; [exfalso; auto|reflexivity]).
    assert (Hkeys' : forall m, D r m = true -> In m (keys (pre ++ [(n, a)]))).
    { intros m Hm. unfold keys. rewrite map_app. apply in_or_app. left. now apply HD. }
    destruct (attr_cases (w_nodes w) a) as [[c ->]|[[S1 S2]|[S1 S2]]].
    + (* a submodule *)
      pose proof (is_sub_child _ _ _ _ Ho Hdget) as Hc. cbn [pop_fields].
      assert (Hvc : valid w c) by (eapply (wfo_refs _ _ W); eauto).
      destruct (get_obj_ex _ _ Hvc) as [oc Hoc].
      assert (Hfc : follow w r0 (parts ++ [n]) = Some c) by (eapply follow_snoc; eauto).
      destruct Hinv as (I1 & I2 & I3 & I4 & I5).
      destruct (Hrec v c V (parts ++ [n]) states stack D) as (new & E & v' & Hrun & Hwk & Hc' & Hreach & Hfst & Hpop); auto.
      { split; [exact I1|]. split; [exact I2|]. split; [exact I3|]. split; [exact I4|].
        intros x m Hx Hne Hd. apply (I5 x m); auto.
        - eapply reaches_trans; [|exact Hx]. eapply reaches_child; eauto.
        - intros ->. destruct Hx as [p Hp]. eapply Hnr; eauto. }
      { intros m Hd. apply (I5 c m); auto.
        - eapply reaches_child; eauto.
        - intros ->. apply (Hnr r [] n); auto. cbn. now rewrite Ho. }
      { intros s Hs. split; [auto|]. destruct (Hsp s Hs) as [->|(p & Hp & Hf)].
        - exists [n]. split; [discriminate|]. eapply follow_one; eauto.
        - exists (p ++ [n]). split; [destruct p; discriminate|]. eapply follow_snoc; eauto. }
      rewrite Hrun.
      destruct Hwk as [K1 K2 K3 K4 K5 K6 K7].
      assert (Hnewr : ~ In r (V ++ new)).
      { intros Hi. apply in_app_or in Hi as [Hi|Hi]; [contradiction|]. apply Hreach in Hi as [p Hp]. eapply Hnr; eauto. }
      destruct (IH (pre ++ [(n, ARaw (PyMod c))]) (V ++ new) v' (fun x m => D x m || dset_of ps E x m) (fold_left (pstep ps) E states))
        as (new2 & E2 & v2 & Hrun2 & [M1 M2 M3 M4 M5 M6 M7] & Hr2 & Hreach2 & Hsub2 & Hpar2 & Hff2 & Hpop2); auto.
      { split; [exact Hpop|]. split; [exact K1|]. split; [exact K2|]. split; [exact K3|].
        intros x m Hx Hne Hd. apply orb_true_iff in Hd as [Hd|Hd]; [apply in_or_app; left; eauto|].
        unfold dset_of in Hd. apply existsb_exists in Hd as (i & Hi & Hb). rewrite !andb_true_iff, Nat.eqb_eq in Hb.
        destruct Hb as [[<- _] _]. destruct (K4 i Hi) as (_ & _ & [Hin|[]]). apply in_or_app. now right. }
      { intros m Hd. apply orb_true_iff in Hd as [Hd|Hd]; [now apply Hkeys'|].
        exfalso. unfold dset_of in Hd. apply existsb_exists in Hd as (i & Hi & Hb). rewrite !andb_true_iff, Nat.eqb_eq in Hb.
        destruct Hb as [[Hb _] _]. destruct (K4 i Hi) as (_ & _ & [Hin|[]]). apply Hnewr. apply in_or_app. right. congruence. }
      { now apply psteps_length. }
      exists (new ++ new2), (E ++ E2), v2. rewrite app_assoc, fold_left_app. split; [exact Hrun2|].
      assert (Hdisj : forall i j, In i E -> In j E2 -> i_own i <> i_own j).
      { intros i j Hi Hj Eq. destruct (K4 i Hi) as (_ & _ & [A|[]]). destruct (M4 j Hj) as (_ & _ & [B|[B _]]).
        - eapply (NoDup_app_disj (V ++ new) new2 (i_own i)); eauto; [apply in_or_app; now right|congruence].
        - apply Hnewr. apply in_or_app. right. congruence. }
      split.
      { constructor; rewrite ?app_assoc; auto.
        - intros i Hi. apply in_app_or in Hi as [Hi|Hi].
          + destruct (K4 i Hi) as (A & B & [C|[]]). split; [exact A|]. split; [exact B|]. left. apply in_or_app. auto.
          + destruct (M4 i Hi) as (A & B & [C|[C1 C2]]); split; auto; split; auto; [left; apply in_or_app; auto|right; split; [auto|now right]].
        - intros x m b Hx Hna. destruct Hx as [Hx|[-> [[= <- <-]|Hx]]].
          + apply in_app_or in Hx as [Hx|Hx].
            * destruct (K5 x m b (or_introl Hx) Hna) as (i & ? & ?). exists i. split; [apply in_or_app|]; auto.
            * destruct (M5 x m b (or_introl Hx) Hna) as (i & ? & ?). exists i. split; [apply in_or_app|]; auto.
          + destruct Hna as (? & _ & _ & Hna & _). discriminate.
          + destruct (M5 r m b (or_intror (conj eq_refl Hx)) Hna) as (i & ? & ?). exists i. split; [apply in_or_app|]; auto.
        - apply NoDup_map_app; auto. intros i j Hi Hj Eq. unfold i_slot in Eq. injection Eq as Eq _. now apply (Hdisj i j).
        - intros i j Hi Hj Eq. destruct (in_app_or _ _ _ Hi) as [Hi'|Hi'], (in_app_or _ _ _ Hj) as [Hj'|Hj']; auto.
          + exfalso. now apply (Hdisj i j).
          + exfalso. apply (Hdisj j i); auto. }
      split; [exact Hr2|]. split.
      { intros x Hx. apply in_app_or in Hx as [Hx|Hx]; [|auto]. eapply reaches_trans; [|apply Hreach; exact Hx]. eapply reaches_child; eauto. }
      split. { intros m y [[= <- <-]|Hy]; [apply in_or_app; now left|eauto]. }
      split.
      { intros i Hi Eq. apply in_app_or in Hi as [Hi|Hi]; [|auto]. exfalso. destruct (K4 i Hi) as (_ & _ & [A|[]]).
        apply Hnewr. apply in_or_app. right. congruence. }
      split.
      { intros i Hi. apply in_app_or in Hi as [Hi|Hi].
        - right. destruct (Hfst i Hi) as (q & Q1 & Q2). exists n, c, q. split; [now left|]. split; [rewrite Q1, <- app_assoc; reflexivity|].
          split; [exact Q2|]. intros m d q' [[= <- <-]|Hm] Hf; [now left|]. right. cbn [keys map fst].
          pose proof (in_map fst l _ Hm) as Hk. cbn in Hk. apply in_split in Hk as (l2 & l3 & Ek). exists [], l2, l3.
          unfold keys. cbn [map fst app]. now rewrite Ek.
        - apply field_first_cons; [|auto]. intros d q' Ed Hf. cbn in Ed. injection Ed as <-.
          destruct (M4 i Hi) as (_ & _ & [A|[A _]]); [|rewrite A in Hf; eapply Hnr; eauto].
          apply (NoDup_app_disj (V ++ new) new2 (i_own i)); auto. apply (closed_reach (V ++ new) c); [exact K3|exact Hc'|exists q'; exact Hf]. }
      eapply popped_ext; [exact Hpop2|]. intros x m. unfold dset_of. rewrite existsb_app. now rewrite orb_assoc.
    + (* a node *)
      assert (Hstep : pop_fields (fun w r mi parts st => pop_rec fuel ps w r mi parts st) (w_nodes w) ps r ((n, a) :: l) v (ids w V) parts states =
        match pop_match ps states (join_path (parts ++ [n])) a with
            | Some states1 =>
                match delattr v r n with
                | Ok w1 => pop_fields (fun w r mi parts st => pop_rec fuel ps w r mi parts st) (w_nodes w) ps r l w1 (ids w V) parts states1
                | Err e => (v, Err e)
                end
            | None => pop_fields (fun w r mi parts st => pop_rec fuel ps w r mi parts st) (w_nodes w) ps r l v (ids w V) parts states
            end).
      { cbn [pop_fields]. rewrite S2. destruct a as [[]|]; try reflexivity. discriminate. }
      rewrite Hstep. clear Hstep. destruct Hinv as (I1 & I2 & I3 & I4 & I5).
      set (it := (parts, r, n, a) : item).
      assert (Hit : pstep ps states it = match pop_match ps states (join_path (parts ++ [n])) a with Some s => s | None => states end) by reflexivity.
      assert (Hex : exists v1, match pop_match ps states (join_path (parts ++ [n])) a with
            | Some states1 =>
                match delattr v r n with
                | Ok w1 => pop_fields (fun w r mi parts st => pop_rec fuel ps w r mi parts st) (w_nodes w) ps r l w1 (ids w V) parts states1
                | Err e => (v, Err e)
                end
            | None => pop_fields (fun w r mi parts st => pop_rec fuel ps w r mi parts st) (w_nodes w) ps r l v (ids w V) parts states
            end = pop_fields (fun w r mi parts st => pop_rec fuel ps w r mi parts st) (w_nodes w) ps r l v1 (ids w V) parts (pstep ps states it)
            /\ popped w v1 (fun x m => D x m || dset_of ps [it] x m)).
      { rewrite Hit. pose proof (pop_match_spec ps states (join_path (parts ++ [n])) a Hlen) as G.
        destruct (pop_match ps states (join_path (parts ++ [n])) a) as [s|].
        - destruct G as [G _]. destruct (popped_del w v D r n o Hw I1 Ho (dget_In_keys _ _ _ Hdget) HDn) as (v1 & -> & Hp1). exists v1.
          split; [reflexivity|]. eapply popped_ext; [exact Hp1|]. intros x m. unfold dset_of, i_matched. cbn [existsb].
          change (matched ps (join_path (i_path it ++ [i_name it])) (i_val it)) with (matched ps (join_path (parts ++ [n])) a).
          rewrite G. change (i_own it) with r. change (i_name it) with n. now rewrite andb_true_r, orb_false_r.
        - exists v. split; [reflexivity|]. eapply popped_ext; [exact I1|]. intros x m. unfold dset_of, i_matched. cbn [existsb].
          change (matched ps (join_path (i_path it ++ [i_name it])) (i_val it)) with (matched ps (join_path (parts ++ [n])) a).
          rewrite G. now rewrite andb_false_r, !orb_false_r. }
      destruct Hex as (v1 & -> & Hp1).
      destruct (IH (pre ++ [(n, a)]) V v1 (fun x m => D x m || dset_of ps [it] x m) (pstep ps states it))
        as (new2 & E2 & v2 & Hrun2 & [M1 M2 M3 M4 M5 M6 M7] & Hr2 & Hreach2 & Hsub2 & Hpar2 & Hff2 & Hpop2); auto.
      { split; [exact Hp1|]. split; [exact I2|]. split; [exact I3|]. split; [exact I4|].
        intros x m Hx Hne Hd. apply orb_true_iff in Hd as [Hd|Hd]; [eauto|]. exfalso. unfold dset_of in Hd. cbn in Hd.
        rewrite orb_false_r, !andb_true_iff, Nat.eqb_eq in Hd. destruct Hd as [[Hd _] _]. unfold i_own in Hd. cbn in Hd. congruence. }
      { intros m Hd. apply orb_true_iff in Hd as [Hd|Hd]; [now apply Hkeys'|]. unfold dset_of in Hd. cbn in Hd.
        rewrite orb_false_r, !andb_true_iff, String.eqb_eq in Hd. destruct Hd as [[_ Hd] _]. unfold i_name in Hd. cbn in Hd. subst m.
        unfold keys. rewrite map_app. apply in_or_app. right. now left. }
      { now apply pstep_length. }
      exists new2, (it :: E2), v2. split; [exact Hrun2|].
      assert (Hna : node_attr w r n a) by (apply node_attr_iff; exists o; auto).
      split.
      { constructor; auto.
        - intros i [<-|Hi].
          + split; [exact Hna|]. split; [exact Hfp|]. right. split; [reflexivity|now left].
          + destruct (M4 i Hi) as (A & B & [C|[C1 C2]]); split; auto; split; auto. right. split; [auto|now right].
        - intros x m b Hx Hb. destruct Hx as [Hx|[-> [[= <- <-]|Hx]]].
          + destruct (M5 x m b (or_introl Hx) Hb) as (i & ? & ?). exists i. split; [now right|auto].
          + exists it. split; [now left|auto].
          + destruct (M5 r m b (or_intror (conj eq_refl Hx)) Hb) as (i & ? & ?). exists i. split; [now right|auto].
        - cbn. constructor; [|exact M6]. intros Hi. apply in_map_iff in Hi as (j & Ej & Hj). unfold i_slot in Ej. injection Ej as Ej1 Ej2.
          change (i_own it) with r in Ej1. change (i_name it) with n in Ej2. destruct (M4 j Hj) as (_ & _ & [C|[C1 C2]]).
          + apply Hr2. apply in_or_app. right. congruence.
          + rewrite Ej2 in C2. pose proof (wfo_names _ _ W) as Hnd. rewrite Hpre in Hnd. unfold keys in Hnd. rewrite map_app in Hnd. cbn in Hnd.
            apply NoDup_remove_2 in Hnd. apply Hnd. apply in_or_app. right. change n with (fst (n, i_val j)). now apply in_map.
        - intros i j [<-|Hi] [<-|Hj] Eq.
          + reflexivity.
          + symmetry. apply Hpar2; auto.
          + apply Hpar2; auto.
          + auto. }
      split; [exact Hr2|]. split; [exact Hreach2|]. split. { intros m y [[= <- ->]|Hy]; [discriminate|eauto]. }
      split. { intros i [<-|Hi] Eq; [reflexivity|auto]. }
      split. { intros i [<-|Hi]; [left; split; reflexivity|]. apply field_first_cons; [|auto]. intros d q' Ed. cbn in Ed. subst a. discriminate. }
      eapply popped_ext; [exact Hpop2|]. intros x m. unfold dset_of. cbn [existsb]. now rewrite orb_false_r, orb_assoc.
    + (* static *)
      assert (Hstep : pop_fields (fun w r mi parts st => pop_rec fuel ps w r mi parts st) (w_nodes w) ps r ((n, a) :: l) v (ids w V) parts states =
        pop_fields (fun w r mi parts st => pop_rec fuel ps w r mi parts st) (w_nodes w) ps r l v (ids w V) parts states).
      { cbn [pop_fields]. rewrite S2. destruct a as [[]|]; try reflexivity. discriminate. }
      rewrite Hstep.
      destruct (IH (pre ++ [(n, a)]) V v D states) as (new2 & E2 & v2 & Hrun2 & [M1 M2 M3 M4 M5 M6 M7] & Hr2 & Hreach2 & Hsub2 & Hpar2 & Hff2 & Hpop2); auto.
      exists new2, E2, v2. split; [exact Hrun2|]. split.
      { constructor; auto.
        - intros i Hi. destruct (M4 i Hi) as (A & B & [C|[C1 C2]]); split; auto; split; auto. right. split; [auto|now right].
        - intros x m b Hx Hb. destruct Hx as [Hx|[-> [[= <- <-]|Hx]]].
          + apply M5; auto.
          + exfalso. apply node_attr_iff in Hb as (? & _ & _ & _ & Hb). congruence.
          + apply M5; auto. }
      split; [exact Hr2|]. split; [exact Hreach2|]. split; [|split; [auto|split; [|auto]]].
      * intros m y [[= <- ->]|Hy]; [discriminate|eauto].
      * intros i Hi. apply field_first_cons; [|auto]. intros d q' Ed. cbn in Ed. subst a. discriminate.
Qed.

Lemma pop_rec_ok fuel : rec_ok fuel.
Proof.
  induction fuel as [|fuel IH]; intros v r V parts states stack D Hinv HDr Hfp Hst Hstv Hsp Hfuel Hlen; [lia|].
  destruct (follow_valid _ _ _ _ Hfp) as [o Ho]. assert (Hrr : reaches w r0 r) by (exists parts; auto).
  assert (Hv : valid w r) by (eapply get_obj_lt; eauto). pose proof (wf_objs _ Hw _ _ Ho) as W.
  destruct Hinv as (I1 & I2 & I3 & I4 & I5).
  cbn [pop_rec]. rewrite (pp_obj _ _ _ I1), Ho. cbn [m_id set_vars].
  assert (Hid : m_id o = idof w r) by (symmetry; now apply idof_get). rewrite Hid.
  destruct (nmem (idof w r) (ids w V)) eqn:Em.
  - apply nmem_In in Em. apply In_ids in Em; auto. exists [], [], v. rewrite app_nil_r. cbn. split; [reflexivity|].
    split; [apply walked_nil; auto|].
    split; [auto|]. split; [intros ? []|]. split; [intros ? []|]. eapply popped_ext; [exact I1|]. intros. cbn. now rewrite orb_false_r.
  - apply nmem_false in Em. assert (HrV : ~ In r V) by (intros Hi; apply Em; now apply In_ids).
    assert (HD : forall n, D r n = false) by (intros n; destruct (D r n) eqn:E; [exfalso; eauto|reflexivity]).
    assert (Evars : filter (fun kv : string * attr => negb (D r (fst kv))) (m_vars o) = m_vars o).
    { apply filter_all. intros kv _. now rewrite HD. }
    rewrite Evars, set_vars_id, (pp_nodes _ _ _ I1).
    assert (Hrst : ~ In r stack).
    { intros Hi. destruct (Hsp r Hi) as (_ & p & Hp & Hf). exact (Hac r p Hrr Hp Hf). }
    assert (Hnd2 : NoDup (r :: stack)) by (constructor; auto). assert (Hv2 : Forall (valid w) (r :: stack)) by (constructor; auto).
    pose proof (valid_length w (r :: stack) Hnd2 Hv2) as Hvl. cbn in Hvl.
    destruct (fields_ok fuel r o parts (r :: stack) IH Ho Hfp Hnd2 Hv2 (or_introl eq_refl)) with (l := m_vars o) (pre := @nil (string * attr))
      (V := V) (v := v) (D := D) (states := states)
      as (new & E & v' & Hrun & [K1 K2 K3 K4 K5 K6 K7] & Hr' & Hreach & Hsub & Hpar & Hff & Hpop); auto.
    { intros s [<-|Hs]; [auto|]. now apply Hsp. }
    { intros s [<-|Hs]; [auto|right; now apply Hsp]. }
    { cbn. lia. }
    { split; auto. }
    { intros n Hn. rewrite HD in Hn. discriminate. }
    rewrite Hrun. exists (new ++ [r]), E, v'. rewrite app_assoc. unfold ids. rewrite (map_app _ (V ++ new)). cbn [map]. fold (ids w (V ++ new)).
    split; [reflexivity|]. split.
    + constructor; rewrite ?app_assoc.
      * apply NoDup_app_intro; auto; [repeat constructor; auto|]. intros x Hx [<-|[]]. contradiction.
      * apply Forall_app; auto.
      * intros x n y Hx Hc. apply in_app_or in Hx as [Hx|[<-|[]]]; [apply in_or_app; left; eauto|].
        apply in_or_app. left. destruct Hc as (o' & Ho' & Hd). assert (o' = o) by congruence. subst.
        apply (Hsub n). now apply dget_In.
      * intros i Hi. destruct (K4 i Hi) as (A & B & [C|[C _]]); split; auto; split; auto; left; apply in_or_app; [auto|right; now left].
      * intros x n a [Hx|[]] Hna. apply in_app_or in Hx as [Hx|[<-|[]]]; [apply K5; auto|]. apply K5; [|exact Hna]. right. split; [reflexivity|].
        destruct Hna as (o' & Ho' & Hd & _). assert (o' = o) by congruence. subst. now apply dget_In.
      * exact K6.
      * exact K7.
    + split; [apply in_or_app; right; now left|]. split.
      * intros x Hx. apply in_app_or in Hx as [Hx|[<-|[]]]; [auto|]. eapply reaches_refl; eauto.
      * split; [|exact Hpop]. intros i Hi. destruct (Hff i Hi) as [[A B]|(n & c & q & A & B & C & F)].
        -- exists []. rewrite app_nil_r. split; [exact B|]. rewrite A. split; [cbn; now rewrite Ho|].
           intros q Hq. destruct q as [|m q]; [now left|]. exfalso. apply (Hac r (m :: q) Hrr); [discriminate|exact Hq].
        -- exists (n :: q). split; [exact B|]. assert (Hd : dget n (m_vars o) = Some (ARaw (PyMod c))) by (apply In_dget; [apply W|exact A]).
           assert (Hch : child w r n c) by (exists o; auto). destruct C as [C1 C2].
           split; [now rewrite (child_follow _ _ _ _ _ Hch)|]. intros q' Hq'. destruct q' as [|m q'].
           ++ exfalso. cbn in Hq'. rewrite Ho in Hq'. injection Hq' as Hq'. rewrite <- Hq' in C1. apply (Hac r (n :: q) Hrr); [discriminate|].
              now rewrite (child_follow _ _ _ _ _ Hch).
           ++ apply follow_cons_child in Hq' as (d & Hcd & Hf). pose proof Hcd as (o' & Ho' & Hd'). assert (o' = o) by congruence. subst o'.
              destruct (F m d q' (dget_In _ _ _ Hd') Hf) as [->|(l1 & l2 & l3 & E1)].
              ** assert (d = c) by congruence. subst d. destruct (C2 q' Hf) as [->|G]; [now left|right]. eapply assigned_before_cons; eauto.
              ** right. exists [], n, m, q, q', r, o, l1, l2, l3. repeat (split; [reflexivity|]). split; [cbn; now rewrite Ho|auto].
Qed.
End Walk.

Lemma first_pred_match fs ps i k a : Forall2 pred_ok fs ps -> (first_pred ps i k a <-> first_match fs i k a).
Proof.
  intros HF. assert (G1 : forall j p, nth_error ps j = Some p -> exists f, nth_error fs j = Some f /\ pred_ok f p).
  { intros j p. apply Forall2_nth2. exact HF. }
  assert (G2 : forall j f, nth_error fs j = Some f -> exists p, nth_error ps j = Some p /\ pred_ok f p).
  { clear G1. intros j. revert j. induction HF as [|f p fs ps Hfp HF IH]; intros [|j] g Hg; cbn in *; try discriminate; [injection Hg as <-; eauto|eauto]. }
  unfold first_pred, first_match. split.
  - intros [(p & P1 & P2) P3]. split.
    + destruct (G1 _ _ P1) as (f & F1 & F2). exists f. split; [exact F1|]. now apply F2.
    + intros j h Hj Hh Hm. destruct (G2 _ _ Hh) as (q & Q1 & Q2). apply Q2 in Hm. rewrite (P3 _ _ Hj Q1) in Hm. discriminate.
  - intros [(f & P1 & P2) P3]. split.
    + destruct (G2 _ _ P1) as (p & F1 & F2). exists p. split; [exact F1|]. now apply F2.
    + intros j q Hj Hq. destruct (G1 _ _ Hq) as (h & H1 & H2). destruct (q k a) eqn:E; [|reflexivity]. exfalso. apply (P3 j h Hj H1). now apply H2.
Qed.

Definition path_of (E : list item) (x : nat) : list string :=
  match find (fun i => Nat.eqb (i_own i) x) E with Some i => i_path i | None => [] end.

Lemma sts_list_pack l : sts_list (pack l) = map mk_state l.
Proof. destruct l as [|d [|d' l]]; reflexivity. Qed.

Lemma popped_wf w v D : wf_world w -> popped w v D -> wf_world v.
Proof.
  intros Hw Hp. constructor.
  - rewrite (nth_error_ext (map m_id (w_heap v)) (map m_id (w_heap w))); [apply Hw|]. intros i. rewrite !nth_error_map.
    change (nth_error (w_heap v) i) with (get_obj v i). rewrite (pp_obj _ _ _ Hp). unfold get_obj. destruct (nth_error (w_heap w) i); reflexivity.
  - intros x o Ho. rewrite (pp_obj _ _ _ Hp) in Ho. destruct (get_obj w x) as [o1|] eqn:E; [|discriminate]. injection Ho as <-.
    pose proof (wf_objs _ Hw _ _ E) as W. constructor; cbn.
    + rewrite (pp_uuid _ _ _ Hp). apply W.
    + apply NoDup_keys_filter. apply W.
    + intros Hi. apply In_keys_filter in Hi. now apply W in Hi.
    + intros n y Hd. rewrite (pp_len _ _ _ Hp). apply dget_In in Hd. apply filter_In in Hd as [Hd _].
      apply (wfo_refs _ _ W n). apply In_dget; [apply W|exact Hd].
    + intros n a Hd. apply dget_In in Hd. apply filter_In in Hd as [Hd _].
      apply (wfo_attrs _ _ W n). apply In_dget; [apply W|exact Hd].
Qed.

Theorem pop_state_acyclic w r fs fuel : wf_world w -> valid w r -> names_ok w r -> acyclic w r ->
  fs <> [] -> Forall valid_filter fs -> List.length (w_heap w) < fuel ->
  exists w' x path, pop_state fuel w r fs = (w', Ok x) /\ pop_effect w w' r fs (sts_list x) path.
Proof.
  intros Hw Hr Hno Hac Hfs Hval Hfuel. apply rmapM_preds in Hval as [ps Hps]. pose proof (rmapM_preds_ok _ _ Hps) as Hok.
  destruct (get_obj_ex _ _ Hr) as [o Ho].
  assert (Hlen : List.length (repeat (@nil (string * attr)) (List.length ps)) = List.length ps) by apply repeat_length.
  destruct (pop_rec_ok w ps r Hw Hac fuel w r [] [] (repeat [] (List.length ps)) [] (fun _ _ => false))
    as (new & E & w' & Hrun & Hwk & Hin & Hreach & Hfst & Hpop); auto.
  { split; [apply popped_refl|]. split; [constructor|]. split; [constructor|]. split; [intros ? ? ? []|discriminate]. }
  { discriminate. }
  { cbn. now rewrite Ho. }
  { constructor. }
  { intros s []. }
  { cbn. lia. }
  cbn [app] in *. destruct Hwk as [K1 K2 K3 K4 K5 K6 K7]. cbn [app] in *.
  assert (Hall : forall y, reaches w r y <-> In y new).
  { intros y. split; [|apply Hreach]. intros Hy. apply (closed_reaches w (fun z => In z new) r); auto. }
  assert (Hi : forall i, In i E -> Forall no_slash (i_path i) /\ no_slash (i_name i)).
  { intros i Hi. destruct (K4 i Hi) as (A & B & _). split; [eapply names_no_slash; eauto|].
    pose proof A as (oi & Hoi & Hdi & _). destruct (Hno (i_own i) oi (i_name i) (i_val i) (ex_intro _ (i_path i) B) Hoi Hdi) as (_ & G & _). exact (G A). }
  assert (Hnd : NoDup (map (fun i => join_path (i_path i ++ [i_name i])) E)).
  { assert (G : forall i j, In i E -> In j E -> join_path (i_path i ++ [i_name i]) = join_path (i_path j ++ [i_name j]) -> i_slot i = i_slot j).
    { intros i j Hii Hj Eq. destruct (Hi i Hii) as [A1 A2]. destruct (Hi j Hj) as [B1 B2]. apply join_key_inj in Eq as [E1 E2]; auto.
      unfold i_slot. f_equal; [|exact E2]. destruct (K4 i Hii) as (_ & F1 & _). destruct (K4 j Hj) as (_ & F2 & _). rewrite E1 in F1. congruence. }
    clear -G K6. induction E as [|i E IH]; cbn; [constructor|]. cbn in K6. inversion K6 as [|? ? H1 H2]; subst. constructor.
    - intros Hin. apply in_map_iff in Hin as (j & Ej & Hj). apply H1. apply in_map_iff. exists j. split; [|exact Hj].
      apply G; [now right|now left|exact Ej].
    - apply IH; auto. intros a b Ha Hb. apply G; now right. }
  exists w', (pack (fold_left (pstep ps) E (repeat [] (List.length ps)))), (path_of E).
  assert (Hpath : forall i, In i E -> path_of E (i_own i) = i_path i).
  { intros i Hii. unfold path_of. destruct (find (fun i0 => Nat.eqb (i_own i0) (i_own i)) E) as [j|] eqn:Ef.
    - apply find_some in Ef as [Hj Ej]. apply Nat.eqb_eq in Ej. now apply K7.
    - apply (find_none _ _ Ef) in Hii. rewrite Nat.eqb_refl in Hii. discriminate. }
  split.
  { unfold pop_state. destruct fs as [|f fs']; [contradiction|]. rewrite Hps. change (@nil nat) with (ids w []). rewrite Hrun. reflexivity. }
  assert (Hlenps : List.length ps = List.length fs) by (symmetry; eapply Forall2_length; eauto).
  constructor.
  - eapply popped_wf; eauto.
  - rewrite sts_list_pack, map_length, psteps_length; auto.
  - rewrite sts_list_pack. apply Forall_forall. intros s Hs. apply in_map_iff in Hs as (d & <- & _). apply mk_state_wf.
  - intros y n a Hy Hna. destruct (K5 y n a) as (i & Hii & <- & <- & <-); [left; now apply Hall|exact Hna|]. rewrite Hpath by assumption.
    destruct (Hfst i Hii) as (q & -> & Hq). exact Hq.
  - intros j s k a Hs. rewrite sts_list_pack, nth_error_map in Hs.
    destruct (nth_error (fold_left (pstep ps) E (repeat [] (List.length ps))) j) as [d|] eqn:Ed; [|discriminate]. injection Hs as <-.
    destruct (psteps_dget ps E _ Hlen Hnd j d Ed) as (d0 & H1 & H2 & H3). apply nth_error_repeat_some in H1. subst d0.
    rewrite dget_mk_state by (apply H2; constructor). rewrite H3 by (intros i _ []). cbn. split.
    + intros [H|(i & Hii & -> & -> & Hf)]; [discriminate|]. destruct (K4 i Hii) as (A & B & [C|[]]). exists (i_own i), (i_name i).
      rewrite Hpath by assumption. split; [now apply Hall|]. split; [exact A|]. split; [reflexivity|]. eapply first_pred_match; eauto.
    + intros (y & n & Hy & Hna & -> & Hf). right. destruct (K5 y n a) as (i & Hii & <- & <- & <-); [left; now apply Hall|exact Hna|].
      exists i. split; [exact Hii|]. rewrite Hpath in * by assumption. split; [reflexivity|]. split; [reflexivity|]. eapply first_pred_match; eauto.
  - intros y oy Hoy. rewrite (pp_obj _ _ _ Hpop), Hoy. eexists. split; [reflexivity|]. cbn. intros n a.
    rewrite (dget_filter_keys (fun k => negb (dset_of ps E y k))).
    assert (G : forall b, dget n (m_vars oy) = Some b -> (dset_of ps E y n = true <->
              reaches w r y /\ node_attr w y n b /\ exists i, first_match fs i (join_path (path_of E y ++ [n])) b)).
    { intros b Hb. unfold dset_of. rewrite existsb_exists. split.
      - intros (i & Hii & Hc). rewrite !andb_true_iff, Nat.eqb_eq, String.eqb_eq in Hc. destruct Hc as [[<- <-] Hm].
        destruct (K4 i Hii) as (A & B & [C|[]]). pose proof A as (oi & A1 & A2 & _). assert (b = i_val i) by congruence. subst b.
        split; [now apply Hall|]. split; [exact A|]. rewrite Hpath by assumption. apply matched_first in Hm as [j Hj].
        exists j. eapply first_pred_match; eauto.
      - intros (Hy & Hna & j & Hj). destruct (K5 y n b) as (i & Hii & <- & <- & <-); [left; now apply Hall|exact Hna|].
        exists i. split; [exact Hii|]. rewrite Nat.eqb_refl, String.eqb_refl. cbn. apply matched_first. exists j.
        rewrite Hpath in Hj by assumption. eapply first_pred_match; eauto. }
    destruct (dset_of ps E y n) eqn:Ed; cbn.
    + split; [discriminate|]. intros [Ha Hn]. exfalso. apply Hn. now apply G.
    + split; [|tauto]. intros Ha. split; [exact Ha|]. intros Hn. apply (G a Ha) in Hn. discriminate.
  - intros y Hy. rewrite (pp_obj _ _ _ Hpop). destruct (get_obj w y) as [oy|]; [|reflexivity]. f_equal. rewrite filter_all; [apply set_vars_id|].
    intros kv _. apply negb_true_iff. cbn. unfold dset_of. apply not_true_is_false. intros Hc. apply existsb_exists in Hc as (i & Hii & Hc).
    rewrite !andb_true_iff, Nat.eqb_eq in Hc. destruct Hc as [[<- _] _]. destruct (K4 i Hii) as (_ & _ & [C|[]]). apply Hy. now apply Hall.
  - repeat split; apply Hpop.
Qed.

(** ** on a cyclic module pop_state never returns *)
Definition loops (w : world) (r : nat) : Prop := exists x p, reaches w r x /\ p <> [] /\ follow w x p = Some x.

Lemma loops_child w r : wf_world w -> loops w r -> exists n c, child w r n c /\ loops w c.
Proof.
  intros Hw (x & p & [q Hq] & Hp & Hc). destruct q as [|n q].
  - cbn in Hq. destruct (get_obj w r) as [o|] eqn:Ho; [|discriminate]. injection Hq as <-. destruct p as [|n p]; [contradiction|].
    pose proof Hc as Hc'. apply follow_cons_child in Hc as (c & Hch & Hf). exists n, c. split; [exact Hch|].
    exists r, (n :: p). split; [exists p; exact Hf|]. split; [discriminate|exact Hc'].
  - apply follow_cons_child in Hq as (c & Hch & Hf). exists n, c. split; [exact Hch|]. exists x, p. split; [exists q; exact Hf|auto].
Qed.

(** the world during a pop: only non-module attributes disappear *)
Record thinner (w v : world) : Prop := {
  th_nodes : w_nodes v = w_nodes w;
  th_obj : forall x, match get_obj w x, get_obj v x with
                     | Some o, Some o' => m_id o' = m_id o /\ NoDup (keys (m_vars o')) /\
                         forall n y, dget n (m_vars o') = Some (ARaw (PyMod y)) <-> dget n (m_vars o) = Some (ARaw (PyMod y))
                     | None, None => True
                     | _, _ => False
                     end
}.

Lemma thinner_del w v x n v' : thinner w v -> (forall o' y, get_obj v x = Some o' -> dget n (m_vars o') <> Some (ARaw (PyMod y))) ->
  delattr v x n = Ok v' -> thinner w v'.
Proof.
  intros [H1 H2] Hn H. apply delattr_inv in H as (o & Ho & Hi & ->). constructor; [exact H1|].
  intros y. specialize (H2 y). destruct (Nat.eq_dec x y) as [->|Hne].
  - rewrite (get_put_same _ _ _ o) by assumption. rewrite Ho in H2. destruct (get_obj w y) as [ow|]; [|exact H2].
    destruct H2 as (A & B & C). split; [exact A|]. cbn. split; [now apply NoDup_keys_ddel|]. intros m z.
    destruct (string_dec m n) as [->|Hm].
    + rewrite dget_ddel_same by assumption. rewrite <- C. split; [discriminate|]. intros G. exfalso. exact (Hn _ _ Ho G).
    + rewrite dget_ddel_other by assumption. apply C.
  - rewrite get_put_other by assumption. exact H2.
Qed.

Section Cycle.
Context (w : world) (ps : list predicate).
Hypothesis Hw : wf_world w.

Definition clean (mi : list nat) : Prop := forall x, valid w x -> In (idof w x) mi -> ~ loops w x.

Definition no_ok (fuel : nat) : Prop := forall v r mi parts states v' mi' st',
  thinner w v -> valid w r -> clean mi -> pop_rec fuel ps v r mi parts states = (v', Ok (mi', st')) ->
  thinner w v' /\ clean mi' /\ ~ loops w r.

Lemma fields_no_ok fuel r : no_ok fuel -> valid w r ->
  forall l v mi parts states v' mi' st', thinner w v -> clean mi -> NoDup (keys l) ->
  (forall n y, In (n, ARaw (PyMod y)) l -> valid w y) ->
  (forall n a, In (n, a) l -> is_submodule a = false -> forall o' y, get_obj v r = Some o' -> dget n (m_vars o') <> Some (ARaw (PyMod y))) ->
  pop_fields (fun w r mi parts st => pop_rec fuel ps w r mi parts st) (w_nodes w) ps r l v mi parts states = (v', Ok (mi', st')) ->
  thinner w v' /\ clean mi' /\ (forall n y, In (n, ARaw (PyMod y)) l -> ~ loops w y).
Proof.
  intros Hrec Hr. induction l as [|[n a] l IH]; intros v mi parts states v' mi' st' Ht Hc Hnd Href Hns H.
  - cbn in H. injection H as <- <- <-. split; [exact Ht|]. split; [exact Hc|]. intros ? ? [].
  - cbn in Hnd. inversion Hnd as [|? ? Hni Hnd']; subst.
    assert (Href' : forall n y, In (n, ARaw (PyMod y)) l -> valid w y) by (intros; eapply Href; right; eauto).
    assert (Hthin : forall v1, thinner w v1 -> forall m b, In (m, b) l -> is_submodule b = false ->
              forall o' y, get_obj v1 r = Some o' -> dget m (m_vars o') <> Some (ARaw (PyMod y))).
    { intros v1 [_ T1] m b Hb Hsb o' y Ho' Hd. destruct Ht as [_ T0]. specialize (T1 r). specialize (T0 r). rewrite Ho' in T1.
      destruct (get_obj w r) as [ow|]; [|destruct T1]. destruct (get_obj v r) as [ov|] eqn:Ev; [|destruct T0].
      destruct T1 as (_ & _ & T1). destruct T0 as (_ & _ & T0). apply T1 in Hd. apply T0 in Hd.
      exact (Hns m b (or_intror Hb) Hsb ov y eq_refl Hd). }
    destruct (attr_cases (w_nodes w) a) as [[c ->]|[[S1 S2]|[S1 S2]]].
    + cbn [pop_fields] in H. destruct (pop_rec fuel ps v c mi (parts ++ [n]) states) as [v1 [[mi1 st1]|e]] eqn:E; [|discriminate].
      destruct (Hrec _ _ _ _ _ _ _ _ Ht (Href n c (or_introl eq_refl)) Hc E) as (T1 & C1 & L1).
      destruct (IH _ _ _ _ _ _ _ T1 C1 Hnd' Href' (Hthin v1 T1) H) as (T2 & C2 & L2).
      split; [exact T2|]. split; [exact C2|]. intros m y [[= <- <-]|Hy]; eauto.
    + assert (Hstep : exists v1 st1, thinner w v1 /\
        pop_fields (fun w r mi parts st => pop_rec fuel ps w r mi parts st) (w_nodes w) ps r l v1 mi parts st1 = (v', Ok (mi', st'))).
      { cbn [pop_fields] in H. rewrite S2 in H.
        assert (H' : match pop_match ps states (join_path (parts ++ [n])) a with
            | Some states1 =>
                match delattr v r n with
                | Ok w1 => pop_fields (fun w r mi parts st => pop_rec fuel ps w r mi parts st) (w_nodes w) ps r l w1 mi parts states1
                | Err e => (v, Err e)
                end
            | None => pop_fields (fun w r mi parts st => pop_rec fuel ps w r mi parts st) (w_nodes w) ps r l v mi parts states
            end = (v', Ok (mi', st'))) by (destruct a as [[]|]; auto; discriminate).
        clear H. destruct (pop_match ps states (join_path (parts ++ [n])) a) as [s1|]; [|eauto].
        destruct (delattr v r n) as [v1|] eqn:Ed; [|discriminate]. exists v1, s1. split; [|exact H'].
        eapply thinner_del; eauto. intros o' y Ho'. exact (Hns n a (or_introl eq_refl) S1 o' y Ho'). }
      destruct Hstep as (v1 & st1 & T1 & H1). destruct (IH _ _ _ _ _ _ _ T1 Hc Hnd' Href' (Hthin v1 T1) H1) as (T2 & C2 & L2).
      split; [exact T2|]. split; [exact C2|]. intros m y [[= <- ->]|Hy]; [discriminate|eauto].
    + assert (H' : pop_fields (fun w r mi parts st => pop_rec fuel ps w r mi parts st) (w_nodes w) ps r l v mi parts states = (v', Ok (mi', st'))).
      { cbn [pop_fields] in H. rewrite S2 in H. destruct a as [[]|]; auto. discriminate. }
      destruct (IH _ _ _ _ _ _ _ Ht Hc Hnd' Href' (Hthin v Ht) H') as (T2 & C2 & L2).
      split; [exact T2|]. split; [exact C2|]. intros m y [[= <- ->]|Hy]; [discriminate|eauto].
Qed.

Lemma pop_rec_no_ok fuel : no_ok fuel.
Proof.
  induction fuel as [|fuel IH]; intros v r mi parts states v' mi' st' Ht Hr Hc H; [discriminate|].
  cbn [pop_rec] in H. pose proof (th_obj _ _ Ht r) as T. destruct (get_obj_ex _ _ Hr) as [ow How]. rewrite How in T.
  destruct (get_obj v r) as [o|] eqn:Ho; [|discriminate]. destruct T as (T1 & T2 & T3). pose proof (wf_objs _ Hw _ _ How) as W.
  assert (Hid : m_id o = idof w r) by (rewrite T1; symmetry; now apply idof_get). rewrite Hid in H.
  destruct (nmem (idof w r) mi) eqn:Em.
  - injection H as <- <- <-. split; [exact Ht|]. split; [exact Hc|]. apply nmem_In in Em. now apply Hc.
  - rewrite (th_nodes _ _ Ht) in H.
    destruct (pop_fields (fun w r mi parts st => pop_rec fuel ps w r mi parts st) (w_nodes w) ps r (m_vars o) v mi parts states)
      as [v1 [[mi1 st1]|e]] eqn:E; [|discriminate]. injection H as <- <- <-.
    assert (F1 : forall n y, In (n, ARaw (PyMod y)) (m_vars o) -> valid w y).
    { intros n y Hy. apply In_dget in Hy; [|exact T2]. apply T3 in Hy. eapply (wfo_refs _ _ W); eauto. }
    assert (F2 : forall n a, In (n, a) (m_vars o) -> is_submodule a = false -> forall o' y, get_obj v r = Some o' ->
                   dget n (m_vars o') <> Some (ARaw (PyMod y))).
    { intros n a Ha Hs o' y Ho' Hd. assert (o' = o) by congruence. subst. apply In_dget in Ha; [|exact T2]. rewrite Ha in Hd.
      injection Hd as ->. discriminate. }
    destruct (fields_no_ok fuel r IH Hr _ _ _ _ _ _ _ _ Ht Hc T2 F1 F2 E) as (A & B & C).
    split; [exact A|].
    assert (Hl : ~ loops w r).
    { intros Hl. apply loops_child in Hl as (n & c & (o' & Ho' & Hd) & Hl); auto. assert (o' = ow) by congruence. subst.
      apply T3 in Hd. apply dget_In in Hd. exact (C n c Hd Hl). }
    split; [|exact Hl]. intros x Hx Hi. apply in_app_or in Hi as [Hi|[Hi|[]]]; [now apply B|].
    assert (x = r) by (eapply idof_inj; eauto). now subst.
Qed.
End Cycle.

Theorem pop_state_cyclic w r fs fuel w' x : wf_world w -> valid w r -> ~ acyclic w r -> pop_state fuel w r fs <> (w', Ok x).
Proof.
  intros Hw Hr Hcy H. apply Hcy. intros y p Hy Hp Hc. unfold pop_state in H. destruct fs as [|f fs]; [discriminate|].
  destruct (rmapM to_predicate (f :: fs)) as [ps|]; [|discriminate].
  destruct (pop_rec fuel ps w r [] [] (repeat [] (List.length ps))) as [w1 [[mi st]|]] eqn:E; [|discriminate].
  assert (F1 : thinner w w).
  { constructor; [reflexivity|]. intros z. destruct (get_obj w z) as [o|] eqn:Eo; [|exact I]. split; [reflexivity|].
    split; [apply (wf_objs _ Hw _ _ Eo)|]. tauto. }
  assert (F2 : clean w []) by (intros z _ []).
  destruct (pop_rec_no_ok w ps Hw fuel w r [] [] _ _ _ _ F1 Hr F2 E) as (_ & _ & G).
  apply G. exists y, p. auto.
Qed.
