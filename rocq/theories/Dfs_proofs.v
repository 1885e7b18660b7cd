(** The depth-first traversals of module.py, described without fuel: a relation
    that says which definition, visiting order and state items a module graph
    has, and proofs that the traversal functions compute it. *)
From Coq Require Import Permutation.
From Verif Require Import PyBase PyBaseFacts ValuesM Spec_Eq ValuesFacts StateM ModuleM Spec_Module Graph_facts.
Local Open Scope string_scope.
Local Open Scope list_scope.

Definition valid (w : world) (r : nat) : Prop := r < List.length (w_heap w).
Definition idof (w : world) (r : nat) : nat := match get_obj w r with Some o => m_id o | None => 0 end.
Definition ids (w : world) (sr : list nat) : list nat := map (idof w) sr.

Lemma idof_get w r o : get_obj w r = Some o -> idof w r = m_id o.
Proof. unfold idof. now intros ->. Qed.

Lemma idof_inj w x y : wf_world w -> valid w x -> valid w y -> idof w x = idof w y -> x = y.
Proof.
  intros Hw Hx Hy H. destruct (get_obj_ex _ _ Hx) as [ox Hx']. destruct (get_obj_ex _ _ Hy) as [oy Hy'].
  rewrite (idof_get _ _ _ Hx'), (idof_get _ _ _ Hy') in H.
  pose proof (wf_ids _ Hw) as Hn. rewrite NoDup_nth_error in Hn. apply Hn.
  - rewrite map_length. exact Hx.
  - unfold get_obj in *. rewrite !nth_error_map, Hx', Hy'. cbn. congruence.
Qed.

Lemma In_ids w r sr : wf_world w -> valid w r -> Forall (valid w) sr -> (In (idof w r) (ids w sr) <-> In r sr).
Proof.
  intros Hw Hr Hs. unfold ids. rewrite in_map_iff. split.
  - intros (x & E & Hx). rewrite Forall_forall in Hs. apply idof_inj in E; auto. now subst.
  - eauto.
Qed.
Lemma NoDup_ids w sr : wf_world w -> Forall (valid w) sr -> NoDup sr -> NoDup (ids w sr).
Proof.
  intros Hw. induction sr as [|x sr IH]; intros Hs Hn; cbn; [constructor|].
  inversion Hs; subst. inversion Hn; subst. constructor; [|auto].
  change (~ In (idof w x) (ids w sr)). now rewrite In_ids.
Qed.
Lemma index_ids w r sr i : wf_world w -> valid w r -> Forall (valid w) sr -> NoDup sr ->
  nth_error sr i = Some r -> index_of (idof w r) (ids w sr) = Some i.
Proof.
  intros Hw Hr Hs Hn H. apply index_of_NoDup; [now apply NoDup_ids|]. unfold ids. now rewrite nth_error_map, H.
Qed.

Lemma valid_length w sr : NoDup sr -> Forall (valid w) sr -> List.length sr <= List.length (w_heap w).
Proof.
  intros Hn Hv. rewrite <- (seq_length (List.length (w_heap w)) 0).
  apply NoDup_incl_length; [exact Hn|]. intros x Hx. rewrite Forall_forall in Hv. apply in_seq.
  specialize (Hv x Hx). unfold valid in Hv. lia.
Qed.

(** ** The relation *)
Inductive dspec (w : world) : list nat -> nat -> mdef -> list nat -> Prop :=
| ds_ref sr r i : nth_error sr i = Some r -> dspec w sr r (MRef i) sr
| ds_def sr r o subs st sr' :
    ~ In r sr -> get_obj w r = Some o ->
    fspec w (sort_by_key (m_vars o)) (sr ++ [r]) subs st sr' ->
    dspec w sr r (MDef (m_cls o) (List.length sr) subs st (m_init o)) sr'
with fspec (w : world) : list (string * attr) -> list nat -> list (string * mdef) ->
                         list (string * attr) -> list nat -> Prop :=
| fs_nil sr : fspec w [] sr [] [] sr
| fs_sub n r t sr d sr1 subs st sr2 :
    dspec w sr r d sr1 -> fspec w t sr1 subs st sr2 ->
    fspec w ((n, ARaw (PyMod r)) :: t) sr ((n, d) :: subs) st sr2
| fs_static n a t sr subs st sr2 :
    is_submodule a = false -> is_node (w_nodes w) a = false -> starts_with "_module__" n = false ->
    fspec w t sr subs st sr2 -> fspec w ((n, a) :: t) sr subs ((n, a) :: st) sr2
| fs_skip n a t sr subs st sr2 :
    is_submodule a = false -> is_node (w_nodes w) a || starts_with "_module__" n = true ->
    fspec w t sr subs st sr2 -> fspec w ((n, a) :: t) sr subs st sr2.

Scheme dspec_ind2 := Induction for dspec Sort Prop
  with fspec_ind2 := Induction for fspec Sort Prop.
Combined Scheme dspec_fspec_ind from dspec_ind2, fspec_ind2.

Scheme dspec_min := Minimality for dspec Sort Prop
  with fspec_min := Minimality for fspec Sort Prop.
Combined Scheme dfs_ind from dspec_min, fspec_min.

(** every submodule reference in a list of attributes is valid *)
Definition refs_ok (w : world) (l : list (string * attr)) : Prop :=
  forall n r, In (n, ARaw (PyMod r)) l -> valid w r.

Lemma refs_ok_obj w r o : wf_world w -> get_obj w r = Some o -> refs_ok w (sort_by_key (m_vars o)).
Proof.
  intros Hw Ho n x Hi. pose proof (wf_objs _ Hw _ _ Ho) as Hwo.
  apply (Permutation_in _ (sort_perm _)) in Hi.
  apply (wfo_refs _ _ Hwo n). apply In_dget; [apply Hwo|exact Hi].
Qed.
Lemma refs_ok_cons w n a t : refs_ok w ((n, a) :: t) -> refs_ok w t.
Proof. intros H m r Hi. apply (H m r). now right. Qed.

(** The visited list only grows, stays duplicate-free and valid. *)
Lemma dfs_grows w : wf_world w ->
  (forall sr r d sr', dspec w sr r d sr' -> valid w r -> NoDup sr -> Forall (valid w) sr ->
     exists new, sr' = sr ++ new /\ NoDup sr' /\ Forall (valid w) sr' /\ In r sr') /\
  (forall l sr subs st sr', fspec w l sr subs st sr' -> refs_ok w l -> NoDup sr -> Forall (valid w) sr ->
     exists new, sr' = sr ++ new /\ NoDup sr' /\ Forall (valid w) sr').
Proof.
  intros Hw. apply dfs_ind.
  - intros sr r i Hi Hr Hn Hv. exists []. rewrite app_nil_r. apply nth_error_In in Hi. auto.
  - intros sr r o subs st sr' Hni Ho Hf IH Hr Hn Hv.
    destruct IH as (new & -> & Hn' & Hv').
    + eapply refs_ok_obj; eauto.
    + apply NoDup_app_intro; auto; [repeat constructor; auto|]. intros x Hx [<-|[]]. auto.
    + apply Forall_app. auto.
    + exists (r :: new). rewrite <- app_assoc. cbn. rewrite <- app_assoc in *. cbn in *.
      split; [reflexivity|]. split; [assumption|]. split; [assumption|]. apply in_or_app. right. now left.
  - intros sr _ Hn Hv. exists []. rewrite app_nil_r. auto.
  - intros n r t sr d sr1 subs st sr2 Hd IHd Hf IHf Hr Hn Hv.
    destruct IHd as (new1 & -> & Hn1 & Hv1 & _); auto. { apply (Hr n r). now left. }
    destruct IHf as (new2 & -> & Hn2 & Hv2); auto. { eapply refs_ok_cons; eauto. }
    exists (new1 ++ new2). rewrite app_assoc. auto.
  - intros n a t sr subs st sr2 _ _ _ Hf IHf Hr Hn Hv. apply IHf; auto. eapply refs_ok_cons; eauto.
  - intros n a t sr subs st sr2 _ _ Hf IHf Hr Hn Hv. apply IHf; auto. eapply refs_ok_cons; eauto.
Qed.

Lemma field_cases nt n a : (exists r, a = ARaw (PyMod r)) \/
  (is_submodule a = false /\ is_node nt a = false /\ starts_with "_module__" n = false) \/
  (is_submodule a = false /\ is_node nt a || starts_with "_module__" n = true).
Proof.
  destruct (is_submodule a) eqn:E; [left; now apply is_sub_inv|right].
  destruct (is_node nt a); [auto|]. destruct (starts_with "_module__" n); auto.
Qed.

(** Every graph has a traversal. *)
Lemma dspec_exists w : wf_world w -> forall k r sr, valid w r -> NoDup sr -> Forall (valid w) sr ->
  List.length (w_heap w) - List.length sr < k -> exists d sr', dspec w sr r d sr'.
Proof.
  intros Hw. induction k as [|k IH]; [lia|]. intros r sr Hr Hn Hv Hk.
  destruct (in_dec Nat.eq_dec r sr) as [Hin|Hni].
  { apply In_nth_error in Hin. destruct Hin as [i Hi]. exists (MRef i), sr. now constructor. }
  destruct (get_obj_ex _ _ Hr) as [o Ho].
  assert (Hn1 : NoDup (sr ++ [r])).
  { apply NoDup_app_intro; auto; [repeat constructor; auto|]. intros x Hx [<-|[]]. auto. }
  assert (Hv1 : Forall (valid w) (sr ++ [r])) by (apply Forall_app; auto).
  pose proof (valid_length _ _ Hn1 Hv1) as Hl. rewrite app_length in Hl. cbn in Hl.
  assert (Hfields : forall l sr1, refs_ok w l -> NoDup sr1 -> Forall (valid w) sr1 ->
            List.length sr < List.length sr1 -> exists subs st sr', fspec w l sr1 subs st sr').
  { induction l as [|[n a] l IHl]; intros sr1 Hro Hn1' Hv1' Hl1.
    - do 3 eexists. constructor.
    - destruct (field_cases (w_nodes w) n a) as [[x ->]|[(H1 & H2 & H3)|[H1 H2]]].
      + destruct (IH x sr1) as (d & sr2 & Hd); auto; [apply (Hro n); now left|lia|].
        destruct (proj1 (dfs_grows w Hw) _ _ _ _ Hd) as (new & -> & Hn2 & Hv2 & _); auto; [apply (Hro n); now left|].
        destruct (IHl (sr1 ++ new)) as (subs & st & sr3 & Hf); auto.
        * eapply refs_ok_cons; eauto.
        * rewrite app_length. lia.
        * do 3 eexists. eapply fs_sub; eauto.
      + destruct (IHl sr1) as (subs & st & sr3 & Hf); auto; [eapply refs_ok_cons; eauto|].
        do 3 eexists. eapply fs_static; eauto.
      + destruct (IHl sr1) as (subs & st & sr3 & Hf); auto; [eapply refs_ok_cons; eauto|].
        do 3 eexists. eapply fs_skip; eauto. }
  destruct (Hfields (sort_by_key (m_vars o)) (sr ++ [r])) as (subs & st & sr' & Hf); auto.
  - eapply refs_ok_obj; eauto.
  - rewrite app_length. cbn. lia.
  - do 2 eexists. eapply ds_def; eauto.
Qed.

(** ** [_make_module_def_recursive] computes it *)
Lemma make_def_dspec w : wf_world w ->
  (forall sr r d sr', dspec w sr r d sr' -> valid w r -> NoDup sr -> Forall (valid w) sr ->
     forall fuel, List.length (w_heap w) - List.length sr < fuel ->
     make_def fuel w r (ids w sr) = Ok (d, ids w sr')) /\
  (forall l sr subs st sr', fspec w l sr subs st sr' -> refs_ok w l -> NoDup sr -> Forall (valid w) sr ->
     forall fuel, List.length (w_heap w) - List.length sr < fuel ->
     make_fields (make_def fuel w) (w_nodes w) l (ids w sr) = Ok (subs, st, ids w sr')).
Proof.
  intros Hw. apply dfs_ind.
  - intros sr r i Hi Hr Hn Hv [|fuel] Hk; [lia|]. cbn [make_def].
    destruct (get_obj_ex _ _ Hr) as [o Ho]. rewrite Ho, <- (idof_get _ _ _ Ho).
    now rewrite (index_ids w r sr i).
  - intros sr r o subs st sr' Hni Ho Hf IH Hr Hn Hv [|fuel] Hk; [lia|]. cbn [make_def].
    rewrite Ho, <- (idof_get _ _ _ Ho).
    assert (E : index_of (idof w r) (ids w sr) = None).
    { apply index_of_None. now rewrite In_ids. }
    rewrite E. replace (ids w sr ++ [idof w r]) with (ids w (sr ++ [r])) by (unfold ids; now rewrite map_app).
    assert (Hn1 : NoDup (sr ++ [r])).
    { apply NoDup_app_intro; auto; [repeat constructor; auto|]. intros x Hx [<-|[]]. auto. }
    assert (Hv1 : Forall (valid w) (sr ++ [r])) by (apply Forall_app; auto).
    pose proof (valid_length _ _ Hn1 Hv1) as Hl. rewrite app_length in Hl. cbn in Hl.
    rewrite IH; auto.
    + cbn. unfold ids at 1. now rewrite map_length.
    + eapply refs_ok_obj; eauto.
    + rewrite app_length. cbn. lia.
  - intros sr _ _ _ fuel _. reflexivity.
  - intros n r t sr d sr1 subs st sr2 Hd IHd Hf IHf Hro Hn Hv fuel Hk. cbn [make_fields].
    assert (Hr : valid w r) by (apply (Hro n r); now left).
    rewrite (IHd Hr Hn Hv fuel Hk). cbn [rbind].
    destruct (proj1 (dfs_grows w Hw) _ _ _ _ Hd) as (new & -> & Hn2 & Hv2 & _); auto.
    rewrite IHf; auto; [eapply refs_ok_cons; eauto|]. rewrite app_length. lia.
  - intros n a t sr subs st sr2 H1 H2 H3 Hf IHf Hro Hn Hv fuel Hk. cbn [make_fields].
    rewrite IHf; auto; [|eapply refs_ok_cons; eauto]. cbn [rbind]. rewrite H2, H3. cbn.
    destruct a as [[]|]; try reflexivity. discriminate.
  - intros n a t sr subs st sr2 H1 H2 Hf IHf Hro Hn Hv fuel Hk. cbn [make_fields].
    rewrite IHf; auto; [|eapply refs_ok_cons; eauto]. cbn [rbind].
    rewrite <- negb_orb, H2. cbn.
    destruct a as [[]|]; try reflexivity. discriminate.
Qed.

(** ** [_iter_state_recursive]: the items *)

(** Where each item was found: path of submodule names, owner, name, value. *)
Definition item : Type := (list string * nat * string * attr)%type.
Definition i_path (i : item) : list string := fst (fst (fst i)).
Definition i_own (i : item) : nat := snd (fst (fst i)).
Definition i_name (i : item) : string := snd (fst i).
Definition i_val (i : item) : attr := snd i.
Definition i_slot (i : item) : nat * string := (i_own i, i_name i).
Definition i_kv (parts : list string) (i : item) : string * attr :=
  (join_path (parts ++ i_path i ++ [i_name i]), i_val i).
Definition i_push (n : string) (i : item) : item := (n :: i_path i, i_own i, i_name i, i_val i).

Lemma node_attr_iff w x n a : node_attr w x n a <->
  exists o, get_obj w x = Some o /\ dget n (m_vars o) = Some a /\ is_submodule a = false /\ is_node (w_nodes w) a = true.
Proof.
  unfold node_attr, is_node, isinstance. split; intros (o & H1 & H2 & H3 & H4); exists o; repeat split; auto.
  - destruct H4 as (t & H4 & H5). apply existsb_exists. exists t. split; [exact H4|]. now apply smem_In.
  - apply existsb_exists in H4. destruct H4 as (t & H4 & H5). exists t. split; [exact H4|]. now apply smem_In.
Qed.
Lemma static_attr_iff w x n a : static_attr w x n a <->
  exists o, get_obj w x = Some o /\ dget n (m_vars o) = Some a /\ is_submodule a = false /\ is_node (w_nodes w) a = false.
Proof.
  unfold static_attr, is_node, isinstance. split; intros (o & H1 & H2 & H3 & H4); exists o; repeat split; auto.
  - apply not_true_is_false. intros H. apply existsb_exists in H. destruct H as (t & Ht & H5).
    apply (H4 t Ht). now apply smem_In.
  - intros t Ht Hi. apply (proj2 (smem_In _ _)) in Hi.
    assert (existsb (isinstance a) (w_nodes w) = true) by (apply existsb_exists; eauto). unfold isinstance in *. congruence.
Qed.

Definition items_spec (w : world) (new : list nat) (E : list item) : Prop :=
  (forall i, In i E -> In (i_own i) new /\ node_attr w (i_own i) (i_name i) (i_val i)) /\
  (forall x n a, In x new -> node_attr w x n a -> exists i, In i E /\ i_own i = x /\ i_name i = n /\ i_val i = a) /\
  NoDup (map i_slot E).

(** the same for the attributes [l] (a part of the attributes) of module [r0] *)
Definition fitems_spec (w : world) (r0 : nat) (l : list (string * attr)) (new : list nat) (E : list item) : Prop :=
  (forall i, In i E -> (In (i_own i) new /\ node_attr w (i_own i) (i_name i) (i_val i)) \/
                       (i_own i = r0 /\ In (i_name i, i_val i) l /\ i_path i = [] /\
                        is_submodule (i_val i) = false /\ is_node (w_nodes w) (i_val i) = true)) /\
  (forall x n a, In x new -> node_attr w x n a -> exists i, In i E /\ i_own i = x /\ i_name i = n /\ i_val i = a) /\
  (forall n a, In (n, a) l -> is_submodule a = false -> is_node (w_nodes w) a = true -> In ([], r0, n, a) E) /\
  NoDup (map i_slot E).

Lemma NoDup_map_app {A B} (f : A -> B) l1 l2 : NoDup (map f l1) -> NoDup (map f l2) ->
  (forall x y, In x l1 -> In y l2 -> f x <> f y) -> NoDup (map f (l1 ++ l2)).
Proof.
  intros H1 H2 H. rewrite map_app. apply NoDup_app_intro; auto. intros z Hz1 Hz2.
  apply in_map_iff in Hz1 as (x & <- & Hx). apply in_map_iff in Hz2 as (y & Hy & Hy2). apply (H x y); auto.
Qed.

Lemma iter_state_dspec w : wf_world w ->
  (forall sr r d sr', dspec w sr r d sr' -> valid w r -> NoDup sr -> Forall (valid w) sr ->
     exists new E, sr' = sr ++ new /\ items_spec w new E /\
       (forall i, In i E -> follow w r (i_path i) = Some (i_own i)) /\
       forall fuel parts, List.length (w_heap w) - List.length sr < fuel ->
         iter_state_rec fuel w r (ids w sr) parts = Ok (map (i_kv parts) E, ids w sr')) /\
  (forall l sr subs st sr', fspec w l sr subs st sr' -> refs_ok w l -> NoDup sr -> Forall (valid w) sr ->
     forall r0 o0, get_obj w r0 = Some o0 -> In r0 sr -> NoDup (keys l) ->
       (forall n a, In (n, a) l -> dget n (m_vars o0) = Some a) ->
     exists new E, sr' = sr ++ new /\ fitems_spec w r0 l new E /\
       (forall i, In i E -> follow w r0 (i_path i) = Some (i_own i)) /\
       forall fuel parts, List.length (w_heap w) - List.length sr < fuel ->
         iter_fields (iter_state_rec fuel w) (w_nodes w) l (ids w sr) parts = Ok (map (i_kv parts) E, ids w sr')).
Proof.
  intros Hw. apply dfs_ind.
  - intros sr r i Hi Hr Hn Hv. exists [], []. rewrite app_nil_r. split; [reflexivity|].
    split; [|split].
    + split; [|split]; [intros ? []|intros ? ? ? []|constructor].
    + intros ? [].
    + intros [|fuel] parts Hk; [lia|]. cbn [iter_state_rec].
      destruct (get_obj_ex _ _ Hr) as [o Ho]. rewrite Ho, <- (idof_get _ _ _ Ho).
      assert (E : nmem (idof w r) (ids w sr) = true).
      { apply nmem_In. apply In_ids; auto. eapply nth_error_In; eauto. }
      rewrite E. reflexivity.
  - intros sr r o subs st sr' Hni Ho Hf IH Hr Hn Hv.
    assert (Hn1 : NoDup (sr ++ [r])).
    { apply NoDup_app_intro; auto; [repeat constructor; auto|]. intros x Hx [<-|[]]. auto. }
    assert (Hv1 : Forall (valid w) (sr ++ [r])) by (apply Forall_app; auto).
    pose proof (valid_length _ _ Hn1 Hv1) as Hl. rewrite app_length in Hl. cbn in Hl.
    pose proof (wf_objs _ Hw _ _ Ho) as Hwo.
    assert (Hin : forall n a, In (n, a) (sort_by_key (m_vars o)) <-> dget n (m_vars o) = Some a).
    { intros n a. rewrite <- (dget_sort n) by apply Hwo. split.
      - apply In_dget. apply NoDup_keys_sort. apply Hwo.
      - apply dget_In. }
    destruct (IH (refs_ok_obj _ _ _ Hw Ho) Hn1 Hv1 r o Ho) as (new & E & -> & (HE1 & HE2 & HE3 & HE4) & HEf & HEr).
    { apply in_or_app. right. now left. }
    { apply NoDup_keys_sort. apply Hwo. }
    { intros n a Ha. now apply Hin. }
    exists (r :: new), E. rewrite <- app_assoc. split; [reflexivity|]. split; [|split].
    + split; [|split].
      * intros i Hi. destruct (HE1 i Hi) as [[G1 G2]|(G1 & G2 & G3 & G4 & G5)]; [split; [now right|exact G2]|].
        split; [now left|]. apply node_attr_iff. rewrite G1. exists o. apply Hin in G2. auto.
      * intros x n a [->|Hx] Hna; [|eauto]. apply node_attr_iff in Hna. destruct Hna as (o' & Ho' & Hd & Hs & Hi).
        assert (o' = o) by congruence. subst o'. exists ([], x, n, a). split; [|auto]. apply HE3; auto. now apply Hin.
      * exact HE4.
    + exact HEf.
    + intros [|fuel] parts Hk; [lia|]. cbn [iter_state_rec]. rewrite Ho, <- (idof_get _ _ _ Ho).
      assert (Em : nmem (idof w r) (ids w sr) = false).
      { apply nmem_false. now rewrite In_ids. }
      rewrite Em. replace (ids w sr ++ [idof w r]) with (ids w (sr ++ [r])) by (unfold ids; now rewrite map_app).
      rewrite HEr; [now rewrite <- app_assoc|]. rewrite app_length. cbn. lia.
  - intros sr _ _ _ r0 o0 _ _ _ _. exists [], []. rewrite app_nil_r. split; [reflexivity|].
    split; [|split; [intros ? []|reflexivity]].
    split; [intros ? []|]. split; [intros ? ? ? []|]. split; [intros ? ? []|constructor].
  - intros n r t sr d sr1 subs st sr2 Hd IHd Hf IHf Hro Hn Hv r0 o0 Ho0 Hr0 Hnk Hin.
    assert (Hr : valid w r) by (apply (Hro n r); now left).
    destruct (IHd Hr Hn Hv) as (new1 & E1 & -> & (A1 & A2 & A3) & Af & Ar).
    destruct (proj1 (dfs_grows w Hw) _ _ _ _ Hd) as (new' & Heq & Hn2 & Hv2 & _); auto.
    clear new' Heq. inversion Hnk as [|? ? Hnk1 Hnk2]; subst.
    destruct (IHf (refs_ok_cons _ _ _ _ Hro) Hn2 Hv2 r0 o0 Ho0) as (new2 & E2 & -> & (B1 & B2 & B3 & B4) & Bf & Br).
    { apply in_or_app. now left. } { exact Hnk2. } { intros m a Ha. apply Hin. now right. }
    destruct (proj2 (dfs_grows w Hw) _ _ _ _ _ Hf) as (new' & Heq & Hn3 & Hv3); auto.
    { eapply refs_ok_cons; eauto. } clear new' Heq.
    exists (new1 ++ new2), (map (i_push n) E1 ++ E2). rewrite app_assoc. split; [reflexivity|].
    assert (Hdisj : forall x, In x new1 -> In x new2 -> False).
    { intros x H1 H2. eapply (NoDup_app_disj _ _ x Hn3); [|exact H2]. apply in_or_app. now right. }
    assert (Hr01 : ~ In r0 new1). { intros H1. eapply (NoDup_app_disj _ _ r0 Hn2); eauto. }
    split; [|split].
    + split; [|split; [|split]].
      * intros i Hi. apply in_app_or in Hi. destruct Hi as [Hi|Hi].
        -- apply in_map_iff in Hi. destruct Hi as (j & <- & Hj). left. cbn.
           destruct (A1 j Hj). split; [apply in_or_app; now left|assumption].
        -- destruct (B1 i Hi) as [[G1 G2]|(G1 & G2 & G3 & G4)]; [left; split; [apply in_or_app; now right|assumption]|].
           right. split; [exact G1|]. split; [now right|]. auto.
      * intros x m a Hx Hna. apply in_app_or in Hx. destruct Hx as [Hx|Hx].
        -- destruct (A2 x m a Hx Hna) as (i & Hi & G). exists (i_push n i). split; [|exact G].
           apply in_or_app. left. apply in_map_iff. eauto.
        -- destruct (B2 x m a Hx Hna) as (i & Hi & G). exists i. split; [|exact G]. apply in_or_app. now right.
      * intros m a [[= <- <-]|Ha] Hs Hnode; [discriminate|]. apply in_or_app. right. auto.
      * apply NoDup_map_app; auto.
        -- rewrite map_map. erewrite map_ext; [exact A3|]. reflexivity.
        -- intros i j Hi Hj. apply in_map_iff in Hi. destruct Hi as (i' & <- & Hi').
           unfold i_slot. cbn. intros [= Heq _]. destruct (A1 i' Hi') as [G _].
           destruct (B1 j Hj) as [[G1 _]|(G1 & _)].
           ++ apply (Hdisj (i_own i')); auto. rewrite Heq. exact G1.
           ++ apply Hr01. rewrite <- G1, <- Heq. exact G.
    + intros i Hi. apply in_app_or in Hi. destruct Hi as [Hi|Hi]; [|auto].
      apply in_map_iff in Hi. destruct Hi as (j & <- & Hj). cbn [i_push i_path i_own fst snd].
      erewrite child_follow; [now apply Af|]. exists o0. split; [exact Ho0|]. apply Hin. now left.
    + intros fuel parts Hk. cbn [iter_fields]. rewrite Ar by assumption. cbn [rbind].
      rewrite Br by (rewrite app_length; lia). cbn [rbind]. f_equal. f_equal.
      rewrite map_app. f_equal. rewrite map_map. apply map_ext. intros i. unfold i_kv. cbn. now rewrite <- app_assoc.
  - intros n a t sr subs st sr2 H1 H2 H3 Hf IHf Hro Hn Hv r0 o0 Ho0 Hr0 Hnk Hin.
    inversion Hnk as [|? ? Hnk1 Hnk2]; subst.
    destruct (IHf (refs_ok_cons _ _ _ _ Hro) Hn Hv r0 o0 Ho0) as (new & E & -> & (B1 & B2 & B3 & B4) & Bf & Br); auto.
    { intros m b Hb. apply Hin. now right. }
    exists new, E. split; [reflexivity|]. split; [|split; [exact Bf|]].
    + split; [|split; [exact B2|split; [|exact B4]]].
      * intros i Hi. destruct (B1 i Hi) as [G|(G1 & G2 & G)]; [now left|right]. split; [exact G1|]. split; [now right|exact G].
      * intros m b [[= <- <-]|Hb] Hs Hnode; [congruence|auto].
    + intros fuel parts Hk. cbn [iter_fields]. rewrite Br by assumption. cbn [rbind]. rewrite H2.
      destruct a as [[]|]; try reflexivity. discriminate.
  - intros n a t sr subs st sr2 H1 H2 Hf IHf Hro Hn Hv r0 o0 Ho0 Hr0 Hnk Hin.
    inversion Hnk as [|? ? Hnk1 Hnk2]; subst.
    destruct (IHf (refs_ok_cons _ _ _ _ Hro) Hn Hv r0 o0 Ho0) as (new & E & -> & (B1 & B2 & B3 & B4) & Bf & Br); auto.
    { intros m b Hb. apply Hin. now right. }
    destruct (is_node (w_nodes w) a) eqn:En.
    + exists new, (([], r0, n, a) :: E). split; [reflexivity|]. split; [|split].
      * split; [|split; [|split]].
        -- intros i [<-|Hi].
           ++ right. cbn. repeat split; auto.
           ++ destruct (B1 i Hi) as [G|(G1 & G2 & G)]; [now left|right]. split; [exact G1|]. split; [now right|exact G].
        -- intros x m b Hx Hna. destruct (B2 x m b Hx Hna) as (i & Hi & G). exists i. split; [now right|exact G].
        -- intros m b [[= <- <-]|Hb] Hs Hnode; [now left|right; auto].
        -- cbn. constructor; [|exact B4]. intros Hi. apply in_map_iff in Hi. destruct Hi as (i & Hi & Hi').
           unfold i_slot in Hi. cbn in Hi. injection Hi as Hi1 Hi2. destruct (B1 i Hi') as [[G _]|(_ & G & _)].
           ++ destruct (proj2 (dfs_grows w Hw) _ _ _ _ _ Hf) as (new' & Heq & Hn3 & Hv3); auto.
              { eapply refs_ok_cons; eauto. }
              apply (NoDup_app_disj _ _ r0 Hn3); auto. rewrite <- Hi1. exact G.
           ++ apply Hnk1. rewrite <- Hi2. apply (in_map fst) in G. exact G.
      * intros i [<-|Hi]; [|auto]. cbn. now rewrite Ho0.
      * intros fuel parts Hk. cbn [iter_fields]. rewrite Br by assumption. cbn [rbind].
        rewrite En. destruct a as [[]|]; try reflexivity. discriminate.
    + exists new, E. split; [reflexivity|]. split; [|split; [exact Bf|]].
      * split; [|split; [exact B2|split; [|exact B4]]].
        -- intros i Hi. destruct (B1 i Hi) as [G|(G1 & G2 & G)]; [now left|right]. split; [exact G1|]. split; [now right|exact G].
        -- intros m b [[= <- <-]|Hb] Hs Hnode; [congruence|auto].
      * intros fuel parts Hk. cbn [iter_fields]. rewrite Br by assumption. cbn [rbind]. rewrite En.
        destruct a as [[]|]; try reflexivity. discriminate.
Qed.

(** ** closure: the visited list is exactly what is reachable *)
Lemma dfs_closed w : wf_world w ->
  (forall sr r d sr', dspec w sr r d sr' -> valid w r -> NoDup sr -> Forall (valid w) sr ->
     exists new, sr' = sr ++ new /\
       (forall x n y, In x new -> child w x n y -> In y sr') /\
       (forall x, In x new -> reaches w r x)) /\
  (forall l sr subs st sr', fspec w l sr subs st sr' -> refs_ok w l -> NoDup sr -> Forall (valid w) sr ->
     exists new, sr' = sr ++ new /\
       (forall x n y, In x new -> child w x n y -> In y sr') /\
       (forall n y, In (n, ARaw (PyMod y)) l -> In y sr') /\
       (forall x, In x new -> exists n y, In (n, ARaw (PyMod y)) l /\ reaches w y x)).
Proof.
  intros Hw. apply dfs_ind.
  - intros sr r i Hi Hr Hn Hv. exists []. rewrite app_nil_r. split; [reflexivity|]. split; [intros ? ? ? []|intros ? []].
  - intros sr r o subs st sr' Hni Ho Hf IH Hr Hn Hv.
    assert (Hn1 : NoDup (sr ++ [r])).
    { apply NoDup_app_intro; auto; [repeat constructor; auto|]. intros x Hx [<-|[]]. auto. }
    assert (Hv1 : Forall (valid w) (sr ++ [r])) by (apply Forall_app; auto).
    pose proof (wf_objs _ Hw _ _ Ho) as Hwo.
    assert (Hin : forall n a, In (n, a) (sort_by_key (m_vars o)) <-> dget n (m_vars o) = Some a).
    { intros n a. rewrite <- (dget_sort n) by apply Hwo. split.
      - apply In_dget. apply NoDup_keys_sort. apply Hwo.
      - apply dget_In. }
    destruct (IH (refs_ok_obj _ _ _ Hw Ho) Hn1 Hv1) as (new & -> & H1 & H2 & H3).
    exists (r :: new). rewrite <- app_assoc. split; [reflexivity|]. rewrite <- app_assoc in *. cbn in *. split.
    + intros x n y [<-|Hx] Hc; [|eauto]. destruct Hc as (o' & Ho' & Hd). assert (o' = o) by congruence. subst o'.
      apply (H2 n). now apply Hin.
    + intros x [<-|Hx].
      * eapply reaches_refl; eauto.
      * destruct (H3 x Hx) as (n & y & Hy & Hyx). eapply reaches_trans; [|exact Hyx].
        apply (reaches_child _ _ n); auto. exists o. split; [exact Ho|]. now apply Hin.
  - intros sr _ _ _. exists []. rewrite app_nil_r. split; [reflexivity|].
    split; [intros ? ? ? []|split; [intros ? ? []|intros ? []]].
  - intros n r t sr d sr1 subs st sr2 Hd IHd Hf IHf Hro Hn Hv.
    assert (Hr : valid w r) by (apply (Hro n r); now left).
    destruct (proj1 (dfs_grows w Hw) _ _ _ _ Hd) as (new' & -> & Hn2 & Hv2 & Hin2); auto.
    destruct (IHd Hr Hn Hv) as (new1 & Heq & A1 & A2). apply app_inv_head in Heq. subst new'.
    destruct (IHf (refs_ok_cons _ _ _ _ Hro) Hn2 Hv2) as (new2 & -> & B1 & B2 & B3).
    exists (new1 ++ new2). split; [now rewrite app_assoc|]. split; [|split].
    + intros x m y Hx Hc. apply in_app_or in Hx. destruct Hx as [Hx|Hx]; [|eauto].
      apply in_or_app. left. eauto.
    + intros m y [[= <- <-]|Hy]; [apply in_or_app; now left|eauto].
    + intros x Hx. apply in_app_or in Hx. destruct Hx as [Hx|Hx].
      * exists n, r. split; [now left|auto].
      * destruct (B3 x Hx) as (m & y & Hy & Hyx). exists m, y. split; [now right|exact Hyx].
  - intros n a t sr subs st sr2 H1 _ _ Hf IHf Hro Hn Hv.
    destruct (IHf (refs_ok_cons _ _ _ _ Hro) Hn Hv) as (new & -> & B1 & B2 & B3).
    exists new. split; [reflexivity|]. split; [exact B1|]. split.
    + intros m y [[= <- ->]|Hy]; [discriminate|eauto].
    + intros x Hx. destruct (B3 x Hx) as (m & y & Hy & Hyx). exists m, y. split; [now right|exact Hyx].
  - intros n a t sr subs st sr2 H1 _ Hf IHf Hro Hn Hv.
    destruct (IHf (refs_ok_cons _ _ _ _ Hro) Hn Hv) as (new & -> & B1 & B2 & B3).
    exists new. split; [reflexivity|]. split; [exact B1|]. split.
    + intros m y [[= <- ->]|Hy]; [discriminate|eauto].
    + intros x Hx. destruct (B3 x Hx) as (m & y & Hy & Hyx). exists m, y. split; [now right|exact Hyx].
Qed.

(** ** Whole-graph traversals *)

(** the definition and the visiting order of the graph below [r] *)
Definition graph (w : world) (r : nat) (d : mdef) (L : list nat) : Prop := dspec w [] r d L.

Lemma graph_exists w r : wf_world w -> valid w r -> exists d L, graph w r d L.
Proof. intros Hw Hr. apply (dspec_exists w Hw (S (List.length (w_heap w)))); auto; [constructor|cbn; lia]. Qed.

Lemma graph_NoDup w r d L : wf_world w -> valid w r -> graph w r d L -> NoDup L /\ Forall (valid w) L.
Proof.
  intros Hw Hr Hg. destruct (proj1 (dfs_grows w Hw) _ _ _ _ Hg) as (new & -> & H1 & H2 & _); auto. constructor.
Qed.

Lemma graph_reaches w r d L : wf_world w -> valid w r -> graph w r d L -> forall x, In x L <-> reaches w r x.
Proof.
  intros Hw Hr Hg x. destruct (proj1 (dfs_closed w Hw) _ _ _ _ Hg) as (new & E & H1 & H2); auto; [constructor|].
  cbn in E. subst new. split; [apply H2|].
  destruct (proj1 (dfs_grows w Hw) _ _ _ _ Hg) as (new & _ & _ & _ & Hin); auto; [constructor|].
  intros Hx. apply (closed_reaches w (fun y => In y L) r); eauto.
Qed.

Lemma graph_root w r d L : graph w r d L -> exists t, L = r :: t /\
  exists c subs st i, d = MDef c 0 subs st i.
Proof.
  intros Hg. inversion Hg as [? ? i Hi|? ? o subs st sr' Hni Ho Hf]; subst; [destruct i; discriminate|].
  cbn in Hf. assert (exists t, L = r :: t).
  { clear -Hf. assert (G : (forall sr x d sr', dspec w sr x d sr' -> exists t, sr' = sr ++ t) /\
        (forall l sr subs st sr', fspec w l sr subs st sr' -> exists t, sr' = sr ++ t)).
    { apply dfs_ind; intros.
      - exists []. now rewrite app_nil_r.
      - destruct H2 as [t ->]. eexists. rewrite <- app_assoc. reflexivity.
      - exists []. now rewrite app_nil_r.
      - destruct H0 as [t1 ->]. destruct H2 as [t2 ->]. exists (t1 ++ t2). now rewrite app_assoc.
      - auto.
      - auto. }
    destruct (proj2 G _ _ _ _ _ Hf) as [t Ht]. exists t. exact Ht. }
  destruct H as [t ->]. exists t. split; [reflexivity|]. eauto 6.
Qed.

Lemma get_module_def_graph w r d L : wf_world w -> valid w r -> graph w r d L -> get_module_def w r = Ok d.
Proof.
  intros Hw Hr Hg. unfold get_module_def.
  assert (E : make_def (dfs_fuel w) w r (ids w []) = Ok (d, ids w L)).
  { apply (proj1 (make_def_dspec w Hw)); auto; [constructor|]. cbn. unfold dfs_fuel. lia. }
  change (ids w []) with (@nil nat) in E. rewrite E. cbn. destruct (graph_root _ _ _ _ Hg) as (t & _ & c & subs & st & i & ->). reflexivity.
Qed.

(** what [get_state] collects, with where each value lives *)
Lemma iter_state_graph w r d L : wf_world w -> valid w r -> graph w r d L ->
  exists E, items_spec w L E /\ (forall i, In i E -> follow w r (i_path i) = Some (i_own i)) /\
            iter_state w r = Ok (map (i_kv []) E).
Proof.
  intros Hw Hr Hg. destruct (proj1 (iter_state_dspec w Hw) _ _ _ _ Hg) as (new & E & Eq & H1 & H2 & H3); auto; [constructor|].
  cbn in Eq. subst new. exists E. split; [exact H1|]. split; [exact H2|].
  unfold iter_state. change (@nil nat) with (ids w []). rewrite H3; [reflexivity|]. cbn. unfold dfs_fuel. lia.
Qed.

Lemma names_no_slash w r p x : names_ok w r -> follow w r p = Some x -> Forall no_slash p.
Proof.
  revert x. induction p as [|n p IH] using rev_ind; intros x Hno Hp; [constructor|].
  rewrite follow_app in Hp. destruct (follow w r p) as [y|] eqn:E; [|discriminate].
  apply Forall_app. split; [eapply IH; eauto|]. constructor; [|constructor].
  apply follow_cons_child in Hp. destruct Hp as (z & (o & Ho & Hd) & _).
  destruct (Hno y o n _ (ex_intro _ p E) Ho Hd) as [H _]. apply H. reflexivity.
Qed.

Lemma items_keys w r d L E : wf_world w -> valid w r -> graph w r d L -> names_ok w r -> items_spec w L E ->
  (forall i, In i E -> follow w r (i_path i) = Some (i_own i)) ->
  (forall i, In i E -> Forall no_slash (i_path i) /\ no_slash (i_name i)) /\
  NoDup (keys (map (i_kv []) E)).
Proof.
  intros Hw Hr Hg Hno (H1 & H2 & H3) Hf.
  assert (Hs : forall i, In i E -> Forall no_slash (i_path i) /\ no_slash (i_name i)).
  { intros i Hi. split; [eapply names_no_slash; eauto|]. destruct (H1 i Hi) as [G1 G2]. pose proof G2 as (o & Ho & Hd & _).
    destruct (Hno (i_own i) o (i_name i) (i_val i) (ex_intro _ (i_path i) (Hf i Hi)) Ho Hd) as (_ & G & _). exact (G G2). }
  split; [exact Hs|].
  unfold keys. rewrite map_map.
  clear Hg. revert H3 Hs Hf. clear H1 H2. induction E as [|i E IH]; cbn; intros Hnd Hs Hf; [constructor|].
  inversion Hnd as [|? ? Hni Hnd']; subst. constructor; [|apply IH; auto].
  intros Hi. apply in_map_iff in Hi. destruct Hi as (j & Hj & Hj').
  destruct (Hs i (or_introl eq_refl)) as [A1 A2]. destruct (Hs j (or_intror Hj')) as [B1 B2].
  assert (Eq : i_path j ++ [i_name j] = i_path i ++ [i_name i]).
  { apply join_inj.
    - destruct (i_path j); discriminate.
    - destruct (i_path i); discriminate.
    - apply Forall_app. auto.
    - apply Forall_app. auto.
    - exact Hj. }
  apply app_inj_tail in Eq. destruct Eq as [E1 E2]. apply Hni. apply in_map_iff. exists j. split; [|exact Hj'].
  unfold i_slot. f_equal; [|exact E2]. pose proof (Hf i (or_introl eq_refl)) as F1. pose proof (Hf j (or_intror Hj')) as F2.
  rewrite E1 in F2. congruence.
Qed.
