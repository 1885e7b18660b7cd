(** ModuleDef equality and hashing. *)
From Coq Require Import Permutation Sorted.
From Verif Require Import PyBase PyBaseFacts ValuesM Spec_Eq ValuesFacts FiltersM StateM ModuleM Spec_Module Graph_facts
  Dfs_proofs Bisim_proofs Skel_proofs.
Local Open Scope string_scope.
Local Open Scope list_scope.

(** ** values *)
Lemma attr_eqb_spec a b : wf_attr a -> wf_attr b -> (attr_eqb a b = true <-> same_attr a b).
Proof.
  destruct a as [v|c], b as [v'|c']; cbn; intros Ha Hb; try (split; [discriminate|tauto]).
  - apply pyval_eqb_eq.
  - unfold cont_eqb. rewrite !andb_true_iff, cls_eqb_eq, pyval_eqb_eq, dict_eqb_spec; try apply Ha; try apply Hb.
    split; [intros [[H1 H2] H3]|intros (H1 & H2 & H3)]; repeat split; auto using py_eq_sym, same_meta_sym.
Qed.
Lemma same_attr_refl a : same_attr a a.
Proof. destruct a; cbn; repeat split; auto using same_meta_refl; constructor. Qed.
Lemma same_attr_sym a b : same_attr a b -> same_attr b a.
Proof. destruct a, b; cbn; auto using py_eq_sym. intros (-> & H & H'). auto using py_eq_sym, same_meta_sym. Qed.
Lemma same_attr_trans a b c : same_attr a b -> same_attr b c -> same_attr a c.
Proof.
  destruct a, b, c; cbn; try tauto; [apply py_eq_trans|]. intros (-> & V & H) (-> & V' & H'). split; [auto|].
  split; [eapply py_eq_trans; eauto|eapply same_meta_trans; eauto].
Qed.

(** ** structural induction on definitions *)
Lemma mdef_rect' (P : mdef -> Prop) :
  (forall i, P (MRef i)) ->
  (forall c i subs st ini, Forall (fun nd => P (snd nd)) subs -> P (MDef c i subs st ini)) ->
  forall d, P d.
Proof.
  intros H1 H2. fix IH 1. intros [i|c i subs st ini]; [apply H1|apply H2].
  induction subs as [|[n d] t IHt]; constructor; [apply IH|exact IHt].
Qed.

Fixpoint subs_eqb (x y : list (string * mdef)) : bool :=
  match x, y with
  | [], [] => true
  | (n, d) :: x', (m, e) :: y' => String.eqb n m && mdef_eqb d e && subs_eqb x' y'
  | _, _ => false
  end.
Lemma mdef_eqb_MDef c i subs st ini c' i' subs' st' ini' :
  mdef_eqb (MDef c i subs st ini) (MDef c' i' subs' st' ini') = cls_eqb c c' && subs_eqb subs subs' && statics_eqb st st'.
Proof. reflexivity. Qed.

Lemma statics_eqb_Forall2 l l' : Forall (fun na => wf_attr (snd na)) l -> Forall (fun na => wf_attr (snd na)) l' ->
  (statics_eqb l l' = true <-> Forall2 (fun a b => fst a = fst b /\ same_attr (snd a) (snd b)) l l').
Proof.
  intros H. revert l'. induction H as [|[n a] l Ha H IH]; intros [|[m b] l'] H'; cbn.
  - split; [constructor|reflexivity].
  - split; [discriminate|inversion 1].
  - split; [discriminate|inversion 1].
  - inversion H' as [|? ? Hb H'']; subst. cbn in *. rewrite !andb_true_iff, String.eqb_eq, attr_eqb_spec by assumption.
    rewrite IH by assumption. split.
    + intros [[-> H1] H2]. constructor; auto.
    + inversion 1; subst. cbn in *. tauto.
Qed.

(** ** the parts of an attribute list a definition records *)
Fixpoint submods (l : list (string * attr)) : list (string * nat) :=
  match l with
  | [] => []
  | (n, ARaw (PyMod r)) :: t => (n, r) :: submods t
  | _ :: t => submods t
  end.
Fixpoint statics (nt : list string) (l : list (string * attr)) : list (string * attr) :=
  match l with
  | [] => []
  | (n, a) :: t => if negb (is_submodule a) && negb (is_node nt a) && negb (starts_with "_module__" n)
                   then (n, a) :: statics nt t else statics nt t
  end.
Lemma submods_nonsub n a t : is_submodule a = false -> submods ((n, a) :: t) = submods t.
Proof. destruct a as [[]|]; cbn; try reflexivity. discriminate. Qed.

Inductive chain (w : world) : list (string * nat) -> list nat -> list (string * mdef) -> list nat -> Prop :=
| ch_nil sr : chain w [] sr [] sr
| ch_cons n r t sr d sr1 subs sr2 : dspec w sr r d sr1 -> chain w t sr1 subs sr2 ->
    chain w ((n, r) :: t) sr ((n, d) :: subs) sr2.

Lemma fspec_chain w l sr subs st sr' : fspec w l sr subs st sr' ->
  st = statics (w_nodes w) l /\ chain w (submods l) sr subs sr'.
Proof.
  induction 1 as [sr|n r t sr d sr1 subs st sr2 Hd Hf [IH1 IH2]|n a t sr subs st sr2 E1 E2 E3 Hf [IH1 IH2]
                 |n a t sr subs st sr2 E1 E2 Hf [IH1 IH2]].
  - split; [reflexivity|constructor].
  - subst st. split; [reflexivity|]. cbn. econstructor; eauto.
  - rewrite submods_nonsub by assumption. subst st. cbn. rewrite E1, E2, E3. cbn. auto.
  - rewrite submods_nonsub by assumption. subst st. cbn. rewrite E1. cbn.
    split; [|assumption]. destruct (is_node (w_nodes w) a); [reflexivity|]. cbn in *. now rewrite E2.
Qed.

Lemma submods_dget l : NoDup (keys l) -> forall n r, In (n, r) (submods l) <-> dget n l = Some (ARaw (PyMod r)).
Proof.
  intros Hn n r. assert (H : In (n, r) (submods l) <-> In (n, ARaw (PyMod r)) l).
  { clear Hn. induction l as [|[m a] l IH]; cbn; [tauto|].
    destruct a as [[]|]; cbn; rewrite IH; intuition congruence. }
  rewrite H. split; [now apply In_dget|apply dget_In].
Qed.
Lemma statics_dget nt l : NoDup (keys l) -> forall n a, In (n, a) (statics nt l) <->
  dget n l = Some a /\ is_submodule a = false /\ is_node nt a = false /\ starts_with "_module__" n = false.
Proof.
  intros Hn n a. assert (H : In (n, a) (statics nt l) <-> In (n, a) l /\ is_submodule a = false /\ is_node nt a = false /\ starts_with "_module__" n = false).
  { clear Hn. induction l as [|[m b] l IH]; cbn; [tauto|].
    destruct (negb (is_submodule b) && negb (is_node nt b) && negb (starts_with "_module__" m)) eqn:E; cbn; rewrite IH.
    - rewrite !andb_true_iff, !negb_true_iff in E. split; [intros [[= -> ->]|H]; tauto|tauto].
    - split; [tauto|]. intros [[[= -> ->]|H] (H1 & H2 & H3)]; [|tauto]. rewrite H1, H2, H3 in E. discriminate. }
  rewrite H. split; intros [H1 H2]; split; auto; [now apply In_dget|now apply dget_In].
Qed.

Lemma submods_sorted l : StronglySorted klt l -> StronglySorted klt (submods l).
Proof.
  induction 1 as [|[n a] l Hs IH Hf]; cbn; [constructor|]. destruct a as [[]|]; try assumption. constructor; [assumption|].
  apply Forall_forall. intros [m r'] Hi. rewrite Forall_forall in Hf. unfold klt. cbn.
  assert (In (m, ARaw (PyMod r')) l).
  { clear -Hi. induction l as [|[k b] l IH]; cbn in *; [tauto|]. destruct b as [[]|]; cbn in *; intuition congruence. }
  apply (Hf _ H).
Qed.
Lemma statics_sorted nt l : StronglySorted klt l -> StronglySorted klt (statics nt l).
Proof.
  induction 1 as [|[n a] l Hs IH Hf]; cbn; [constructor|].
  destruct (negb (is_submodule a) && negb (is_node nt a) && negb (starts_with "_module__" n)); [|assumption].
  constructor; [assumption|]. apply Forall_forall. intros [m b] Hi. rewrite Forall_forall in Hf. unfold klt; cbn.
  assert (In (m, b) l).
  { clear -Hi. induction l as [|[k c] l IH]; cbn in *; [tauto|].
    destruct (negb (is_submodule c) && negb (is_node nt c) && negb (starts_with "_module__" k)); cbn in *; intuition. }
  apply (Hf _ H).
Qed.

(** two sorted lists with related entries are pointwise related *)
Lemma sorted_sync {A B} (Q : A -> B -> Prop) (l : list (string * A)) : forall (l' : list (string * B)),
  StronglySorted klt l -> StronglySorted klt l' ->
  (forall n a, In (n, a) l -> exists b, In (n, b) l' /\ Q a b) ->
  (forall n b, In (n, b) l' -> exists a, In (n, a) l) ->
  Forall2 (fun x y => fst x = fst y /\ Q (snd x) (snd y)) l l'.
Proof.
  induction l as [|[n a] l IH]; intros l' Hl Hl' H1 H2.
  - destruct l' as [|[m b] l']; [constructor|]. destruct (H2 m b (or_introl eq_refl)) as [? []].
  - inversion Hl as [|? ? Hs Hf]; subst. rewrite Forall_forall in Hf.
    destruct l' as [|[m b] l']. { destruct (H1 n a (or_introl eq_refl)) as (? & [] & _). }
    inversion Hl' as [|? ? Hs' Hf']; subst. rewrite Forall_forall in Hf'.
    assert (Hnm : n = m).
    { destruct (H1 n a (or_introl eq_refl)) as (b1 & Hb & _). destruct (H2 m b (or_introl eq_refl)) as (a1 & Ha).
      destruct Hb as [Hb|Hb]; [congruence|]. destruct Ha as [Ha|Ha]; [congruence|].
      apply Hf in Ha. apply Hf' in Hb. unfold klt in *. cbn in *. exfalso. eapply slt_asym; eauto. }
    subst m. constructor.
    + cbn. split; [reflexivity|]. destruct (H1 n a (or_introl eq_refl)) as (b1 & [Hb|Hb] & Hq); [congruence|].
      apply Hf' in Hb. unfold klt in Hb. cbn in Hb. now apply slt_irrefl in Hb.
    + apply IH; auto.
      * intros k x Hk. destruct (H1 k x (or_intror Hk)) as (b1 & [Hb|Hb] & Hq); [|eauto].
        apply Hf in Hk. unfold klt in Hk. cbn in Hk. injection Hb as -> ->. now apply slt_irrefl in Hk.
      * intros k x Hk. destruct (H2 k x (or_intror Hk)) as (b1 & [Hb|Hb]); [|eauto].
        apply Hf' in Hk. unfold klt in Hk. cbn in Hk. injection Hb as -> ->. now apply slt_irrefl in Hk.
Qed.

(** ** two modules match *)
Definition subs_rel (Z : nat -> nat -> Prop) (a b : string * nat) : Prop := fst a = fst b /\ Z (snd a) (snd b).
Definition st_rel (a b : string * attr) : Prop := fst a = fst b /\ same_attr (snd a) (snd b).
Definition osubs (o : mobj) := submods (sort_by_key (m_vars o)).
Definition ostat (w : world) (o : mobj) := statics (w_nodes w) (sort_by_key (m_vars o)).
Record omatch (w w' : world) (Z : nat -> nat -> Prop) (x y : nat) : Prop := mkOm {
  om_ex : exists o o', get_obj w x = Some o /\ get_obj w' y = Some o' /\ m_cls o = m_cls o' /\
     Forall2 (subs_rel Z) (osubs o) (osubs o') /\ Forall2 st_rel (ostat w o) (ostat w' o') }.

Lemma Forall2_mono {A B} (P Q : A -> B -> Prop) l l' : (forall a b, P a b -> Q a b) -> Forall2 P l l' -> Forall2 Q l l'.
Proof. intros H. induction 1; constructor; auto. Qed.
Lemma omatch_mono w w' (Z Z' : nat -> nat -> Prop) x y : (forall a b, Z a b -> Z' a b) -> omatch w w' Z x y -> omatch w w' Z' x y.
Proof.
  intros H [(o & o' & H1 & H2 & H3 & H4 & H5)]. constructor. exists o, o'. repeat split; auto.
  eapply Forall2_mono; [|exact H4]. intros a b [E F]. split; auto.
Qed.

Lemma ostat_wf w x o : wf_world w -> get_obj w x = Some o -> Forall (fun na : string * attr => wf_attr (snd na)) (ostat w o).
Proof.
  intros Hw Ho. pose proof (wf_objs _ Hw _ _ Ho) as W. apply Forall_forall. intros [n a] Hi. cbn.
  apply statics_dget in Hi; [|apply NoDup_keys_sort; apply W]. destruct Hi as [Hi _]. rewrite dget_sort in Hi by apply W.
  eapply (wfo_attrs _ _ W); eauto.
Qed.

(** ** soundness *)
Definition pos (l l' : list nat) (x y : nat) : Prop := exists i, nth_error l i = Some x /\ nth_error l' i = Some y.
Lemma pos_app l l' m m' x y : pos l l' x y -> pos (l ++ m) (l' ++ m') x y.
Proof.
  intros (i & H1 & H2). exists i. rewrite !nth_error_app1; auto; apply nth_error_Some; congruence.
Qed.
Lemma pos_split l l' m m' x y : List.length l = List.length l' -> pos (l ++ m) (l' ++ m') x y -> pos l l' x y \/ pos m m' x y.
Proof.
  intros E (i & H1 & H2). destruct (Nat.lt_ge_cases i (List.length l)) as [H|H].
  - left. exists i. rewrite nth_error_app1 in H1 by assumption. rewrite nth_error_app1 in H2 by congruence. auto.
  - right. exists (i - List.length l). rewrite nth_error_app2 in H1 by assumption. rewrite nth_error_app2 in H2 by congruence.
    rewrite E in *. auto.
Qed.

Lemma eqb_sound w w' : wf_world w -> wf_world w' ->
  (forall sr r d sr', dspec w sr r d sr' ->
     forall y sr2 d2 sr2', dspec w' sr2 y d2 sr2' -> List.length sr = List.length sr2 -> mdef_eqb d d2 = true ->
     exists new new2, sr' = sr ++ new /\ sr2' = sr2 ++ new2 /\ List.length new = List.length new2 /\
       pos sr' sr2' r y /\ forall a b, pos new new2 a b -> omatch w w' (pos sr' sr2') a b) /\
  (forall l sr subs st sr', fspec w l sr subs st sr' ->
     forall l2 sr2 subs2 sr2', chain w' l2 sr2 subs2 sr2' -> List.length sr = List.length sr2 -> subs_eqb subs subs2 = true ->
     exists new new2, sr' = sr ++ new /\ sr2' = sr2 ++ new2 /\ List.length new = List.length new2 /\
       Forall2 (subs_rel (pos sr' sr2')) (submods l) l2 /\ forall a b, pos new new2 a b -> omatch w w' (pos sr' sr2') a b).
Proof.
  intros Hw Hw'. apply dfs_ind.
  - intros sr r i Hi y sr2 d2 sr2' H2 Hlen He. inversion H2 as [? ? j Hj|]; subst; [|discriminate]. cbn in He.
    apply Nat.eqb_eq in He. subst j. exists [], []. rewrite !app_nil_r. split; [reflexivity|]. split; [reflexivity|]. split; [reflexivity|].
    split; [exists i; auto|]. intros a b (k & Hk & _). destruct k; discriminate.
  - intros sr r o subs st sr' Hni Ho Hf IH y sr2 d2 sr2' H2 Hlen He.
    inversion H2 as [? ? j Hj|? ? o2 subs2 st2 ? Hni2 Ho2 Hf2]; subst; [discriminate|].
    rewrite mdef_eqb_MDef, !andb_true_iff in He. destruct He as [[He1 He2] He3]. apply cls_eqb_eq in He1.
    apply fspec_chain in Hf2 as [-> Hch].
    destruct (fspec_chain _ _ _ _ _ _ Hf) as [-> _].
    destruct (IH _ _ _ _ Hch) as (new & new2 & -> & -> & Hl & HF & HM).
    { rewrite !app_length, Hlen. reflexivity. } { exact He2. }
    exists (r :: new), (y :: new2). rewrite <- !app_assoc in *. cbn in *. split; [reflexivity|]. split; [reflexivity|]. split; [lia|].
    assert (Hpos : pos (sr ++ r :: new) (sr2 ++ y :: new2) r y).
    { exists (List.length sr). split; [rewrite nth_error_app2, Nat.sub_diag; auto; lia|].
      rewrite nth_error_app2 by lia. replace (List.length sr - List.length sr2) with 0 by lia. reflexivity. }
    split; [exact Hpos|]. intros a b ([|i] & Ha & Hb); cbn in Ha, Hb.
    + injection Ha as <-. injection Hb as <-. constructor. exists o, o2. repeat split; auto.
      apply statics_eqb_Forall2; [eapply ostat_wf; eauto| eapply ostat_wf; eauto|exact He3].
    + apply HM. exists i. auto.
  - intros sr l2 sr2 subs2 sr2' H2 Hlen He. destruct subs2; [|discriminate]. inversion H2; subst.
    exists [], []. rewrite !app_nil_r. split; [reflexivity|]. split; [reflexivity|]. split; [reflexivity|]. split; [constructor|].
    intros a b (k & Hk & _). destruct k; discriminate.
  - intros n r t sr d sr1 subs st sr2 Hd IHd Hf IHf l2 s2 subs2 s2' H2 Hlen He.
    destruct subs2 as [|[m d2] subs2]; [discriminate|]. cbn in He. rewrite !andb_true_iff, String.eqb_eq in He.
    destruct He as [[-> He1] He2]. inversion H2 as [|? r2 t2 ? ? s3 ? ? Hd2 Hch]; subst.
    destruct (IHd _ _ _ _ Hd2 Hlen He1) as (new & new2 & -> & -> & Hl & HP & HM).
    destruct (IHf _ _ _ _ Hch) as (new3 & new4 & -> & -> & Hl' & HF & HM'). { rewrite !app_length. lia. } { exact He2. }
    exists (new ++ new3), (new2 ++ new4). rewrite !app_assoc. split; [reflexivity|]. split; [reflexivity|].
    split; [rewrite !app_length; lia|]. split.
    + cbn. constructor; [|exact HF]. split; [reflexivity|]. cbn. now apply pos_app.
    + intros a b Hab. apply pos_split in Hab as [Hab|Hab]; [|now apply HM'|exact Hl].
      eapply omatch_mono; [|apply HM; exact Hab]. intros. now apply pos_app.
  - intros n a t sr subs st sr2 E1 E2 E3 Hf IH l2 s2 subs2 s2' H2 Hlen He. rewrite submods_nonsub by assumption. eauto.
  - intros n a t sr subs st sr2 E1 E2 Hf IH l2 s2 subs2 s2' H2 Hlen He. rewrite submods_nonsub by assumption. eauto.
Qed.

Lemma osubs_child w x o n y : wf_world w -> get_obj w x = Some o -> (In (n, y) (osubs o) <-> child w x n y).
Proof.
  intros Hw Ho. pose proof (wf_objs _ Hw _ _ Ho) as W. unfold osubs. rewrite submods_dget by (apply NoDup_keys_sort; apply W).
  rewrite dget_sort by apply W. split; [intros H; exists o; auto|]. intros (o' & H1 & H2). congruence.
Qed.
Lemma ostat_attr w x o n a : wf_world w -> get_obj w x = Some o ->
  (In (n, a) (ostat w o) <-> static_attr w x n a /\ starts_with "_module__" n = false).
Proof.
  intros Hw Ho. pose proof (wf_objs _ Hw _ _ Ho) as W. unfold ostat. rewrite statics_dget by (apply NoDup_keys_sort; apply W).
  rewrite dget_sort by apply W. rewrite static_attr_iff. split.
  - intros (H1 & H2 & H3 & H4). split; [exists o; auto|assumption].
  - intros ((o' & H1 & H2 & H3 & H4) & H5). assert (o' = o) by congruence. subst. auto.
Qed.

Lemma Forall2_In_left {A B} (P : A -> B -> Prop) l l' x : Forall2 P l l' -> In x l -> exists y, In y l' /\ P x y.
Proof. induction 1; cbn; [tauto|]. intros [->|H1]; [eauto|]. destruct (IHForall2 H1) as (z & ? & ?). eauto. Qed.
Lemma Forall2_In_right {A B} (P : A -> B -> Prop) l l' y : Forall2 P l l' -> In y l' -> exists x, In x l /\ P x y.
Proof. induction 1; cbn; [tauto|]. intros [->|H1]; [eauto|]. destruct (IHForall2 H1) as (z & ? & ?). eauto. Qed.

Lemma omatch_follow w w' (Z : nat -> nat -> Prop) : wf_world w -> wf_world w' -> (forall x y, Z x y -> omatch w w' Z x y) ->
  forall p x y z, Z x y -> follow w x p = Some z -> exists z', follow w' y p = Some z' /\ Z z z'.
Proof.
  intros Hw Hw' HZ. induction p as [|n p IH]; intros x y z Hxy Hf.
  - cbn in *. destruct (HZ _ _ Hxy) as [(o & o' & H1 & H2 & _)]. rewrite H1 in Hf. rewrite H2. injection Hf as <-. eauto.
  - apply follow_cons_child in Hf as (u & Hc & Hf). destruct (HZ _ _ Hxy) as [(o & o' & H1 & H2 & H3 & H4 & H5)].
    apply (osubs_child _ _ o) in Hc; auto. destruct (Forall2_In_left _ _ _ _ H4 Hc) as ([m v] & Hv & [E1 E2]). cbn [fst snd] in E1, E2. subst m.
    apply (osubs_child w' y) in Hv; auto. destruct (IH _ _ _ E2 Hf) as (z' & Hz & HZz). exists z'. rewrite (child_follow _ _ _ _ _ Hv). auto.
Qed.

Lemma st_rel_sym l l' : Forall2 st_rel l l' -> Forall2 st_rel l' l.
Proof. induction 1 as [|x y l l' [E1 E2] H IH]; constructor; auto. split; [auto|now apply same_attr_sym]. Qed.
Lemma subs_rel_sym (Z : nat -> nat -> Prop) l l' : Forall2 (subs_rel Z) l l' -> Forall2 (subs_rel (fun a b => Z b a)) l' l.
Proof. induction 1 as [|x y l l' [E1 E2] H IH]; constructor; auto. split; auto. Qed.
Lemma omatch_sym w w' (Z : nat -> nat -> Prop) x y : omatch w w' Z x y -> omatch w' w (fun a b => Z b a) y x.
Proof.
  intros [(o & o' & H1 & H2 & H3 & H4 & H5)]. constructor. exists o', o. repeat split; auto; [now apply subs_rel_sym|now apply st_rel_sym].
Qed.

Lemma omatch_statics w w' (Z : nat -> nat -> Prop) x y : wf_world w -> wf_world w' -> omatch w w' Z x y -> statics_match w w' x y.
Proof.
  intros Hw Hw' [(o & o' & H1 & H2 & H3 & H4 & H5)] n a Hn Ha.
  assert (Hi : In (n, a) (ostat w o)) by (apply (ostat_attr w x); auto).
  destruct (Forall2_In_left _ _ _ _ H5 Hi) as ([m b] & Hb & [E1 E2]). cbn in *. subst m. apply (ostat_attr w' y) in Hb as [Hb _]; eauto.
Qed.

Theorem mdef_eqb_sound w r w' r' d d' : wf_world w -> wf_world w' ->
  get_module_def w r = Ok d -> get_module_def w' r' = Ok d' -> mdef_eqb d d' = true -> same_structure w r w' r'.
Proof.
  intros Hw Hw' Hd Hd' He.
  assert (Hr : valid w r).
  { unfold get_module_def, dfs_fuel in Hd. cbn in Hd. destruct (get_obj w r) eqn:E; [|discriminate]. eapply get_obj_lt; eauto. }
  assert (Hr' : valid w' r').
  { unfold get_module_def, dfs_fuel in Hd'. cbn in Hd'. destruct (get_obj w' r') eqn:E; [|discriminate]. eapply get_obj_lt; eauto. }
  destruct (graph_exists w r Hw Hr) as (d1 & L & Hg). destruct (graph_exists w' r' Hw' Hr') as (d2 & L' & Hg').
  rewrite (get_module_def_graph _ _ _ _ Hw Hr Hg) in Hd. rewrite (get_module_def_graph _ _ _ _ Hw' Hr' Hg') in Hd'.
  injection Hd as ->. injection Hd' as ->.
  destruct (proj1 (eqb_sound w w' Hw Hw') _ _ _ _ Hg _ _ _ _ Hg' eq_refl He) as (new & new2 & E1 & E2 & Hl & HP & HM).
  cbn in E1, E2. subst new new2.
  assert (HZ' : forall y x, pos L L' x y -> omatch w' w (fun a b => pos L L' b a) y x) by (intros; apply omatch_sym; auto).
  assert (HF : forall p z, follow w r p = Some z -> exists z', follow w' r' p = Some z' /\ pos L L' z z').
  { intros p z. apply (omatch_follow w w' (pos L L')); auto. }
  assert (HB : forall p z, follow w' r' p = Some z -> exists z', follow w r p = Some z' /\ pos L L' z' z).
  { intros p z. apply (omatch_follow w' w (fun a b => pos L L' b a)); auto. }
  assert (HR : forall p x y, follow w r p = Some x -> follow w' r' p = Some y -> pos L L' x y).
  { intros p x y H1 H2. destruct (HF _ _ H1) as (z & H3 & H4). congruence. }
  destruct (graph_NoDup _ _ _ _ Hw Hr Hg) as [HN _]. destruct (graph_NoDup _ _ _ _ Hw' Hr' Hg') as [HN' _].
  constructor.
  - intros p. split; intros [x Hx]; [destruct (HF _ _ Hx) as (z & Hz & _)|destruct (HB _ _ Hx) as (z & Hz & _)]; eauto.
  - intros p x y o o' H1 H2 H3 H4. destruct (HM _ _ (HR _ _ _ H1 H2)) as [(u & u' & U1 & U2 & U3 & _)]. congruence.
  - intros p x y H1 H2. pose proof (HR _ _ _ H1 H2) as H3. split; [apply (omatch_statics w w' (pos L L')); auto|].
    apply (omatch_statics w' w (fun a b => pos L L' b a)); auto.
  - intros p q x y x' y' H1 H2 H3 H4. destruct (HR _ _ _ H1 H3) as (i & A1 & A2). destruct (HR _ _ _ H2 H4) as (j & B1 & B2).
    rewrite NoDup_nth_error in HN, HN'. split; intros ->.
    + assert (i = j). { apply HN; [apply nth_error_Some; congruence|congruence]. } congruence.
    + assert (i = j). { apply HN'; [apply nth_error_Some; congruence|congruence]. } congruence.
Qed.

(** ** completeness *)
Definition corr (w : world) (r : nat) (w' : world) (r' : nat) (x y : nat) : Prop :=
  exists p, follow w r p = Some x /\ follow w' r' p = Some y.

Lemma corr_omatch w r w' r' : wf_world w -> wf_world w' -> same_structure w r w' r' ->
  forall x y, corr w r w' r' x y -> omatch w w' (corr w r w' r') x y.
Proof.
  intros Hw Hw' HS x y (p & Hp & Hp'). destruct (follow_valid _ _ _ _ Hp) as [o Ho]. destruct (follow_valid _ _ _ _ Hp') as [o' Ho'].
  pose proof (wf_objs _ Hw _ _ Ho) as W. pose proof (wf_objs _ Hw' _ _ Ho') as W'.
  constructor. exists o, o'. split; [exact Ho|]. split; [exact Ho'|]. split; [eapply ss_class; eauto|].
  split.
  - apply sorted_sync.
    + apply submods_sorted, sort_strict. apply W.
    + apply submods_sorted, sort_strict. apply W'.
    + intros n a Ha. apply (osubs_child w x) in Ha; auto.
      assert (Hv : exists oa, get_obj w a = Some oa).
      { destruct Ha as (o2 & Ho2 & Hd2). apply get_obj_ex. eapply (wfo_refs _ _ (wf_objs _ Hw _ _ Ho2)); eauto. }
      assert (Hfa : follow w r (p ++ [n]) = Some a). { destruct Hv as [oa Hoa]. eapply follow_snoc; eauto. }
      destruct (proj1 (ss_paths _ _ _ _ HS _) (ex_intro _ a Hfa)) as [b Hb]. exists b. split; [|exists (p ++ [n]); auto].
      apply (osubs_child w' y); auto. rewrite follow_app, Hp' in Hb. apply follow_cons_child in Hb as (z & Hc & Hz).
      cbn in Hz. destruct (get_obj w' z); [injection Hz as ->; exact Hc|discriminate].
    + intros n b Hb. apply (osubs_child w' y) in Hb; auto.
      assert (Hv : exists ob, get_obj w' b = Some ob).
      { destruct Hb as (o2 & Ho2 & Hd2). apply get_obj_ex. eapply (wfo_refs _ _ (wf_objs _ Hw' _ _ Ho2)); eauto. }
      assert (Hfb : follow w' r' (p ++ [n]) = Some b). { destruct Hv as [ob Hob]. eapply follow_snoc; eauto. }
      destruct (proj2 (ss_paths _ _ _ _ HS _) (ex_intro _ b Hfb)) as [a Ha]. exists a.
      apply (osubs_child w x); auto. rewrite follow_app, Hp in Ha. apply follow_cons_child in Ha as (z & Hc & Hz).
      cbn in Hz. destruct (get_obj w z); [injection Hz as ->; exact Hc|discriminate].
  - destruct (ss_static _ _ _ _ HS p x y Hp Hp') as [S1 S2]. apply sorted_sync.
    + apply statics_sorted, sort_strict. apply W.
    + apply statics_sorted, sort_strict. apply W'.
    + intros n a Ha. apply (ostat_attr w x) in Ha as [Ha Hn]; auto. destruct (S1 n a Hn Ha) as (b & Hb & E).
      exists b. split; [apply (ostat_attr w' y); auto|exact E].
    + intros n b Hb. apply (ostat_attr w' y) in Hb as [Hb Hn]; auto. destruct (S2 n b Hn Hb) as (a & Ha & E).
      exists a. apply (ostat_attr w x); auto.
Qed.

Lemma Forall2_nth_l {A B} (P : A -> B -> Prop) l l' : Forall2 P l l' -> forall i x, nth_error l i = Some x -> exists y, nth_error l' i = Some y /\ P x y.
Proof. induction 1; intros [|i] z Hz; cbn in *; try discriminate; [injection Hz as <-; eauto|eauto]. Qed.

Lemma eqb_complete w w' (Z : nat -> nat -> Prop) : wf_world w -> wf_world w' -> (forall x y, Z x y -> omatch w w' Z x y) ->
  (forall x y y', Z x y -> Z x y' -> y = y') -> (forall x x' y, Z x y -> Z x' y -> x = x') ->
  (forall sr r d sr', dspec w sr r d sr' -> NoDup sr -> valid w r -> Forall (valid w) sr ->
     forall y sr2 d2 sr2', dspec w' sr2 y d2 sr2' -> NoDup sr2 -> valid w' y -> Forall (valid w') sr2 ->
     Forall2 Z sr sr2 -> Z r y ->
     mdef_eqb d d2 = true /\ Forall2 Z sr' sr2') /\
  (forall l sr subs st sr', fspec w l sr subs st sr' -> NoDup sr -> refs_ok w l -> Forall (valid w) sr ->
     forall l2 sr2 subs2 sr2', chain w' l2 sr2 subs2 sr2' -> NoDup sr2 -> Forall (fun nr => valid w' (snd nr)) l2 -> Forall (valid w') sr2 ->
     Forall2 Z sr sr2 -> Forall2 (subs_rel Z) (submods l) l2 ->
     subs_eqb subs subs2 = true /\ Forall2 Z sr' sr2').
Proof.
  intros Hw Hw' HZ Hfun Hinj. apply dfs_ind.
  - intros sr r i Hi Hnd Hv Hvs y sr2 d2 sr2' H2 Hnd2 Hv2 Hvs2 HF Hry.
    destruct (Forall2_nth_l _ _ _ HF _ _ Hi) as (y' & Hy & Hz). assert (y' = y) by eauto. subst y'.
    inversion H2 as [? ? j Hj|? ? o2 subs2 st2 ? Hni2 Ho2 Hf2]; subst.
    + assert (i = j). { rewrite NoDup_nth_error in Hnd2. apply Hnd2; [apply nth_error_Some; congruence|congruence]. }
      subst. cbn. rewrite Nat.eqb_refl. auto.
    + exfalso. apply Hni2. eapply nth_error_In; eauto.
  - intros sr r o subs st sr' Hni Ho Hf IH Hnd Hv Hvs y sr2 d2 sr2' H2 Hnd2 Hv2 Hvs2 HF Hry.
    inversion H2 as [? ? j Hj|? ? o2 subs2 st2 ? Hni2 Ho2 Hf2]; subst.
    { exfalso. apply Hni. apply nth_error_In in Hj. destruct (Forall2_In_right _ _ _ _ HF Hj) as (x & Hx & Hz).
      assert (x = r) by eauto. now subst. }
    destruct (HZ _ _ Hry) as [(u & u' & U1 & U2 & U3 & U4 & U5)]. assert (u = o) by congruence. assert (u' = o2) by congruence. subst u u'.
    destruct (fspec_chain _ _ _ _ _ _ Hf) as [-> _]. apply fspec_chain in Hf2 as [-> Hch].
    destruct (IH) with (l2 := osubs o2) (sr2 := sr2 ++ [y]) (subs2 := subs2) (sr2' := sr2') as [E1 E2]; auto.
    + apply NoDup_app_intro; auto; [repeat constructor; auto|]. intros x Hx [<-|[]]. auto.
    + eapply refs_ok_obj; eauto.
    + apply Forall_app; auto.
    + apply NoDup_app_intro; auto; [repeat constructor; auto|]. intros x Hx [<-|[]]. auto.
    + apply Forall_forall. intros [n z] Hi. apply (osubs_child w' y) in Hi; auto. destruct Hi as (o3 & Ho3 & Hd3).
      eapply (wfo_refs _ _ (wf_objs _ Hw' _ _ Ho3)); eauto.
    + apply Forall_app; auto.
    + apply Forall2_app; auto.
    + split; [|exact E2]. rewrite mdef_eqb_MDef, !andb_true_iff. split; [split; [now apply cls_eqb_eq|exact E1]|].
      apply statics_eqb_Forall2; [eapply ostat_wf; eauto|eapply ostat_wf; eauto|exact U5].
  - intros sr _ _ _ l2 sr2 subs2 sr2' H2 _ _ _ HF HS. cbn in HS. inversion HS; subst. inversion H2; subst. auto.
  - intros n r t sr d sr1 subs st sr2 Hd IHd Hf IHf Hnd Hro Hvs l2 s2 subs2 s2' H2 Hnd2 Hvl Hvs2 HF HS.
    cbn in HS. inversion HS as [|? [m y] ? l2' [E1 E2] HS']; subst. cbn in E1, E2. subst m.
    inversion H2 as [|? ? ? ? d2 s3 ? ? Hd2 Hch]; subst. inversion Hvl as [|? ? Hvy Hvl']; subst. cbn in Hvy.
    assert (Hr : valid w r) by (apply (Hro n r); now left).
    destruct (IHd Hnd Hr Hvs _ _ _ _ Hd2 Hnd2 Hvy Hvs2 HF E2) as [A1 A2].
    destruct (proj1 (dfs_grows w Hw) _ _ _ _ Hd Hr Hnd Hvs) as (n1 & -> & G1 & G2 & _).
    destruct (proj1 (dfs_grows w' Hw') _ _ _ _ Hd2 Hvy Hnd2 Hvs2) as (n2 & -> & G3 & G4 & _).
    destruct (IHf G1 (refs_ok_cons _ _ _ _ Hro) G2 _ _ _ _ Hch G3 Hvl' G4 A2 HS') as [B1 B2].
    cbn. rewrite String.eqb_refl, A1, B1. auto.
  - intros n a t sr subs st sr2 E1 E2 E3 Hf IH Hnd Hro Hvs l2 s2 subs2 s2' H2. rewrite submods_nonsub by assumption.
    apply IH; auto. eapply refs_ok_cons; eauto.
  - intros n a t sr subs st sr2 E1 E2 Hf IH Hnd Hro Hvs l2 s2 subs2 s2' H2. rewrite submods_nonsub by assumption.
    apply IH; auto. eapply refs_ok_cons; eauto.
Qed.

Theorem mdef_eqb_complete w r w' r' d d' : wf_world w -> wf_world w' ->
  get_module_def w r = Ok d -> get_module_def w' r' = Ok d' -> same_structure w r w' r' -> mdef_eqb d d' = true.
Proof.
  intros Hw Hw' Hd Hd' HS.
  assert (Hr : valid w r).
  { unfold get_module_def, dfs_fuel in Hd. cbn in Hd. destruct (get_obj w r) eqn:E; [|discriminate]. eapply get_obj_lt; eauto. }
  assert (Hr' : valid w' r').
  { unfold get_module_def, dfs_fuel in Hd'. cbn in Hd'. destruct (get_obj w' r') eqn:E; [|discriminate]. eapply get_obj_lt; eauto. }
  destruct (graph_exists w r Hw Hr) as (d1 & L & Hg). destruct (graph_exists w' r' Hw' Hr') as (d2 & L' & Hg').
  rewrite (get_module_def_graph _ _ _ _ Hw Hr Hg) in Hd. rewrite (get_module_def_graph _ _ _ _ Hw' Hr' Hg') in Hd'.
  injection Hd as ->. injection Hd' as ->.
  destruct (proj1 (eqb_complete w w' (corr w r w' r') Hw Hw' (corr_omatch _ _ _ _ Hw Hw' HS)
     ltac:(intros x y y' (p & P1 & P2) (q & Q1 & Q2); apply (proj1 (ss_alias _ _ _ _ HS p q x x y y' P1 Q1 P2 Q2) eq_refl))
     ltac:(intros x x' y (p & P1 & P2) (q & Q1 & Q2); apply (proj2 (ss_alias _ _ _ _ HS p q x x' y y P1 Q1 P2 Q2) eq_refl)))
     _ _ _ _ Hg (NoDup_nil _) Hr (Forall_nil _) _ _ _ _ Hg' (NoDup_nil _) Hr' (Forall_nil _) (Forall2_nil _)) as [H _]; [|exact H].
  exists []. destruct (get_obj_ex _ _ Hr) as [o Ho]. destruct (get_obj_ex _ _ Hr') as [o' Ho']. cbn. now rewrite Ho, Ho'.
Qed.

(** the structure relation is an equivalence *)
Lemma same_structure_refl w r : same_structure w r w r.
Proof.
  constructor; intros; try tauto; try congruence.
  - assert (x = y) by congruence. subst. split; intros n a Hn Ha; exists a; auto using same_attr_refl.
  - assert (x = x') by congruence. assert (y = y') by congruence. subst. tauto.
Qed.
Lemma same_structure_sym w r w' r' : same_structure w r w' r' -> same_structure w' r' w r.
Proof.
  intros [H1 H2 H3 H4]. constructor.
  - intros p. symmetry. apply H1.
  - intros. symmetry. eauto.
  - intros p x y Hx Hy. destruct (H3 p y x Hy Hx). auto.
  - intros p q x y x' y' A B C D. symmetry. eauto.
Qed.
Lemma same_structure_trans w1 r1 w2 r2 w3 r3 :
  same_structure w1 r1 w2 r2 -> same_structure w2 r2 w3 r3 -> same_structure w1 r1 w3 r3.
Proof.
  intros [A1 A2 A3 A4] [B1 B2 B3 B4]. constructor.
  - intros p. rewrite A1. apply B1.
  - intros p x y o o' Hx Hy Ho Ho'. destruct (proj1 (A1 p) (ex_intro _ x Hx)) as [z Hz]. destruct (follow_valid _ _ _ _ Hz) as [oz Hoz].
    transitivity (m_cls oz); eauto.
  - intros p x y Hx Hy. destruct (proj1 (A1 p) (ex_intro _ x Hx)) as [z Hz].
    destruct (A3 _ _ _ Hx Hz) as [S1 S2]. destruct (B3 _ _ _ Hz Hy) as [S3 S4]. split.
    + intros n a Hn Ha. destruct (S1 _ _ Hn Ha) as (b & Hb & E). destruct (S3 _ _ Hn Hb) as (c & Hc & E'). eauto using same_attr_trans.
    + intros n a Hn Ha. destruct (S4 _ _ Hn Ha) as (b & Hb & E). destruct (S2 _ _ Hn Hb) as (c & Hc & E'). eauto using same_attr_trans.
  - intros p q x y x' y' P1 Q1 P2 Q2. destruct (proj1 (A1 p) (ex_intro _ x P1)) as [z Hz]. destruct (proj1 (A1 q) (ex_intro _ y Q1)) as [z' Hz'].
    rewrite (A4 p q x y z z'); eauto.
Qed.

(** ** hash *)
Lemma mdef_hash_eq hc ha hs hn mix : (forall a b, attr_eqb a b = true -> ha a = ha b) ->
  forall d e, mdef_eqb d e = true -> mdef_hash hc ha hs hn mix d = mdef_hash hc ha hs hn mix e.
Proof.
  intros Ha. intros d. induction d as [i|c i subs st ini IH] using mdef_rect'; intros [j|c' i' subs' st' ini'] He; try discriminate.
  - cbn in He. apply Nat.eqb_eq in He. now subst.
  - rewrite mdef_eqb_MDef, !andb_true_iff in He. destruct He as [[He1 He2] He3]. apply cls_eqb_eq in He1. subst c'. cbn.
    assert (E1 : map (fun nd => mix [hs (fst nd); mdef_hash hc ha hs hn mix (snd nd)]) subs
               = map (fun nd => mix [hs (fst nd); mdef_hash hc ha hs hn mix (snd nd)]) subs').
    { clear He3. revert subs' He2. induction IH as [|[n d] t Hd Ht IHt]; intros [|[m e] t'] He2; cbn in *; try discriminate; [reflexivity|].
      rewrite !andb_true_iff, String.eqb_eq in He2. destruct He2 as [[-> E1] E2]. rewrite (Hd _ E1), (IHt _ E2). reflexivity. }
    assert (E2 : map (fun na : string * attr => mix [hs (fst na); ha (snd na)]) st = map (fun na => mix [hs (fst na); ha (snd na)]) st').
    { clear He2 E1. revert st' He3. induction st as [|[n a] t IHt]; intros [|[m b] t'] He3; cbn in *; try discriminate; [reflexivity|].
      rewrite !andb_true_iff, String.eqb_eq in He3. destruct He3 as [[-> E1] E2]. rewrite (Ha _ _ E1), (IHt _ E2). reflexivity. }
    now rewrite E1, E2.
Qed.
