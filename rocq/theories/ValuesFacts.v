(** Facts about values and containers. *)
From Coq Require Import ZArith Permutation.
From Verif Require Import PyBase PyBaseFacts ValuesM Spec_Eq.
Local Open Scope string_scope.
Local Open Scope list_scope.

Section PyvalInd.
Variable P : pyval -> Prop.
Hypothesis HNone : P PyNone.
Hypothesis HBool : forall b, P (PyBool b).
Hypothesis HInt : forall z, P (PyInt z).
Hypothesis HStr : forall s, P (PyStr s).
Hypothesis HTuple : forall l, Forall P l -> P (PyTuple l).
Hypothesis HMod : forall r, P (PyMod r).
Hypothesis HObj : forall c i, P (PyObj c i).
Fixpoint pyval_ind' (v : pyval) : P v :=
  match v with
  | PyNone => HNone | PyBool b => HBool b | PyInt z => HInt z | PyStr s => HStr s
  | PyTuple l => HTuple l ((fix go l : Forall P l :=
                              match l with [] => Forall_nil _
                              | x :: t => Forall_cons _ (pyval_ind' x) (go t) end) l)
  | PyMod r => HMod r | PyObj c i => HObj c i
  end.
End PyvalInd.

Lemma cls_eqb_eq a b : cls_eqb a b = true <-> a = b.
Proof. unfold cls_eqb. destruct (list_eq_dec string_dec a b); intuition congruence. Qed.
Lemma cls_eqb_refl a : cls_eqb a a = true.
Proof. now apply cls_eqb_eq. Qed.
Lemma cls_eqb_sym a b : cls_eqb a b = cls_eqb b a.
Proof. unfold cls_eqb. destruct (list_eq_dec string_dec a b), (list_eq_dec string_dec b a); congruence. Qed.

(** ** [==] *)
Section PyEqInd.
Variable P : pyval -> pyval -> Prop.
Hypothesis HSame : forall v, P v v.
Hypothesis HNumber : forall a b z, number a z -> number b z -> P a b.
Hypothesis HTuple : forall l l', Forall2 py_eq l l' -> Forall2 P l l' -> P (PyTuple l) (PyTuple l').
Fixpoint py_eq_ind' (a b : pyval) (H : py_eq a b) : P a b :=
  match H with
  | pe_same v => HSame v
  | pe_number a b z Ha Hb => HNumber a b z Ha Hb
  | pe_tuple l l' F => HTuple l l' F ((fix go l l' (F : Forall2 py_eq l l') : Forall2 P l l' :=
                          match F with
                          | Forall2_nil _ => Forall2_nil _
                          | Forall2_cons x y h t => Forall2_cons x y (py_eq_ind' x y h) (go _ _ t)
                          end) l l' F)
  end.
End PyEqInd.

Lemma number_fun a x y : number a x -> number a y -> x = y.
Proof. intros H H'; inversion H; subst; inversion H'; subst; auto. Qed.
Lemma number_bool b : number (PyBool b) (Z.b2z b).
Proof. destruct b; constructor. Qed.
Lemma py_eq_sym a b : py_eq a b -> py_eq b a.
Proof.
  intros H. induction H as [v|a b z Ha Hb|l l' F IH] using py_eq_ind'; [constructor|econstructor; eauto|].
  constructor. clear F. induction IH; constructor; auto.
Qed.
Lemma py_eq_tuple l l' : py_eq (PyTuple l) (PyTuple l') <-> Forall2 py_eq l l'.
Proof.
  split; [|apply pe_tuple]. intros H. inversion H as [v|a b z Ha Hb|? ? F]; subst; auto.
  - clear H. induction l'; constructor; auto. constructor.
  - inversion Ha.
Qed.
Lemma py_eq_trans a b c : py_eq a b -> py_eq b c -> py_eq a c.
Proof.
  intros H. revert c. induction H as [v|a b z Ha Hb|l l' F IH] using py_eq_ind'; intros c Hc; auto.
  - inversion Hc as [v|? ? z' Hb' Hc'|? ? F]; subst; [econstructor; eauto| |inversion Hb].
    pose proof (number_fun _ _ _ Hb Hb'); subst. econstructor; eauto.
  - inversion Hc as [v|? ? z' Hb' Hc'|? l2 F2]; subst; [now constructor|inversion Hb'|].
    constructor. clear Hc F. revert l2 F2. induction IH as [|x y l l' H1 H2 IH]; intros l2 F2; inversion F2; subst; constructor; auto.
Qed.
(** only numbers and tuples of them are equal without being the same *)
Lemma py_eq_str s v : py_eq (PyStr s) v -> v = PyStr s.
Proof. intros H. inversion H as [|? ? ? N|]; subst; [reflexivity|inversion N]. Qed.
Lemma py_eq_none v : py_eq PyNone v -> v = PyNone.
Proof. intros H. inversion H as [|? ? ? N|]; subst; [reflexivity|inversion N]. Qed.
Lemma py_eq_obj c i v : py_eq (PyObj c i) v -> v = PyObj c i.
Proof. intros H. inversion H as [|? ? ? N|]; subst; [reflexivity|inversion N]. Qed.
Lemma py_eq_mod r v : py_eq (PyMod r) v -> v = PyMod r.
Proof. intros H. inversion H as [|? ? ? N|]; subst; [reflexivity|inversion N]. Qed.

Lemma pyval_eqb_eq a : forall b, pyval_eqb a b = true <-> py_eq a b.
Proof.
  assert (Same : forall x y : pyval, (x = y -> py_eq x y)) by (intros x y ->; constructor).
  induction a as [| x | x | x | l IH | x | c x] using pyval_ind'; intros b; destruct b as [| y | y | y | l' | y | c' y];
    cbn [pyval_eqb]; try (split; [discriminate|intros H; inversion H as [|? ? ? N N'|]; subst; try inversion N; try inversion N'; fail]).
  - split; [constructor|reflexivity].
  - rewrite Bool.eqb_true_iff. split; [intros ->; constructor|]. intros H. inversion H as [|? ? z N N'|]; subst; auto.
    inversion N; subst; inversion N'; reflexivity.
  - rewrite Z.eqb_eq. split; [intros <-; econstructor; [apply number_bool|constructor]|]. intros H. inversion H as [|? ? z N N'|]; subst.
    apply (number_fun (PyInt y)); [|constructor]. rewrite <- (number_fun _ _ _ N (number_bool x)) in *. exact N'.
  - rewrite Z.eqb_eq. split; [intros <-; econstructor; [constructor|apply number_bool]|]. intros H. inversion H as [|? ? z N N'|]; subst.
    apply (number_fun (PyInt x)); [|constructor]. rewrite <- (number_fun _ _ _ N' (number_bool y)) in *. exact N.
  - rewrite Z.eqb_eq. split; [intros ->; constructor|]. intros H. inversion H as [|? ? z N N'|]; subst; auto.
    inversion N; subst; inversion N'; reflexivity.
  - rewrite String.eqb_eq. split; [intros ->; constructor|]. intros H. apply py_eq_str in H. congruence.
  - rewrite py_eq_tuple. revert l'. induction IH as [|u l Hu Hl IHl]; intros [|v l']; try (split; [discriminate|inversion 1]).
    + split; [constructor|reflexivity].
    + rewrite andb_true_iff, Hu, IHl. split; [intros [H1 H2]; now constructor|intros H; inversion H; auto].
  - rewrite Nat.eqb_eq. split; [intros ->; constructor|]. intros H. apply py_eq_mod in H. congruence.
  - rewrite andb_true_iff, cls_eqb_eq, Nat.eqb_eq. split; [intros [-> ->]; constructor|]. intros H. apply py_eq_obj in H. split; congruence.
Qed.

Lemma pyval_eqb_refl a : pyval_eqb a a = true.
Proof. apply pyval_eqb_eq. constructor. Qed.

Lemma opt_eq_refl a : opt_eq a a.
Proof. destruct a; cbn; auto. constructor. Qed.
Lemma opt_eq_sym a b : opt_eq a b -> opt_eq b a.
Proof. destruct a, b; cbn; auto. apply py_eq_sym. Qed.
Lemma opt_eq_trans a b c : opt_eq a b -> opt_eq b c -> opt_eq a c.
Proof. destruct a, b, c; cbn; auto; try contradiction. apply py_eq_trans. Qed.
Lemma same_meta_refl d : same_meta d d.
Proof. intros k. apply opt_eq_refl. Qed.
Lemma same_meta_sym d e : same_meta d e -> same_meta e d.
Proof. intros H k. apply opt_eq_sym, H. Qed.
Lemma same_meta_trans d e f : same_meta d e -> same_meta e f -> same_meta d f.
Proof. intros H H' k. eapply opt_eq_trans; [apply H|apply H']. Qed.
Lemma same_meta_ext d e : (forall k, dget k d = dget k e) -> same_meta d e.
Proof. intros H k. rewrite H. apply opt_eq_refl. Qed.
Lemma same_meta_keys d e : same_meta d e -> forall k, In k (keys d) <-> In k (keys e).
Proof.
  intros H k. specialize (H k). destruct (dget k d) as [v|] eqn:E, (dget k e) as [u|] eqn:F; cbn in H; try contradiction.
  - split; intros _; eapply dget_In_keys; eauto.
  - apply dget_None in E. apply dget_None in F. tauto.
Qed.

Lemma dict_eqb_spec d e :
  NoDup (keys d) -> NoDup (keys e) ->
  (dict_eqb d e = true <-> same_meta d e).
Proof.
  intros Hd He. unfold dict_eqb. rewrite andb_true_iff, Nat.eqb_eq, forallb_forall. split.
  - intros [Hlen H] k. destruct (dget k d) as [v|] eqn:E.
    + apply dget_In in E. specialize (H _ E). cbn in H.
      destruct (dget k e) as [v'|]; [|discriminate]. apply pyval_eqb_eq in H. exact H.
    + enough (G : dget k e = None) by (rewrite G; exact Logic.I). apply dget_None. intros Hk. apply dget_None in E. apply E.
      assert (Hincl : incl (keys d) (keys e)).
      { intros k' Hk'. apply in_map_iff in Hk'. destruct Hk' as [[k2 v2] [<- Hi]].
        specialize (H _ Hi). cbn in *. destruct (dget k2 e) eqn:E2; [|discriminate].
        eapply dget_In_keys; eauto. }
      assert (Hi : incl (keys e) (keys d)).
      { apply NoDup_length_incl; [exact Hd| |exact Hincl]. unfold keys. rewrite !map_length. lia. }
      now apply Hi.
  - intros H. split.
    + rewrite <- (map_length fst d), <- (map_length fst e). apply Nat.le_antisymm.
      * apply NoDup_incl_length; [exact Hd|]. intros k Hk. now apply (same_meta_keys d e H).
      * apply NoDup_incl_length; [exact He|]. intros k Hk. now apply (same_meta_keys d e H).
    + intros [k v] Hi. cbn. specialize (H k). rewrite (In_dget _ _ _ Hd Hi) in H. destruct (dget k e) as [u|]; [|contradiction].
      now apply pyval_eqb_eq.
Qed.

Lemma dict_eqb_refl d : NoDup (keys d) -> dict_eqb d d = true.
Proof. intros H. apply dict_eqb_spec; auto using same_meta_refl. Qed.

Lemma is_equivalent_refl c : wf_container c -> is_equivalent c c = true.
Proof.
  intros [H _]. unfold is_equivalent. now rewrite cls_eqb_refl, dict_eqb_refl.
Qed.

Lemma is_equivalent_spec c d : wf_container c -> wf_container d ->
  (is_equivalent c d = true <-> c_cls c = c_cls d /\ same_meta (c_meta c) (c_meta d)).
Proof.
  intros [Hc _] [Hd _]. unfold is_equivalent. rewrite andb_true_iff, cls_eqb_eq.
  now rewrite dict_eqb_spec.
Qed.

Lemma is_equivalent_sym c d : wf_container c -> wf_container d ->
  is_equivalent c d = is_equivalent d c.
Proof.
  intros Hc Hd. apply Bool.eq_iff_eq_true. rewrite !is_equivalent_spec by assumption.
  split; intros [H1 H2]; split; auto using same_meta_sym.
Qed.

(** re-initialising with the metadata of a constructed container changes nothing *)
Lemma init_meta_wf c : wf_container c -> init_meta (c_cls c) (c_meta c) = Ok (c_meta c).
Proof.
  intros (Hnd & _ & _ & Hs & Hv). unfold init_meta.
  destruct (smem "Static" (c_cls c)) eqn:Es; [now rewrite Hs|].
  destruct (smem "Variable" (c_cls c)) eqn:Ev; [|reflexivity].
  destruct (Hv eq_refl eq_refl) as (s & t & E). rewrite E in *. cbn. reflexivity.
Qed.

Lemma container_call_wf c v : wf_container c ->
  container_call (c_cls c) (CVal v) (c_meta c) = Ok (mkCont (c_cls c) (c_meta c) v).
Proof.
  intros H. unfold container_call, container_init. rewrite init_meta_wf by assumption. reflexivity.
Qed.

Lemma container_copy_id c : wf_container c -> container_copy c = Ok c.
Proof. intros H. unfold container_copy. rewrite container_call_wf by assumption. now destruct c. Qed.

(** the effect of [replace(value=a)] *)
Lemma replace_value c a : wf_container c ->
  container_replace c (Some a) [] =
    match a with
    | ARaw v => Ok (mkCont (c_cls c) (c_meta c) v)
    | ACont d => if is_equivalent c d then Ok (mkCont (c_cls c) (c_meta c) (c_val d)) else Err ValueError
    end.
Proof.
  intros H. unfold container_replace. destruct a as [v|d]; cbn.
  - now apply container_call_wf.
  - destruct (is_equivalent c d); [|reflexivity]. cbn. now apply container_call_wf.
Qed.

Lemma wf_container_val c v : wf_container c -> wf_container (mkCont (c_cls c) (c_meta c) v).
Proof. destruct c. auto. Qed.
