(** Proofs about nnx.Sequence and nnx.Dict. *)
From Coq Require Import Permutation ZArith DecimalString DecimalNat.
From Verif Require Import PyBase PyBaseFacts ValuesM Spec_Eq ValuesFacts FiltersM StateM ModuleM Spec_Module Graph_facts Dfs_proofs Update_proofs Write_proofs Call_proofs
  Laws_proofs Clone_proofs HelpersM Spec_Helpers.
Local Open Scope string_scope.
Local Open Scope list_scope.

(** ** decimal names *)
Lemma str_nat_inj i j : str_nat i = str_nat j -> i = j.
Proof.
  unfold str_nat. intros H. apply Unsigned.to_uint_inj.
  assert (E : NilEmpty.uint_of_string (NilEmpty.string_of_uint (Nat.to_uint i)) = NilEmpty.uint_of_string (NilEmpty.string_of_uint (Nat.to_uint j))) by now rewrite H.
  rewrite !NilEmpty.usu in E. congruence.
Qed.
Lemma uint_digits d : forall c, has_char c (NilEmpty.string_of_uint d) = true ->
  In c ["0"; "1"; "2"; "3"; "4"; "5"; "6"; "7"; "8"; "9"]%char.
Proof.
  induction d; intros c H; cbn [NilEmpty.string_of_uint has_char] in H; [discriminate| ..];
    apply orb_prop in H as [H|H]; try (apply Ascii.eqb_eq in H; subst c; cbn; tauto); auto.
Qed.
Lemma str_nat_char c i : ~ In c ["0"; "1"; "2"; "3"; "4"; "5"; "6"; "7"; "8"; "9"]%char -> has_char c (str_nat i) = false.
Proof. intros H. destruct (has_char c (str_nat i)) eqn:E; [|reflexivity]. now apply uint_digits in E. Qed.
Lemma str_nat_first i c t : String c t = str_nat i -> In c ["0"; "1"; "2"; "3"; "4"; "5"; "6"; "7"; "8"; "9"]%char.
Proof. intros H. apply (uint_digits (Nat.to_uint i)). fold (str_nat i). rewrite <- H. cbn. now rewrite Ascii.eqb_refl. Qed.
Lemma str_nat_neq i c t : ~ In c ["0"; "1"; "2"; "3"; "4"; "5"; "6"; "7"; "8"; "9"]%char -> String c t <> str_nat i.
Proof. intros H E. now apply str_nat_first in E. Qed.
Lemma str_nat_prefix i : starts_with "_module__" (str_nat i) = false.
Proof.
  destruct (str_nat i) as [|c t] eqn:E; [reflexivity|]. symmetry in E. apply str_nat_first in E. cbn in E.
  repeat (destruct E as [<-|E]; [reflexivity|]). destruct E.
Qed.
Lemma str_int_nat i : str_int (Z.of_nat i) = str_nat i.
Proof. destruct i; [reflexivity|]. cbn. now rewrite SuccNat2Pos.id_succ. Qed.

Lemma keys_numbered xs : forall i k, In k (keys (numbered i xs)) <-> exists j, j < List.length xs /\ k = str_nat (i + j).
Proof.
  induction xs as [|x xs IH]; intros i k; cbn [numbered keys map fst List.length].
  - split; [intros []|]. intros (j & Hj & _). lia.
  - change (map fst (numbered (S i) xs)) with (keys (numbered (S i) xs)). cbn [In]. rewrite IH. split.
    + intros [<-|(j & Hj & ->)]; [exists 0|exists (S j)]; (split; [lia|f_equal; lia]).
    + intros ([|j] & Hj & ->); [left; f_equal; lia|right; exists j; split; [lia|f_equal; lia]].
Qed.
Lemma NoDup_numbered xs : forall i, NoDup (keys (numbered i xs)).
Proof.
  induction xs as [|x xs IH]; intros i; cbn [numbered keys map fst]; constructor; [|apply IH].
  change (map fst (numbered (S i) xs)) with (keys (numbered (S i) xs)). rewrite keys_numbered. intros (j & _ & E). apply str_nat_inj in E. lia.
Qed.
Lemma dget_numbered xs : forall i j, dget (str_nat (i + j)) (numbered i xs) = nth_error xs j.
Proof.
  induction xs as [|x xs IH]; intros i j; cbn [numbered]; [now destruct j|]. cbn [dget].
  destruct (String.eqb_spec (str_nat (i + j)) (str_nat i)) as [E|NE].
  - apply str_nat_inj in E. assert (j = 0) by lia. subst. reflexivity.
  - destruct j as [|j]; [now rewrite Nat.add_0_r in NE|]. replace (i + S j) with (S i + j) by lia. apply IH.
Qed.
Lemma values_numbered xs : forall i, values (numbered i xs) = xs.
Proof. induction xs as [|x xs IH]; intros i; [reflexivity|]. cbn. f_equal. apply IH. Qed.

(** ** assigning new names *)
Lemma assign_all_fresh items : forall w r o, get_obj w r = Some o -> m_trace o = w_trace w ->
  NoDup (keys (m_vars o ++ items)) -> ~ In "_module__state" (keys items) -> Forall wf_attr (values items) ->
  assign_all w r items = Ok (put_obj w r (set_vars o (m_vars o ++ items))).
Proof.
  induction items as [|[n a] items IH]; intros w r o Ho Ht Hnd Hres Hwf.
  - cbn [assign_all]. rewrite app_nil_r, set_vars_id. f_equal. unfold put_obj, set_heap. rewrite list_set_id by exact Ho. now destruct w.
  - cbn [assign_all]. assert (Hn : ~ In n (keys (m_vars o))).
    { rewrite keys_app in Hnd. intros Hin. apply (NoDup_app_disj _ _ n Hnd Hin). now left. }
    inversion Hwf as [|? ? Ha Hwf']; subst. cbn [snd] in Ha.
    assert (Has : assign_value (dget n (m_vars o)) a = Ok a).
    { rewrite (proj2 (dget_None n (m_vars o)) Hn). destruct a as [v|c]; [reflexivity|]. unfold assign_value. now rewrite container_copy_id by exact Ha. }
    rewrite (setattr_ok w r n a o a Ho Ht) by (auto; intros ->; apply Hres; now left). cbn [rbind].
    rewrite dset_new by assumption. rewrite (IH _ _ (set_vars o (m_vars o ++ [(n, a)]))).
    + rewrite put_put. f_equal. cbn. rewrite <- app_assoc. reflexivity.
    + eapply get_put_same; eauto.
    + cbn. exact Ht.
    + cbn. rewrite <- app_assoc. exact Hnd.
    + intros H. apply Hres. now right.
    + exact Hwf'.
Qed.

Definition constructed (w : world) (c : cls) (items : list (string * attr)) (w' : world) : Prop :=
  let r := List.length (w_heap w) in
  get_obj w' r = Some (mkMobj c (S (w_uuid w)) false (w_trace w) items) /\
  (forall y, y <> r -> get_obj w' y = get_obj w y) /\ wf_world w' /\ extends w w' /\
  w_uuid w' = S (w_uuid w) /\ w_trace w' = w_trace w /\ w_nodes w' = w_nodes w /\ List.length (w_heap w') = S r.

Lemma construct w c items : wf_world w -> NoDup (keys items) -> ~ In "_module__state" (keys items) -> Forall (attr_ok w) (values items) ->
  exists w', assign_all (snd (new_module w c)) (List.length (w_heap w)) items = Ok w' /\ constructed w c items w'.
Proof.
  intros Hw Hnd Hres Hok. set (r := List.length (w_heap w)). set (o := mkMobj c (S (w_uuid w)) false (w_trace w) []).
  set (w1 := snd (new_module w c)).
  assert (E1 : get_obj w1 r = Some o). { unfold w1, new_module, get_obj, r. cbn. rewrite nth_error_app2, Nat.sub_diag by lia. reflexivity. }
  set (o' := mkMobj c (S (w_uuid w)) false (w_trace w) items).
  exists (put_obj w1 r o'). split.
  { rewrite (assign_all_fresh items w1 r o); auto. eapply Forall_impl; [|exact Hok]. intros a Ha. apply Ha. }
  assert (Hother : forall y, y <> r -> get_obj (put_obj w1 r o') y = get_obj w y).
  { intros y Hy. rewrite get_put_other by auto. unfold w1, new_module, get_obj. cbn. destruct (Nat.lt_ge_cases y r) as [L|G].
    - now apply nth_error_app1.
    - rewrite nth_error_app2 by exact G. fold r. replace (nth_error (w_heap w) y) with (@None mobj) by (symmetry; now apply nth_error_None).
      destruct (y - r) eqn:D; [lia|]. cbn. now destruct n. }
  assert (Hext : w_heap (put_obj w1 r o') = w_heap w ++ [o']).
  { unfold w1, new_module, put_obj, r. cbn. rewrite list_set_app_r, Nat.sub_diag by lia. reflexivity. }
  assert (Hlen : List.length (w_heap (put_obj w1 r o')) = S r) by (rewrite Hext, app_length; cbn; unfold r; lia).
  split; [eapply get_put_same; eauto|]. split; [exact Hother|]. split.
  - constructor.
    + rewrite Hext, map_app. cbn. apply NoDup_app_intro; [apply Hw|repeat constructor; auto|].
      intros x Hx [<-|[]]. apply in_map_iff in Hx as (q & Hq & Hin). apply In_nth_error in Hin as [y Hy].
      pose proof (wfo_id _ _ (wf_objs _ Hw _ _ Hy)). lia.
    + intros y oy Hy. destruct (Nat.eq_dec y r) as [->|Hne].
      * rewrite (get_put_same _ _ _ o) in Hy by exact E1. injection Hy as <-. constructor; cbn [m_id m_vars o']; auto.
        -- intros n x Hx. fold o'. rewrite Hlen. apply dget_In in Hx. rewrite Forall_forall in Hok.
           destruct (Hok (ARaw (PyMod x))) as [_ K]; [apply in_map_iff; exists (n, ARaw (PyMod x)); auto|]. specialize (K x eq_refl). fold r in K. lia.
        -- intros n a Hx. apply dget_In in Hx. rewrite Forall_forall in Hok. apply Hok. apply in_map_iff. exists (n, a). auto.
      * rewrite Hother in Hy by assumption. pose proof (wf_objs _ Hw _ _ Hy) as [A B C D E]. constructor; auto.
        -- cbn. lia.
        -- intros n x Hx. rewrite Hlen. specialize (D n x Hx). unfold r. lia.
  - split; [exists [o']; exact Hext|]. repeat split. exact Hlen.
Qed.

(** names, for cloning *)
Lemma constructed_names w c items w' : wf_world w -> constructed w c items w' ->
  (forall n, In n (keys items) -> has_char "/" n = false /\ starts_with "_module__" n = false) ->
  (forall n x, dget n items = Some (ARaw (PyMod x)) -> names_ok w x) -> (forall n x, dget n items = Some (ARaw (PyMod x)) -> x < List.length (w_heap w)) ->
  names_ok w' (List.length (w_heap w)).
Proof.
  intros Hw (Ho & Hoth & Hw' & Hext & Hu & Ht & Hnt & Hlen) Hnames Hsub Hlt. set (r := List.length (w_heap w)) in *.
  intros x o n a [p Hp] Hx Hd. destruct (Nat.eq_dec x r) as [->|Hne].
  - rewrite Ho in Hx. injection Hx as <-. cbn in Hd. destruct (Hnames n (dget_In_keys _ _ _ Hd)) as [A B]. auto.
  - destruct p as [|k p].
    + cbn in Hp. rewrite Ho in Hp. congruence.
    + apply follow_cons_child in Hp as (z & (oz & Hoz & Hz) & Hp). rewrite Ho in Hoz. injection Hoz as <-. cbn in Hz.
      assert (R : reaches w z x). { apply (extends_reaches w w' z x Hw Hext); [eapply Hlt; eauto|]. now exists p. }
      rewrite Hoth in Hx by assumption. destruct (Hsub _ _ Hz x o n a R Hx Hd) as (A & B & C). split; [exact A|]. split.
      * intros (o1 & H1 & H2 & H3 & H4). apply B. exists o1. rewrite Hoth in H1 by assumption. rewrite Hnt in H4. auto.
      * intros (o1 & H1 & H2 & H3 & H4). apply C. exists o1. rewrite Hoth in H1 by assumption. rewrite Hnt in H4. auto.
Qed.

(** ** reading *)
Lemma read_attr_reads a : reads_as a (read_attr a).
Proof. destruct a as [v|c]; cbn; [constructor|]. destruct (dget "unbox_fn" (c_meta c)) eqn:E; now constructor. Qed.

Lemma look_getattr w r w' m k : wf_world w -> wf_world w' -> valid w r -> valid w' m ->
  (forall p, look w' m p = look w r p) ->
  match getattr w r k with
  | Ok x => exists y, getattr w' m k = Ok y /\ same_read w x w' y
  | Err e => getattr w' m k = Err e
  end.
Proof.
  intros Hw Hw' Hr Hm L. destruct (get_obj_ex _ _ Hr) as [o Ho]. destruct (get_obj_ex _ _ Hm) as [o' Ho'].
  assert (Lk : forall p, look w r (k :: p) = match dget k (m_vars o) with None => SNothing | Some (ARaw (PyMod r')) => look w r' p
                                 | Some a => match p with [] => SValue a | _ => SNothing end end) by (intros p; cbn [look]; now rewrite Ho).
  assert (Lk' : forall p, look w' m (k :: p) = match dget k (m_vars o') with None => SNothing | Some (ARaw (PyMod r')) => look w' r' p
                                 | Some a => match p with [] => SValue a | _ => SNothing end end) by (intros p; cbn [look]; now rewrite Ho').
  assert (Hmod : forall v y, wf_world v -> y < List.length (w_heap v) -> exists c b, look v y [] = SModule c b).
  { intros v y Hv Hy. destruct (get_obj_ex _ _ Hy) as [q Hq]. cbn. rewrite Hq. eauto. }
  assert (Hsub : forall y, dget k (m_vars o) = Some (ARaw (PyMod y)) -> exists c b, look w y [] = SModule c b).
  { intros y Hy. apply Hmod; auto. eapply (wfo_refs _ _ (wf_objs _ Hw _ _ Ho)); eauto. }
  assert (Hsub' : forall y, dget k (m_vars o') = Some (ARaw (PyMod y)) -> exists c b, look w' y [] = SModule c b).
  { intros y Hy. apply Hmod; auto. eapply (wfo_refs _ _ (wf_objs _ Hw' _ _ Ho')); eauto. }
  assert (E : forall p, look w' m (k :: p) = look w r (k :: p)) by (intros p; apply L). unfold getattr. rewrite Ho, Ho'.
  pose proof (E []) as E0. rewrite Lk, Lk' in E0.
  destruct (dget k (m_vars o)) as [[v|c]|] eqn:D, (dget k (m_vars o')) as [[v'|c']|] eqn:D'.
  - destruct (is_submodule (ARaw v)) eqn:I1.
    + apply is_sub_inv in I1 as (y & Q). injection Q as ->. destruct (Hsub y eq_refl) as (c1 & b1 & S1). rewrite S1 in E0.
      destruct v'; try discriminate E0. eexists. split; [reflexivity|]. right. exists y. eexists. split; [reflexivity|]. split; [reflexivity|]. intros p. specialize (E p). now rewrite Lk, Lk' in E.
    + destruct (is_submodule (ARaw v')) eqn:I2.
      * apply is_sub_inv in I2 as (y & Q). injection Q as ->. destruct (Hsub' y eq_refl) as (c1 & b1 & S1). rewrite S1 in E0.
        destruct v; discriminate.
      * assert (v = v') by (destruct v, v'; try discriminate; congruence). subst v'. eexists. split; [reflexivity|]. now left.
  - exfalso. destruct v; try discriminate. destruct (Hsub r0 eq_refl) as (c1 & b1 & S1). congruence.
  - exfalso. destruct v; try discriminate. destruct (Hsub r0 eq_refl) as (c1 & b1 & S1). congruence.
  - exfalso. destruct v'; try discriminate. destruct (Hsub' r0 eq_refl) as (c1 & b1 & S1). congruence.
  - injection E0 as ->. eexists. split; [reflexivity|]. now left.
  - discriminate.
  - exfalso. destruct v'; try discriminate. destruct (Hsub' r0 eq_refl) as (c1 & b1 & S1). congruence.
  - discriminate.
  - reflexivity.
Qed.

(** ** Sequence *)
Definition seq_items (xs : list attr) : list (string * attr) :=
  numbered 0 xs ++ [("_length", ARaw (PyInt (Z.of_nat (last_index xs + 1))))].
Lemma underscore_not_digit : ~ In "_"%char ["0"; "1"; "2"; "3"; "4"; "5"; "6"; "7"; "8"; "9"]%char.
Proof. cbn. intuition discriminate. Qed.
Lemma length_not_number xs i : ~ In "_length" (keys (numbered i xs)).
Proof. rewrite keys_numbered. intros (j & _ & E). apply (str_nat_neq _ _ _ underscore_not_digit E). Qed.
Lemma seq_items_keys xs : NoDup (keys (seq_items xs)) /\ ~ In "_module__state" (keys (seq_items xs)).
Proof.
  unfold seq_items. rewrite keys_app. split.
  - apply NoDup_app_intro; [apply NoDup_numbered|repeat constructor; auto|]. intros x Hx [<-|[]]. now apply length_not_number in Hx.
  - intros H. apply in_app_or in H as [H|[H|[]]]; [|discriminate]. apply keys_numbered in H as (j & _ & E). apply (str_nat_neq _ _ _ underscore_not_digit E).
Qed.
Lemma assign_all_app l1 : forall l2 w r, assign_all w r (l1 ++ l2) = do w1 <- assign_all w r l1; assign_all w1 r l2.
Proof.
  induction l1 as [|[n a] l1 IH]; intros l2 w r; [reflexivity|]. cbn [app assign_all]. destruct (setattr w r n a); [apply IH|reflexivity].
Qed.
Lemma new_sequence_eq w xs : new_sequence w xs =
  do w' <- assign_all (snd (new_module w Sequence_cls)) (List.length (w_heap w)) (seq_items xs); Ok (List.length (w_heap w), w').
Proof.
  unfold new_sequence, seq_items. cbn [new_module snd]. rewrite assign_all_app.
  destruct (assign_all _ _ (numbered 0 xs)) as [w1|e]; [|reflexivity]. cbn [rbind assign_all].
  destruct (setattr w1 _ "_length" _); reflexivity.
Qed.

Lemma new_sequence_constructed w xs : wf_world w -> storable w xs ->
  exists w', new_sequence w xs = Ok (List.length (w_heap w), w') /\ constructed w Sequence_cls (seq_items xs) w'.
Proof.
  intros Hw Hx. destruct (seq_items_keys xs) as [A B]. destruct (construct w Sequence_cls (seq_items xs) Hw A B) as (w' & E & C).
  - unfold seq_items, values. rewrite map_app. apply Forall_app. split.
    + change (map snd (numbered 0 xs)) with (values (numbered 0 xs)). rewrite values_numbered. exact Hx.
    + repeat constructor. discriminate.
  - exists w'. split; [|exact C]. now rewrite new_sequence_eq, E.
Qed.

Lemma constructed_get w c items w' k : constructed w c items w' ->
  getattr w' (List.length (w_heap w)) k = match dget k items with Some a => Ok (read_attr a) | None => Err AttributeError end.
Proof. intros (Ho & _). unfold getattr. now rewrite Ho. Qed.
Lemma dget_seq_items xs i : dget (str_nat i) (seq_items xs) = nth_error xs i.
Proof.
  unfold seq_items. rewrite dget_app. change i with (0 + i) at 1. rewrite dget_numbered. destruct (nth_error xs i); [reflexivity|].
  cbn [dget]. destruct (String.eqb_spec (str_nat i) "_length") as [E|_]; [|reflexivity].
  symmetry in E. now apply str_nat_neq in E; [|apply underscore_not_digit].
Qed.
Lemma constructed_len w xs w' : constructed w Sequence_cls (seq_items xs) w' -> seq_len w' (List.length (w_heap w)) = Ok (last_index xs + 1).
Proof.
  intros C. unfold seq_len. rewrite (constructed_get _ _ _ _ _ C). unfold seq_items. rewrite dget_app.
  rewrite (proj2 (dget_None _ _) (length_not_number xs 0)). cbn [dget]. rewrite String.eqb_refl. cbn [read_attr rbind].
  destruct (Z.ltb_spec (Z.of_nat (last_index xs + 1)) 0); [lia|]. now rewrite Nat2Z.id.
Qed.
Lemma last_index_len xs : xs <> [] -> last_index xs + 1 = List.length xs.
Proof. unfold last_index. destruct xs; [congruence|]. cbn. lia. Qed.

Lemma rmapM_seq {B} (f : nat -> result B) (R : attr -> B -> Prop) xs : forall k,
  (forall i a, nth_error xs i = Some a -> exists v, f (k + i) = Ok v /\ R a v) ->
  exists vs, rmapM f (seq k (List.length xs)) = Ok vs /\ Forall2 R xs vs.
Proof.
  induction xs as [|x xs IH]; intros k H; [exists []; split; [reflexivity|constructor]|].
  cbn [List.length seq rmapM]. destruct (H 0 x eq_refl) as (v & E & Rv). rewrite Nat.add_0_r in E. rewrite E. cbn [rbind].
  destruct (IH (S k)) as (vs & E' & F).
  - intros i a Ha. destruct (H (S i) a Ha) as (u & E1 & R1). exists u. replace (S k + i) with (k + S i) by lia. auto.
  - rewrite E'. cbn. exists (v :: vs). split; [reflexivity|]. now constructor.
Qed.

Lemma acts_as_list_intro w r (R : attr -> read_result -> Prop) xs :
  seq_len w r = Ok (List.length xs) ->
  (forall i a, nth_error xs i = Some a -> exists v, getattr w r (str_nat i) = Ok v /\ R a v) ->
  acts_as_list w r R xs.
Proof.
  intros L G. split; [exact L|]. split; [|split].
  - intros i a Ha. unfold seq_getitem. rewrite L. cbn [rbind]. assert (i < List.length xs) by (apply nth_error_Some; congruence).
    destruct (Z.leb_spec (Z.of_nat (List.length xs)) (Z.of_nat i)); [lia|]. rewrite str_int_nat. auto.
  - intros z Hz. unfold seq_getitem. rewrite L. cbn [rbind]. destruct (Z.leb_spec (Z.of_nat (List.length xs)) z); [reflexivity|lia].
  - unfold seq_iter. rewrite L. cbn [rbind]. apply (rmapM_seq (fun i => getattr w r (str_nat i)) R xs 0). exact G.
Qed.

Lemma sequence_list w xs : wf_world w -> storable w xs -> xs <> [] ->
  exists r w', new_sequence w xs = Ok (r, w') /\ untouched w w' /\ wf_world w' /\ acts_as_list w' r reads_as xs.
Proof.
  intros Hw Hx Hne. destruct (new_sequence_constructed w xs Hw Hx) as (w' & E & C). exists (List.length (w_heap w)), w'.
  split; [exact E|]. pose proof C as (Ho & Hoth & Hw' & _). split.
  { intros y o Hy. rewrite Hoth; [exact Hy|]. intros ->. apply get_obj_lt in Hy. lia. }
  split; [exact Hw'|].
  apply acts_as_list_intro.
  - rewrite (constructed_len _ _ _ C). f_equal. now apply last_index_len.
  - intros i a Ha. rewrite (constructed_get _ _ _ _ _ C), dget_seq_items, Ha. exists (read_attr a). split; [reflexivity|apply read_attr_reads].
Qed.

Lemma sequence_clone w xs : wf_world w -> storable w xs -> xs <> [] ->
  (forall x, In (ARaw (PyMod x)) xs -> names_ok w x) ->
  exists r w' m w'', new_sequence w xs = Ok (r, w') /\ clone w' r = Ok (m, w'') /\ m <> r /\
    acts_as_list w'' m (fun a y => exists x, reads_as a x /\ same_read w' x w'' y) xs.
Proof.
  intros Hw Hx Hne Hsub. destruct (new_sequence_constructed w xs Hw Hx) as (w' & E & C). set (r := List.length (w_heap w)) in *.
  pose proof C as (Ho & Hoth & Hw' & Hext & _). fold r in Ho, Hoth.
  assert (Hsubs : forall n x, dget n (seq_items xs) = Some (ARaw (PyMod x)) -> In (ARaw (PyMod x)) xs).
  { intros n x Hd. unfold seq_items in Hd. rewrite dget_app in Hd. destruct (dget n (numbered 0 xs)) eqn:D.
    - injection Hd as ->. apply dget_In in D. apply (in_map snd) in D. change (map snd (numbered 0 xs)) with (values (numbered 0 xs)) in D.
      now rewrite values_numbered in D.
    - cbn in Hd. destruct (String.eqb n "_length"); discriminate. }
  assert (Hnames : names_ok w' r).
  { apply (constructed_names w Sequence_cls (seq_items xs) w' Hw C).
    - intros n Hn. unfold seq_items in Hn. rewrite keys_app in Hn. apply in_app_or in Hn as [Hn|[<-|[]]]; [|split; reflexivity].
      apply keys_numbered in Hn as (j & _ & ->). split; [|apply str_nat_prefix]. apply str_nat_char. cbn. intuition discriminate.
    - intros n x Hd. apply Hsub. eauto.
    - intros n x Hd. apply Hsubs in Hd. unfold storable in Hx. rewrite Forall_forall in Hx. destruct (Hx _ Hd) as [_ K]. now apply K. }
  assert (Hr : valid w' r) by (apply get_obj_lt in Ho; exact Ho).
  destruct (clone_faithful w' r Hw' Hr Hnames) as (m & w'' & Ec & F). destruct (fc_wf _ _ _ _ _ F Hw') as [Hw'' Hm].
  exists r, w', m, w''. split; [exact E|]. split; [exact Ec|]. split.
  { intros ->. assert (N : get_obj w' r = None). { apply (fc_new _ _ _ _ _ F). destruct (get_obj_ex _ _ Hm) as [q Hq]. eapply reaches_refl; eauto. } congruence. }
  pose proof (fun k => look_getattr w' r w'' m k Hw' Hw'' Hr Hm (fc_look _ _ _ _ _ F)) as G.
  apply acts_as_list_intro.
  - pose proof (constructed_len _ _ _ C) as L. unfold seq_len in L |- *. fold r in L. specialize (G "_length").
    destruct (getattr w' r "_length") as [x|]; [|discriminate L]. cbn [rbind] in L. destruct G as (y & -> & S). cbn [rbind].
    destruct S as [<-|(a & b & -> & -> & _)]; [|discriminate]. rewrite L. f_equal. now apply last_index_len.
  - intros i a Ha. specialize (G (str_nat i)). unfold r in G at 1. rewrite (constructed_get _ _ _ _ _ C), dget_seq_items, Ha in G.
    destruct G as (y & Ey & S). exists y. split; [exact Ey|]. exists (read_attr a). split; [apply read_attr_reads|exact S].
Qed.

(** ** Dict *)
Lemma new_dict_constructed w items : wf_world w -> NoDup (keys items) -> ~ In "_module__state" (keys items) -> storable w (values items) ->
  exists w', new_dict w items = Ok (List.length (w_heap w), w') /\ constructed w Dict_cls items w'.
Proof.
  intros Hw Hn Hr Hx. destruct (construct w Dict_cls items Hw Hn Hr Hx) as (w' & E & C). exists w'. split; [|exact C].
  unfold new_dict. cbn [new_module]. cbn [new_module snd] in E. now rewrite E.
Qed.

(** ** Sequence.__call__ *)
Section Call.
Context {V F S' : Type}.
Variables (callable takes_ctx : F -> bool) (run : F -> S' -> list V -> dict V -> S' * result (output V)).
Lemma call_loop_prev ctx fs : forall prev s args kwargs args' kwargs', prev <> None ->
  call_loop callable takes_ctx run ctx fs prev s args kwargs = call_loop callable takes_ctx run ctx fs prev s args' kwargs'.
Proof. destruct fs; intros [o|] s args kwargs args' kwargs' H; try reflexivity; congruence. Qed.
Lemma call_loop_some ctx fs o s args kwargs : fs <> [] ->
  call_loop callable takes_ctx run ctx fs (Some o) s args kwargs =
  call_loop callable takes_ctx run ctx fs None s (fst (spread o)) (snd (spread o)).
Proof.
  destruct fs as [|f fs]; [congruence|]. intros _. cbn [call_loop]. destruct (callable f); [|reflexivity]. cbn [negb].
  destruct (spread o) as [a k]. cbn [fst snd]. reflexivity.
Qed.
Lemma call_loop_app ctx fs gs : forall prev s args kwargs,
  call_loop callable takes_ctx run ctx (fs ++ gs) prev s args kwargs =
  match call_loop callable takes_ctx run ctx fs prev s args kwargs with
  | (s1, Ok None) => call_loop callable takes_ctx run ctx gs None s1 args kwargs
  | (s1, Ok (Some o)) => call_loop callable takes_ctx run ctx gs (Some o) s1 args kwargs
  | (s1, Err e) => (s1, Err e)
  end.
Proof.
  induction fs as [|f fs IH]; intros prev s args kwargs.
  - cbn. now destruct prev.
  - cbn [app call_loop]. destruct (callable f); cbn [negb]; [|reflexivity].
    destruct (match prev with None => (args, kwargs) | Some o => spread o end) as [a k].
    destruct (call_stage takes_ctx run ctx f s a k) as [s1 [o|e]]; [|reflexivity]. rewrite IH.
    rewrite (call_loop_prev ctx fs (Some o) s1 a k args kwargs) by discriminate.
    assert (K : forall r0, call_loop callable takes_ctx run ctx fs (Some o) s1 args kwargs = r0 -> snd r0 <> Ok None).
    { clear. revert o s1. induction fs as [|g fs IH]; intros o s1 r0 E; [cbn in E; subst; discriminate|]. cbn [call_loop] in E.
      destruct (callable g); cbn [negb] in E; [|subst; discriminate]. destruct (spread o) as [a1 k1].
      destruct (call_stage takes_ctx run ctx g s1 a1 k1) as [s2 [o2|e2]]; [|subst; discriminate].
      rewrite (call_loop_prev ctx fs (Some o2) s2 a1 k1 args kwargs) in E by discriminate. eapply IH; eauto. }
    destruct (call_loop callable takes_ctx run ctx fs (Some o) s1 args kwargs) as [s2 [[o2|]|e2]]; [|exfalso; apply (K _ eq_refl); reflexivity|reflexivity].
    apply call_loop_prev. discriminate.
Qed.
End Call.
