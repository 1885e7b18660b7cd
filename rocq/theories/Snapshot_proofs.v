(** Snapshot_proofs: what get_state and partition see while other threads write. *)
From Coq Require Import Lia Permutation.
From Verif Require Import PyBase PyBaseFacts ValuesM ValuesFacts FiltersM StateM ModuleM Spec_Module SnapshotM Spec_Snapshot Dfs_proofs Bisim_proofs.
From Verif Require Import Spec_State State_proofs Graph_facts Clone_proofs Revalue_proofs Write_proofs History_proofs Scan_proofs.
Local Open Scope string_scope.
Local Open Scope nat_scope.
Local Open Scope list_scope.

(** ** lists whose entries come from different moments *)
Definition mixed (P : nat -> Prop) (L : nat -> list (string * attr)) (xs : list (string * attr)) : Prop :=
  (forall n, map fst (L n) = map fst xs) /\ forall i p, nth_error xs i = Some p -> exists n, P n /\ nth_error (L n) i = Some p.
Section Mixed.
Variable P : nat -> Prop.
Lemma mixed_nil L : (forall n, L n = []) -> mixed P L [].
Proof. intros H. split; [intros n; now rewrite H|intros [|i] p; discriminate]. Qed.
Lemma mixed_cons L T k f m xs : P m -> (forall n, L n = (k, f n) :: T n) -> mixed P T xs -> mixed P L ((k, f m) :: xs).
Proof.
  intros Pm H [M1 M2]. split; [intros n; rewrite H; cbn; now rewrite M1|]. intros [|i] p; cbn.
  - intros [= <-]. exists m. now rewrite H.
  - intros Hi. destruct (M2 i p Hi) as (n & Pn & Hn). exists n. now rewrite H.
Qed.
Lemma mixed_app L A B xs ys : (forall n, L n = A n ++ B n) -> mixed P A xs -> mixed P B ys -> mixed P L (xs ++ ys).
Proof.
  intros H [A1 A2] [B1 B2].
  assert (LA : forall n, List.length (A n) = List.length xs) by (intros n; rewrite <- !(map_length fst); now rewrite A1).
  split; [intros n; rewrite H, !map_app; now rewrite A1, B1|]. intros i p Hi. destruct (Nat.ltb_spec i (List.length xs)) as [G|G].
  - rewrite nth_error_app1 in Hi by exact G. destruct (A2 i p Hi) as (n & Pn & Hn). exists n. split; [exact Pn|]. rewrite H, nth_error_app1 by (rewrite LA; exact G). exact Hn.
  - rewrite nth_error_app2 in Hi by exact G. destruct (B2 _ p Hi) as (n & Pn & Hn). exists n. split; [exact Pn|]. rewrite H, nth_error_app2 by (rewrite LA; exact G). now rewrite LA.
Qed.
Lemma mixed_inv L x xs : mixed P L (x :: xs) -> exists f T m, P m /\ (forall n, L n = (fst x, f n) :: T n) /\ x = (fst x, f m) /\ mixed P T xs.
Proof.
  intros [M1 M2]. exists (fun n => snd (hd x (L n))), (fun n => tl (L n)).
  assert (H : forall n, L n = (fst x, snd (hd x (L n))) :: tl (L n)).
  { intros n. specialize (M1 n). destruct (L n) as [|[k v] l]; [discriminate|]. cbn in *. now injection M1 as -> _. }
  destruct (M2 0 x eq_refl) as (m & Pm & Hm). exists m. split; [exact Pm|]. split; [exact H|]. split.
  - destruct (L m) as [|y l]; [discriminate|]. cbn in Hm. injection Hm as ->. cbn. now destruct x.
  - split.
    + intros n. specialize (M1 n). destruct (L n) as [|y l]; [discriminate|]. now injection M1.
    + intros i p Hi. destruct (M2 (S i) p Hi) as (n & Pn & Hn). exists n. split; [exact Pn|]. destruct (L n); [discriminate|exact Hn].
Qed.
Lemma mixed_ext L L' xs : (forall n, L n = L' n) -> mixed P L xs -> mixed P L' xs.
Proof. intros H [M1 M2]. split; [intros n; now rewrite <- H|]. intros i p Hi. destruct (M2 i p Hi) as (n & Pn & Hn). exists n. now rewrite <- H. Qed.
Lemma mixed_insert xs : forall L k f m, P m -> mixed P L xs -> mixed P (fun n => insert_by_key (k, f n) (L n)) (insert_by_key (k, f m) xs).
Proof.
  induction xs as [|x xs IH]; intros L k f m Pm M.
  - cbn. apply mixed_cons with (T := fun _ => []); [exact Pm| |now apply mixed_nil]. intros n. destruct M as [M _]. specialize (M n). now destruct (L n).
  - destruct (mixed_inv _ _ _ M) as (g & T & j & Pj & H & E & MT). cbn. destruct (String.leb k (fst x)) eqn:Lb.
    + apply mixed_cons with (T := L); [exact Pm| |exact M]. intros n. rewrite H. cbn. now rewrite Lb.
    + rewrite E. apply mixed_cons with (T := fun n => insert_by_key (k, f n) (T n)); [exact Pj| |now apply IH]. intros n. rewrite H. cbn. now rewrite Lb.
Qed.
Lemma mixed_sort xs : forall L, mixed P L xs -> mixed P (fun n => sort_by_key (L n)) (sort_by_key xs).
Proof.
  induction xs as [|x xs IH]; intros L M.
  - apply mixed_nil. intros n. destruct M as [M _]. specialize (M n). now destruct (L n).
  - destruct (mixed_inv _ _ _ M) as (g & T & j & Pj & H & E & MT). cbn [sort_by_key]. rewrite E.
    eapply mixed_ext; [|apply (mixed_insert _ (fun n => sort_by_key (T n)) (fst x) g j Pj (IH T MT))]. intros n. now rewrite H.
Qed.
Lemma mixed_update xs : forall L d D, mixed P L xs -> (forall n, keys (D n) = keys d) -> (forall p v, dget p d = Some v -> exists n, P n /\ dget p (D n) = Some v) ->
  (forall n, keys (dupdate (D n) (L n)) = keys (dupdate d xs)) /\ (forall p v, dget p (dupdate d xs) = Some v -> exists n, P n /\ dget p (dupdate (D n) (L n)) = Some v).
Proof.
  induction xs as [|x xs IH]; intros L d D M K G.
  - assert (H : forall n, L n = []) by (intros n; destruct M as [M _]; specialize (M n); now destruct (L n)).
    split; [intros n; rewrite H; apply K|]. intros p v Hp. destruct (G p v Hp) as (n & Pn & Hn). exists n. now rewrite H.
  - destruct (mixed_inv _ _ _ M) as (g & T & j & Pj & H & E & MT).
    destruct (IH T (dset (fst x) (g j) d) (fun n => dset (fst x) (g n) (D n)) MT) as [I1 I2].
    + intros n. rewrite !keys_dset. assert (Dm : dmem (fst x) (D n) = dmem (fst x) d); [|now rewrite Dm, K].
      apply Bool.eq_true_iff_eq. now rewrite !dmem_In, K.
    + intros p v. rewrite dget_dset. destruct (String.eqb_spec p (fst x)) as [->|N].
      * intros [= <-]. exists j. split; [exact Pj|]. rewrite dget_dset. now rewrite String.eqb_refl.
      * intros Hp. destruct (G p v Hp) as (n & Pn & Hn). exists n. split; [exact Pn|]. rewrite dget_dset. destruct (String.eqb_spec p (fst x)); [contradiction|exact Hn].
    + rewrite E. cbn [dupdate fold_left fst snd]. split; [intros n|intros p v Hp].
      * rewrite H. apply I1.
      * destruct (I2 p v Hp) as (n & Pn & Hn). exists n. split; [exact Pn|]. rewrite H. exact Hn.
Qed.
Lemma mixed_state L xs : mixed P L xs -> (forall n, keys (mk_state (L n)) = keys (mk_state xs)) /\
  (forall p v, dget p (mk_state xs) = Some v -> exists n, P n /\ dget p (mk_state (L n)) = Some v).
Proof.
  intros M. unfold mk_state, dict_of. apply (mixed_update (sort_by_key xs) (fun n => sort_by_key (L n)) [] (fun _ => [])); [now apply mixed_sort|auto|]. intros p v. discriminate.
Qed.
End Mixed.
Lemma mixed_mono (P Q : nat -> Prop) L xs : (forall n, P n -> Q n) -> mixed P L xs -> mixed Q L xs.
Proof. intros I [M1 M2]. split; [exact M1|]. intros i p H. destruct (M2 i p H) as (n & Pn & Hn). eauto. Qed.

(** ** skeletons *)
Lemma same_field_refl nt p : same_field nt p p.
Proof. split; auto. Qed.
Lemma same_field_sym nt p q : same_field nt p q -> same_field nt q p.
Proof. intros [H [K|[K1 K2]]]; split; auto. Qed.
Lemma same_field_trans nt p q u : same_field nt p q -> same_field nt q u -> same_field nt p u.
Proof. intros [H1 K1] [H2 K2]. split; [congruence|]. destruct K1 as [K1|[K1 K1']], K2 as [K2|[K2 K2']]; rewrite ?K1, <- ?K2; auto. Qed.
Lemma Forall2_refl' {A} (R : A -> A -> Prop) l : (forall x, R x x) -> Forall2 R l l.
Proof. intros H. induction l; auto. Qed.
Lemma Forall2_sym' {A} (R : A -> A -> Prop) l l' : (forall x y, R x y -> R y x) -> Forall2 R l l' -> Forall2 R l' l.
Proof. intros H F. induction F; auto. Qed.
Lemma Forall2_trans' {A} (R : A -> A -> Prop) l1 l2 l3 : (forall x y z, R x y -> R y z -> R x z) -> Forall2 R l1 l2 -> Forall2 R l2 l3 -> Forall2 R l1 l3.
Proof. intros H F. revert l3. induction F; intros l3 G; inversion G; subst; constructor; eauto. Qed.
Lemma same_object_refl nt o : same_object nt o o.
Proof. repeat split. apply Forall2_refl', same_field_refl. Qed.
Lemma skeleton_refl w : same_skeleton w w.
Proof. split; [reflexivity|]. apply Forall2_refl', same_object_refl. Qed.
Lemma skeleton_sym w w' : same_skeleton w w' -> same_skeleton w' w.
Proof.
  intros [N H]. split; [auto|]. rewrite <- N. apply (Forall2_sym' _ _ _) with (2 := H). intros x y (A & B & C & D). repeat split; auto.
  apply (Forall2_sym' _ _ _) with (2 := D). apply same_field_sym.
Qed.
Lemma skeleton_trans w1 w2 w3 : same_skeleton w1 w2 -> same_skeleton w2 w3 -> same_skeleton w1 w3.
Proof.
  intros [N H] [N' H']. split; [congruence|]. rewrite <- N in H'. apply (Forall2_trans' _ _ _ _) with (2 := H) (3 := H').
  intros x y z (A & B & C & D) (A' & B' & C' & D'). repeat split; try congruence. apply (Forall2_trans' _ _ _ _) with (2 := D) (3 := D'). apply same_field_trans.
Qed.
Lemma Forall2_nth {A} (R : A -> A -> Prop) l l' i x : Forall2 R l l' -> nth_error l i = Some x -> exists y, nth_error l' i = Some y /\ R x y.
Proof. intros F. revert i. induction F; intros [|i] H'; cbn in *; try discriminate; [injection H' as ->; eauto|eauto]. Qed.
Lemma skeleton_obj w w' r o : same_skeleton w w' -> get_obj w r = Some o -> exists o', get_obj w' r = Some o' /\ same_object (w_nodes w) o o'.
Proof. intros [_ H] G. eapply Forall2_nth; eauto. Qed.
Lemma same_insert nt x y l l' : same_field nt x y -> Forall2 (same_field nt) l l' -> Forall2 (same_field nt) (insert_by_key x l) (insert_by_key y l').
Proof.
  intros H F. induction F as [|a b l l' Hab F IH]; cbn; [auto|]. destruct H as [E V], Hab as [E' V']. rewrite <- E, <- E'.
  destruct (String.leb (fst x) (fst a)); constructor; try (split; auto; fail); auto. constructor; [split|]; auto.
Qed.
Lemma same_sort nt l l' : Forall2 (same_field nt) l l' -> Forall2 (same_field nt) (sort_by_key l) (sort_by_key l').
Proof. intros F. induction F; cbn; [auto|]. now apply same_insert. Qed.

(** ** one field *)
Lemma mod_or_not (a : attr) : {r | a = ARaw (PyMod r)} + {forall r, a <> ARaw (PyMod r)}.
Proof. destruct a as [p|]; [|right; discriminate]. destruct p; try (right; discriminate). left; eauto. Qed.
Lemma iter_fields_leaf rec nt name a t seen parts : (forall r, a <> ARaw (PyMod r)) ->
  iter_fields rec nt ((name, a) :: t) seen parts = (do (ys, seen2) <- iter_fields rec nt t seen parts;
    if is_node nt a then Ok ((join_path (parts ++ [name]), a) :: ys, seen2) else Ok (ys, seen2)).
Proof. intros H. destruct a as [p|]; [|reflexivity]. destruct p; try reflexivity. exfalso; eapply H; reflexivity. Qed.
Lemma iter_fields_during_leaf rec nt name a t s seen parts : (forall r, a <> ARaw (PyMod r)) ->
  iter_fields_during rec nt ((name, a) :: t) s seen parts = (do (ys, seen2, s2) <- iter_fields_during rec nt t s seen parts;
    if is_node nt a then Ok ((join_path (parts ++ [name]), a) :: ys, seen2, s2) else Ok (ys, seen2, s2)).
Proof. intros H. destruct a as [p|]; [|reflexivity]. destruct p; try reflexivity. exfalso; eapply H; reflexivity. Qed.
Lemma make_fields_leaf rec nt name a t mi : (forall r, a <> ARaw (PyMod r)) ->
  make_fields rec nt ((name, a) :: t) mi = (do (subs, st, mi2) <- make_fields rec nt t mi;
    if negb (is_node nt a) && negb (starts_with "_module__" name) then Ok (subs, (name, a) :: st, mi2) else Ok (subs, st, mi2)).
Proof. intros H. destruct a as [p|]; [|reflexivity]. destruct p; try reflexivity. exfalso; eapply H; reflexivity. Qed.
Lemma make_fields_during_leaf rec nt name a t s mi : (forall r, a <> ARaw (PyMod r)) ->
  make_fields_during rec nt ((name, a) :: t) s mi = (do (subs, st, mi2, s2) <- make_fields_during rec nt t s mi;
    if negb (is_node nt a) && negb (starts_with "_module__" name) then Ok (subs, (name, a) :: st, mi2, s2) else Ok (subs, st, mi2, s2)).
Proof. intros H. destruct a as [p|]; [|reflexivity]. destruct p; try reflexivity. exfalso; eapply H; reflexivity. Qed.

Lemma skipn_add {A} k : forall j (l : list A), skipn (k + j) l = skipn j (skipn k l).
Proof. induction k as [|k IH]; intros j l; [reflexivity|]. destruct l; cbn; [now rewrite skipn_nil|apply IH]. Qed.

(** ** time *)
Section Time.
Variable w0 : world.
Variable acts : list (list (world -> world)).
Notation at_time := (at_moment w0 acts).
Lemma at_start : at_time (mkRun w0 acts) 0.
Proof. split; reflexivity. Qed.
Lemma at_next s k : at_time s k -> exists k', k <= k' /\ at_time (others_act s) k'.
Proof.
  intros [H1 H2]. unfold others_act. destruct (ru_acts s) as [|now later] eqn:E; [exists k; split; [lia|]; split; [exact H1|now rewrite E]|].
  exists (k + List.length now). split; [lia|]. cbn in H2. unfold at_time, moment. cbn [ru_world ru_acts].
  set (A := List.concat acts) in *. rewrite H1. unfold moment. fold A. rewrite <- fold_left_app. split.
  - f_equal. rewrite <- (firstn_skipn k A) at 2. rewrite <- H2. destruct (Nat.leb_spec k (List.length A)) as [G|G].
    + rewrite firstn_app, firstn_length, Nat.min_l by lia. rewrite (firstn_all2 (firstn k A)) by (rewrite firstn_length; lia).
      replace (k + List.length now - k) with (List.length now) by lia. f_equal. rewrite firstn_app, Nat.sub_diag, firstn_all. cbn. now rewrite app_nil_r.
    + rewrite skipn_all2 in H2 by lia. apply app_eq_nil in H2 as [-> H2]. rewrite H2. cbn. rewrite !app_nil_r. rewrite Nat.add_0_r. rewrite (firstn_all2 (n := k) (firstn k A)); [reflexivity|]. rewrite firstn_length. lia.
  - rewrite skipn_add, <- H2. rewrite skipn_app, skipn_all, Nat.sub_diag. reflexivity.
Qed.
Hypothesis OV : only_values w0 acts.
Lemma moment_skeleton n : same_skeleton w0 (moment w0 acts n).
Proof.
  unfold moment. assert (G : forall l w, (forall a, In a l -> In a (List.concat acts)) -> same_skeleton w0 w -> same_skeleton w0 (fold_left (fun w act => act w) l w)).
  { induction l as [|a l IH]; intros w I H; cbn; [exact H|]. apply IH; [intros b Hb; apply I; now right|]. apply OV; [apply I; now left|exact H]. }
  apply G; [|apply skeleton_refl]. intros a Ha. rewrite <- (firstn_skipn n (List.concat acts)). apply in_or_app. now left.
Qed.
Lemma moments_skeleton n m : same_skeleton (moment w0 acts n) (moment w0 acts m).
Proof. eapply skeleton_trans; [apply skeleton_sym|]; apply moment_skeleton. Qed.
Lemma moment_nodes n : w_nodes (moment w0 acts n) = w_nodes w0.
Proof. symmetry. apply (moment_skeleton n). Qed.

Notation M := (moment w0 acts).
Definition torn (fuel : nat) : Prop := forall s lo k r seen parts xs0 seen0, lo <= k -> at_time s k -> iter_state_rec fuel w0 r seen parts = Ok (xs0, seen0) ->
  exists L xs s' k', (forall n, iter_state_rec fuel (M n) r seen parts = Ok (L n, seen0)) /\
    iter_state_during fuel s r seen parts = Ok (xs, seen0, s') /\ k <= k' /\ at_time s' k' /\ mixed (fun n => lo <= n <= k') L xs.
Lemma fields_torn fuel : torn fuel -> forall l0 l (ln : nat -> list (string * attr)) (k1 : nat), (forall n, Forall2 (same_field (w_nodes w0)) l0 (ln n)) -> ln k1 = l -> ln 0 = l0 ->
  forall s lo k seen parts xs0 seen0, lo <= k1 -> k1 <= k -> at_time s k ->
  iter_fields (iter_state_rec fuel w0) (w_nodes w0) l0 seen parts = Ok (xs0, seen0) ->
  exists L xs s' k', (forall n, iter_fields (iter_state_rec fuel (M n)) (w_nodes w0) (ln n) seen parts = Ok (L n, seen0)) /\
    iter_fields_during (iter_state_during fuel) (w_nodes w0) l s seen parts = Ok (xs, seen0, s') /\ k <= k' /\ at_time s' k' /\ mixed (fun n => lo <= n <= k') L xs.
Proof.
  intros T. induction l0 as [|[name a0] l0 IH]; intros l ln k1 F E1 E0 s lo k seen parts xs0 seen0 H1 H2 A R.
  - cbn in R. injection R as <- <-. assert (H : forall n, ln n = []) by (intros n; specialize (F n); now inversion F).
    rewrite H in E1. subst l. exists (fun _ => []), [], s, k. cbn. split; [intros n; now rewrite H|]. split; [reflexivity|]. split; [lia|]. split; [exact A|now apply mixed_nil].
  - set (vn := fun n => snd (hd ("", ARaw PyNone) (ln n))). set (tn := fun n => tl (ln n)).
    assert (H : forall n, ln n = (name, vn n) :: tn n /\ same_field (w_nodes w0) (name, a0) (name, vn n) /\ Forall2 (same_field (w_nodes w0)) l0 (tn n)).
    { intros n. specialize (F n). unfold vn, tn. destruct (ln n) as [|[nm v] t]; inversion F as [|? ? ? ? SF FF]; subst. cbn. destruct SF as [SE SV]. cbn in SE. subst nm. repeat split; auto. }
    rewrite (proj1 (H k1)) in E1. subst l. rewrite (proj1 (H 0)) in E0. injection E0 as _ T0.
    assert (Ta : forall n, Forall2 (same_field (w_nodes w0)) l0 (tn n)) by (intros n; apply H).
    clear F. destruct (mod_or_not a0) as [[q Ea]|Na].
    + subst a0. cbn [iter_fields] in R. assert (Vn : forall n, vn n = ARaw (PyMod q)).
      { intros n. destruct (H n) as (_ & [_ [K|[[_ K] _]]] & _); [exact (eq_sym K)|]. destruct (K q). reflexivity. }
      rewrite Vn. cbn [iter_fields_during]. unfold rbind in R at 1. destruct (iter_state_rec fuel w0 q seen (parts ++ [name])) as [[xa sa]|] eqn:Ra; [|discriminate].
      unfold rbind in R. destruct (iter_fields (iter_state_rec fuel w0) (w_nodes w0) l0 sa parts) as [[ya sb]|] eqn:Rb; [|discriminate]. injection R as <- <-.
      destruct (T s lo k q seen (parts ++ [name]) xa sa ltac:(lia) A Ra) as (L1 & x1 & s1 & k' & P1 & P2 & P3 & P4 & P5).
      destruct (IH (tn k1) tn k1 Ta eq_refl T0 s1 lo k' sa parts ya sb ltac:(lia) ltac:(lia) P4 Rb) as (L2 & x2 & s2 & k2 & Q1 & Q2 & Q3 & Q4 & Q5).
      exists (fun n => L1 n ++ L2 n), (x1 ++ x2), s2, k2. split.
      * intros n. rewrite (proj1 (H n)), Vn. cbn [iter_fields]. rewrite P1. cbn [rbind]. rewrite Q1. reflexivity.
      * split; [rewrite P2; cbn [rbind]; rewrite Q2; reflexivity|]. split; [lia|]. split; [exact Q4|]. apply mixed_app with (A := L1) (B := L2); [reflexivity| |exact Q5]. eapply mixed_mono; [|exact P5]. intros n; cbn; lia.
    + assert (Nn : forall n, (forall q, vn n <> ARaw (PyMod q)) /\ is_node (w_nodes w0) (vn n) = is_node (w_nodes w0) a0).
      { intros n. destruct (H n) as (_ & [_ [K|[[K1 K2] [K3 K4]]]] & _); cbn in *; [rewrite <- K; auto|]. split; [exact K4|congruence]. }
      rewrite iter_fields_leaf in R by exact Na. cbn [rbind] in R.
      destruct (iter_fields (iter_state_rec fuel w0) (w_nodes w0) l0 seen parts) as [[ya sb]|] eqn:Rb; [|discriminate].
      destruct (IH (tn k1) tn k1 Ta eq_refl T0 s lo k seen parts ya sb H1 H2 A Rb) as (L2 & x2 & s2 & k2 & Q1 & Q2 & Q3 & Q4 & Q5).
      rewrite iter_fields_during_leaf by apply Nn. cbn [rbind] in R. rewrite (proj2 (Nn k1)).
      destruct (is_node (w_nodes w0) a0) eqn:Nd; injection R as <- <-.
      * exists (fun n => (join_path (parts ++ [name]), vn n) :: L2 n), ((join_path (parts ++ [name]), vn k1) :: x2), s2, k2. split.
        -- intros n. rewrite (proj1 (H n)), iter_fields_leaf by apply Nn. rewrite Q1. cbn [rbind]. now rewrite (proj2 (Nn n)).
        -- split; [rewrite Q2; reflexivity|]. split; [lia|]. split; [exact Q4|]. apply mixed_cons with (T := L2); [cbn; lia|reflexivity|exact Q5].
      * exists L2, x2, s2, k2. split; [|split; [rewrite Q2; reflexivity|auto]].
        intros n. rewrite (proj1 (H n)), iter_fields_leaf by apply Nn. rewrite Q1. cbn [rbind]. now rewrite (proj2 (Nn n)).
Qed.
Lemma iter_torn fuel : torn fuel.
Proof.
  induction fuel as [|fuel IH]; intros s lo k r seen parts xs0 seen0 Hlo A R; [discriminate|]. cbn [iter_state_rec iter_state_during] in *.
  destruct (at_next s k A) as (k1 & Hk & A1). destruct (get_obj w0 r) as [o0|] eqn:G0; [|discriminate].
  assert (O : forall n, exists o, get_obj (M n) r = Some o /\ same_object (w_nodes w0) o0 o) by (intros n; apply (skeleton_obj w0); [apply moment_skeleton|exact G0]).
  destruct (O k1) as (o1 & G1 & S1). rewrite (proj1 A1), G1. destruct S1 as (Sc & Si & Sn & Sf). rewrite <- Si.
  destruct (nmem (m_id o0) seen) eqn:Nm.
  - injection R as <- <-. exists (fun _ => []), [], (others_act s), k1. split.
    + intros n. destruct (O n) as (o & G & (_ & I & _)). now rewrite G, <- I, Nm.
    + split; [reflexivity|]. split; [exact Hk|]. split; [exact A1|now apply mixed_nil].
  - set (ln := fun n => match get_obj (M n) r with Some o => sort_by_key (m_vars o) | None => [] end).
    rewrite moment_nodes.
    destruct (fields_torn fuel IH (sort_by_key (m_vars o0)) (sort_by_key (m_vars o1)) ln k1) with (s := others_act s) (lo := lo) (k := k1) (seen := seen ++ [m_id o0]) (parts := parts) (xs0 := xs0) (seen0 := seen0)
      as (L & xs & s' & k' & P1 & P2 & P3 & P4 & P5); auto; [| | |lia|].
    + intros n. unfold ln. destruct (O n) as (o & G & (_ & _ & _ & F)). rewrite G. now apply same_sort.
    + unfold ln. now rewrite G1.
    + unfold ln. change (M 0) with w0. now rewrite G0.
    + exists L, xs, s', k'. split; [|split; [exact P2|split; [lia|auto]]].
      intros n. specialize (P1 n). unfold ln in P1. destruct (O n) as (o & G & (_ & I & _)). rewrite G in *. rewrite <- I, Nm, moment_nodes. exact P1.
Qed.

(** ** the definition *)
Definition steady (fuel : nat) : Prop := forall s k r mi d mi0, at_time s k -> make_def fuel w0 r mi = Ok (d, mi0) ->
  exists s' k', make_def_during fuel s r mi = Ok (d, mi0, s') /\ k <= k' /\ at_time s' k'.
Lemma fields_steady fuel : steady fuel -> forall l0 l, Forall2 (same_field (w_nodes w0)) l0 l ->
  forall s k mi subs st mi0, at_time s k ->
  make_fields (make_def fuel w0) (w_nodes w0) l0 mi = Ok (subs, st, mi0) ->
  exists s' k', make_fields_during (make_def_during fuel) (w_nodes w0) l s mi = Ok (subs, st, mi0, s') /\ k <= k' /\ at_time s' k'.
Proof.
  intros T l0 l F. induction F as [|[name a0] [name' a] l0 l [E V] F IH]; intros s k mi subs st mi0 A R.
  - cbn in *. injection R as <- <- <-. exists s, k. auto.
  - cbn in E, V. subst name'. destruct (mod_or_not a0) as [[q Ea]|Na].
    + subst a0. cbn [make_fields] in R. destruct V as [<-|[[_ K] _]]; [|now destruct (K q)]. unfold rbind in R at 1.
      destruct (make_def fuel w0 q mi) as [[d m1]|] eqn:Ra; [|discriminate]. unfold rbind in R.
      destruct (make_fields (make_def fuel w0) (w_nodes w0) l0 m1) as [[[su sv] m2]|] eqn:Rb; [|discriminate]. injection R as <- <- <-.
      destruct (T s k q mi d m1 A Ra) as (s1 & k1 & P1 & P2 & P3). destruct (IH s1 k1 m1 su sv m2 P3 Rb) as (s2 & k2 & Q1 & Q2 & Q3).
      exists s2, k2. cbn [make_fields_during]. rewrite P1. cbn [rbind]. rewrite Q1. split; [reflexivity|]. split; [lia|exact Q3].
    + rewrite make_fields_leaf in R by exact Na.
      destruct (make_fields (make_def fuel w0) (w_nodes w0) l0 mi) as [[[su sv] m2]|] eqn:Rb; [|discriminate]. cbn [rbind] in R.
      destruct (IH s k mi su sv m2 A Rb) as (s2 & k2 & Q1 & Q2 & Q3). exists s2, k2. split; [|auto].
      assert (Nq : forall q, a <> ARaw (PyMod q)) by (destruct V as [<-|[_ [_ K]]]; auto).
      rewrite make_fields_during_leaf by exact Nq. rewrite Q1. cbn [rbind].
      destruct V as [<-|[[K1 _] [K2 _]]]; [|rewrite K1 in R; rewrite K2; cbn [negb andb] in *; now injection R as <- <- <-].
      destruct (negb (is_node (w_nodes w0) a0) && negb (starts_with "_module__" name)); now injection R as <- <- <-.
Qed.
Lemma def_steady fuel : steady fuel.
Proof.
  induction fuel as [|fuel IH]; intros s k r mi d mi0 A R; [discriminate|]. cbn [make_def make_def_during] in *.
  destruct (at_next s k A) as (k1 & Hk & A1). destruct (get_obj w0 r) as [o0|] eqn:G0; [|discriminate].
  assert (O : forall n, exists o, get_obj (M n) r = Some o /\ same_object (w_nodes w0) o0 o) by (intros n; apply (skeleton_obj w0); [apply moment_skeleton|exact G0]).
  destruct (O k1) as (o1 & G1 & S1). rewrite (proj1 A1), G1. destruct S1 as (Sc & Si & Sn & Sf). rewrite <- Si.
  destruct (index_of (m_id o0) mi) as [i|]; [injection R as <- <-; exists (others_act s), k1; auto|].
  rewrite moment_nodes. unfold rbind in R. destruct (make_fields (make_def fuel w0) (w_nodes w0) (sort_by_key (m_vars o0)) (mi ++ [m_id o0])) as [[[su sv] m2]|] eqn:Rb; [|discriminate].
  injection R as <- <-. destruct (fields_steady fuel IH _ _ (same_sort _ _ _ Sf) _ _ _ _ _ _ A1 Rb) as (s2 & k2 & Q1 & Q2 & Q3).
  rewrite Q1. cbn [rbind]. destruct (at_next s2 k2 Q3) as (k3 & Hk3 & A3). destruct (O k3) as (o3 & G3 & (_ & _ & S3 & _)).
  rewrite (proj1 A3), G3. exists (others_act s2), k3. rewrite <- S3, <- Sc. split; [reflexivity|]. split; [lia|exact A3].
Qed.
End Time.

(** ** more fuel *)
Lemma iter_mono w fuel : forall r seen parts x, iter_state_rec fuel w r seen parts = Ok x -> forall fuel', fuel <= fuel' -> iter_state_rec fuel' w r seen parts = Ok x.
Proof.
  induction fuel as [|fuel IH]; intros r seen parts x R fuel' Hf; [discriminate|]. destruct fuel' as [|fuel']; [lia|]. cbn [iter_state_rec] in *.
  destruct (get_obj w r) as [o|]; [|discriminate]. destruct (nmem (m_id o) seen); [exact R|]. revert R. generalize (seen ++ [m_id o]). clear seen. revert x.
  induction (sort_by_key (m_vars o)) as [|[name a] l IHl]; intros x seen R; [exact R|]. destruct (mod_or_not a) as [[q ->]|Na].
  - cbn [iter_fields] in *. unfold rbind in R at 1. destruct (iter_state_rec fuel w q seen (parts ++ [name])) as [[xa sa]|] eqn:Ra; [|discriminate].
    rewrite (IH _ _ _ _ Ra) by lia. cbn [rbind]. unfold rbind in R. destruct (iter_fields (iter_state_rec fuel w) (w_nodes w) l sa parts) as [[ya sb]|] eqn:Rb; [|discriminate].
    rewrite (IHl _ _ Rb). exact R.
  - rewrite iter_fields_leaf in * by exact Na. destruct (iter_fields (iter_state_rec fuel w) (w_nodes w) l seen parts) as [[ya sb]|] eqn:Rb; [|discriminate].
    rewrite (IHl _ _ Rb). exact R.
Qed.
Lemma iter_runs w r fuel : wf_world w -> r < List.length (w_heap w) -> dfs_fuel w <= fuel ->
  exists xs seen, iter_state_rec fuel w r [] [] = Ok (xs, seen) /\ get_state w r = Ok (mk_state xs).
Proof.
  intros W V Hf. pose proof (iter_state_any_fuel w r W V fuel Hf) as E. unfold get_state. rewrite E. destruct (graph_exists w r W V) as (d & L & G).
  destruct (proj1 (iter_state_dspec w W) _ _ _ _ G) as (new & E' & Eq & H1 & H2 & H3); auto; [constructor|]. specialize (H3 fuel). change (ids w []) with (@nil nat) in H3.
  unfold dfs_fuel in Hf. rewrite H3 by (cbn; lia). cbn [rbind]. eauto.
Qed.
Lemma def_any_fuel w r fuel : wf_world w -> r < List.length (w_heap w) -> dfs_fuel w <= fuel ->
  exists d mi, make_def fuel w r [] = Ok (d, mi) /\ get_module_def w r = match d with MDef _ _ _ _ _ => Ok d | MRef _ => Err AssertionError end.
Proof.
  intros W V Hf. destruct (graph_exists w r W V) as (d & L & G). pose proof (proj1 (make_def_dspec w W) _ _ _ _ G V) as H.
  assert (H' : forall fuel, dfs_fuel w <= fuel -> make_def fuel w r [] = Ok (d, ids w L)).
  { intros f Hff. change (@nil nat) with (ids w []). apply H; [constructor|constructor|unfold dfs_fuel in Hff; cbn; lia]. }
  exists d, (ids w L). split; [now apply H'|]. unfold get_module_def. rewrite H' by lia. reflexivity.
Qed.
Lemma skeleton_length w w' : same_skeleton w w' -> List.length (w_heap w) = List.length (w_heap w').
Proof. intros [_ F]. now apply Forall2_length in F. Qed.

(** ** only values change *)
Theorem torn_state w acts r fuel s k : wf_world w -> r < List.length (w_heap w) -> only_values w acts -> dfs_fuel w <= fuel -> at_moment w acts s k ->
  exists st s' k', get_state_during fuel s r = Ok (st, s') /\ k <= k' /\ at_moment w acts s' k' /\
    (forall n, exists sn, get_state (moment w acts n) r = Ok sn /\ keys sn = keys st) /\
    (forall p a, dget p st = Some a -> exists n sn, k <= n <= k' /\ get_state (moment w acts n) r = Ok sn /\ dget p sn = Some a).
Proof.
  intros W V O Hf A. destruct (iter_runs w r (dfs_fuel w) W V (le_n _)) as (x0 & seen0 & R0 & _).
  pose proof (iter_mono _ _ _ _ _ _ R0 fuel Hf) as R1.
  destruct (iter_torn w acts O fuel s k k r [] [] x0 seen0 (le_n _) A R1) as (L & xs & s' & k' & P1 & P2 & P3 & P4 & P5).
  destruct (iter_torn w acts O (dfs_fuel w) s k k r [] [] x0 seen0 (le_n _) A R0) as (L' & xs' & s2 & k2 & Q1 & _).
  assert (G : forall n, get_state (moment w acts n) r = Ok (mk_state (L n))).
  { intros n. unfold get_state, iter_state. pose proof (skeleton_length _ _ (moment_skeleton w acts O n)) as Ln. unfold dfs_fuel in *. rewrite <- Ln, Q1. cbn [rbind].
    pose proof (iter_mono _ _ _ _ _ _ (Q1 n) fuel Hf) as E. rewrite P1 in E. now injection E as ->. }
  destruct (mixed_state _ _ _ P5) as [K1 K2]. exists (mk_state xs), s', k'. split; [unfold get_state_during; now rewrite P2|]. split; [exact P3|]. split; [exact P4|]. split.
  - intros n. exists (mk_state (L n)). auto.
  - intros p a H. destruct (K2 p a H) as (n & Hn & E). exists n, (mk_state (L n)). auto.
Qed.
Theorem steady_def w acts r fuel s k : wf_world w -> r < List.length (w_heap w) -> only_values w acts -> dfs_fuel w <= fuel -> at_moment w acts s k ->
  exists d s' k', get_module_def_during fuel s r = Ok (d, s') /\ get_module_def w r = Ok d /\ k <= k' /\ at_moment w acts s' k'.
Proof.
  intros W V O Hf A. destruct (def_any_fuel w r fuel W V Hf) as (d & mi & R & E). destruct (def_steady w acts O fuel s k r [] d mi A R) as (s' & k' & P1 & P2 & P3).
  exists d, s', k'. unfold get_module_def_during. rewrite P1. cbn [rbind].
  assert (exists c i su sv b, d = MDef c i su sv b) as (c & i & su & sv & b & ->); [|split; [reflexivity|]; split; [exact E|auto]].
  clear - R. destruct fuel as [|fuel]; [discriminate|]. cbn [make_def] in R. destruct (get_obj w r) as [o|]; [|discriminate]. cbn [index_of] in R.
  destruct (make_fields _ _ _ _) as [[[su sv] m2]|]; [|discriminate]. cbn [rbind] in R. injection R as <- _. eauto 10.
Qed.

(** ** a single write *)
Lemma nmem_In x l : nmem x l = true <-> In x l.
Proof. unfold nmem. rewrite existsb_exists. split; [intros (y & Hy & E); apply Nat.eqb_eq in E; now subst|intros H; exists x; split; [exact H|apply Nat.eqb_refl]]. Qed.

Section Single.
Variables (w0 w1 : world) (q : nat) (act : world -> world).
Hypothesis ACT : act w0 = w1.
Hypothesis NODES : w_nodes w1 = w_nodes w0.
Hypothesis OTHERS : forall r, r <> q -> get_obj w1 r = get_obj w0 r.
Variable i0 : nat.
Hypothesis HERE : forall o, get_obj w0 q = Some o -> m_id o = i0.
Hypothesis THERE : forall o, get_obj w1 q = Some o -> m_id o = i0.
Hypothesis BOTH : get_obj w1 q = None <-> get_obj w0 q = None.
Definition before (s : running) : Prop := ru_world s = w0 /\ List.concat (ru_acts s) = [act].
Definition after (s : running) : Prop := ru_world s = w1 /\ List.concat (ru_acts s) = [].
Lemma after_next s : after s -> after (others_act s).
Proof.
  intros [H1 H2]. unfold others_act. destruct (ru_acts s) as [|a l] eqn:E; [split; [exact H1|now rewrite E]|]. cbn in H2. apply app_eq_nil in H2 as [-> H2].
  split; [exact H1|exact H2].
Qed.
Lemma before_next s : before s -> before (others_act s) \/ after (others_act s).
Proof.
  intros [H1 H2]. unfold others_act. destruct (ru_acts s) as [|a l] eqn:E; [discriminate|]. cbn in H2. destruct a as [|b a].
  - left. split; [exact H1|exact H2].
  - right. cbn in H2. injection H2 as -> H2. apply app_eq_nil in H2 as [-> H2]. split; [cbn; now rewrite H1|exact H2].
Qed.
(** the state *)
Definition drop {A B} (x : result (A * B * running)) : result (A * B) := match x with Ok (a, b, _) => Ok (a, b) | Err e => Err e end.
Lemma iter_after_read fuel : forall s r seen parts, after (others_act s) ->
  drop (iter_state_during fuel s r seen parts) = iter_state_rec fuel w1 r seen parts /\ (forall xs t s', iter_state_during fuel s r seen parts = Ok (xs, t, s') -> after s').
Proof.
  induction fuel as [|fuel IH]; intros s r seen parts A; [split; [reflexivity|discriminate]|]. cbn [iter_state_during iter_state_rec]. destruct A as [A1 A2].
  rewrite A1. destruct (get_obj w1 r) as [o|]; [|split; [reflexivity|discriminate]]. destruct (nmem (m_id o) seen); [split; [reflexivity|intros ? ? ? [= <- <- <-]; split; auto]|].
  assert (A : after (others_act s)) by (split; auto). clear A1 A2. revert A. generalize (others_act s) (seen ++ [m_id o]). clear s seen.
  induction (sort_by_key (m_vars o)) as [|[name a] l IHl]; intros s seen A; [split; [reflexivity|intros ? ? ? [= <- <- <-]; exact A]|].
  destruct (mod_or_not a) as [[x ->]|Na].
  - cbn [iter_fields iter_fields_during]. destruct (IH s x seen (parts ++ [name]) (after_next _ A)) as [E1 E2].
    destruct (iter_state_during fuel s x seen (parts ++ [name])) as [[[xa sa] s1]|e]; cbn [drop] in E1; rewrite <- E1; cbn [rbind]; [|split; [reflexivity|discriminate]].
    destruct (IHl s1 sa (E2 _ _ _ eq_refl)) as [F1 F2]. destruct (iter_fields_during _ _ l s1 sa parts) as [[[ya sb] s2]|e]; cbn [drop] in F1; rewrite <- F1; cbn [rbind]; [|split; [reflexivity|discriminate]].
    split; [reflexivity|]. intros ? ? ? [= <- <- <-]. eapply F2. reflexivity.
  - rewrite iter_fields_leaf, iter_fields_during_leaf by exact Na. destruct (IHl s seen A) as [F1 F2].
    destruct (iter_fields_during _ _ l s seen parts) as [[[ya sb] s2]|e]; cbn [drop] in F1; rewrite <- F1; cbn [rbind]; [|split; [reflexivity|discriminate]].
    destruct (is_node (w_nodes w1) a); (split; [reflexivity|]; intros ? ? ? [= <- <- <-]; eapply F2; reflexivity).
Qed.
Lemma iter_after fuel s r seen parts : after s ->
  drop (iter_state_during fuel s r seen parts) = iter_state_rec fuel w1 r seen parts /\ (forall xs t s', iter_state_during fuel s r seen parts = Ok (xs, t, s') -> after s').
Proof. intros A. now apply iter_after_read, after_next. Qed.
Lemma fields_grow w fuel : (forall r seen parts xs t, iter_state_rec fuel w r seen parts = Ok (xs, t) -> incl seen t) ->
  forall nt l seen parts xs t, iter_fields (iter_state_rec fuel w) nt l seen parts = Ok (xs, t) -> incl seen t.
Proof.
  intros IH nt. induction l as [|[name a] l IHl]; intros seen parts xs t R; [injection R as <- <-; apply incl_refl|]. destruct (mod_or_not a) as [[x ->]|Na].
  - cbn [iter_fields] in R. unfold rbind in R at 1. destruct (iter_state_rec fuel w x seen (parts ++ [name])) as [[xa sa]|] eqn:Ra; [|discriminate].
    unfold rbind in R. destruct (iter_fields (iter_state_rec fuel w) nt l sa parts) as [[ya sb]|] eqn:Rb; [|discriminate]. injection R as <- <-.
    eapply incl_tran; eauto.
  - rewrite iter_fields_leaf in R by exact Na. destruct (iter_fields (iter_state_rec fuel w) nt l seen parts) as [[ya sb]|] eqn:Rb; [|discriminate]. cbn [rbind] in R.
    destruct (is_node nt a); injection R as <- <-; eauto.
Qed.
Lemma seen_grow w fuel : forall r seen parts xs t, iter_state_rec fuel w r seen parts = Ok (xs, t) -> incl seen t.
Proof.
  induction fuel as [|fuel IH]; intros r seen parts xs t R; [discriminate|]. cbn [iter_state_rec] in R. destruct (get_obj w r) as [o|]; [|discriminate].
  destruct (nmem (m_id o) seen); [injection R as <- <-; apply incl_refl|]. apply fields_grow in R; [|exact IH]. intros x Hx. apply R, in_or_app. now left.
Qed.
Lemma fields_ext w w' fuel nt : (forall r seen parts, In i0 seen -> iter_state_rec fuel w r seen parts = iter_state_rec fuel w' r seen parts) ->
  forall l seen parts, In i0 seen -> iter_fields (iter_state_rec fuel w) nt l seen parts = iter_fields (iter_state_rec fuel w') nt l seen parts.
Proof.
  intros IH. induction l as [|[name a] l IHl]; intros seen parts I; [reflexivity|]. destruct (mod_or_not a) as [[x ->]|Na].
  - cbn [iter_fields]. rewrite (IH x seen _ I). destruct (iter_state_rec fuel w' x seen (parts ++ [name])) as [[xa sa]|] eqn:Ra; [|reflexivity]. cbn [rbind].
    rewrite IHl; [reflexivity|]. apply (seen_grow _ _ _ _ _ _ _ Ra), I.
  - rewrite !iter_fields_leaf by exact Na. now rewrite IHl.
Qed.
Lemma passed fuel : forall r seen parts, In i0 seen -> iter_state_rec fuel w0 r seen parts = iter_state_rec fuel w1 r seen parts.
Proof.
  induction fuel as [|fuel IH]; intros r seen parts I; [reflexivity|]. cbn [iter_state_rec]. destruct (Nat.eq_dec r q) as [->|N].
  - destruct (get_obj w0 q) as [o|] eqn:E0, (get_obj w1 q) as [o1|] eqn:E1; [|discriminate (proj1 BOTH eq_refl)|discriminate (proj2 BOTH eq_refl)|reflexivity].
    rewrite (HERE o eq_refl), (THERE o1 eq_refl). now rewrite (proj2 (nmem_In i0 seen) I).
  - rewrite (OTHERS r N). destruct (get_obj w0 r) as [o|]; [|reflexivity]. destruct (nmem (m_id o) seen); [reflexivity|]. rewrite NODES.
    apply fields_ext; [exact IH|apply in_or_app; now left].
Qed.
Lemma fields_ahead fuel nt : (forall r seen parts xs t, iter_state_rec fuel w0 r seen parts = Ok (xs, t) -> ~ In i0 t -> iter_state_rec fuel w1 r seen parts = Ok (xs, t)) ->
  forall l seen parts xs t, iter_fields (iter_state_rec fuel w0) nt l seen parts = Ok (xs, t) -> ~ In i0 t -> iter_fields (iter_state_rec fuel w1) nt l seen parts = Ok (xs, t).
Proof.
  intros IH. induction l as [|[name a] l IHl]; intros seen parts xs t R N; [exact R|]. destruct (mod_or_not a) as [[x ->]|Na].
  - cbn [iter_fields] in *. unfold rbind in R at 1. destruct (iter_state_rec fuel w0 x seen (parts ++ [name])) as [[xa sa]|] eqn:Ra; [|discriminate].
    unfold rbind in R. destruct (iter_fields (iter_state_rec fuel w0) nt l sa parts) as [[ya sb]|] eqn:Rb; [|discriminate]. injection R as <- <-.
    rewrite (IH _ _ _ _ _ Ra). 2: { intros I. apply N. apply (fields_grow w0 fuel (seen_grow w0 fuel) _ _ _ _ _ _ Rb), I. }
    cbn [rbind]. now rewrite (IHl _ _ _ _ Rb N).
  - rewrite iter_fields_leaf in * by exact Na. destruct (iter_fields (iter_state_rec fuel w0) nt l seen parts) as [[ya sb]|] eqn:Rb; [|discriminate]. cbn [rbind] in R.
    assert (E : t = sb) by (destruct (is_node nt a); injection R as _ <-; reflexivity). subst t. rewrite (IHl _ _ _ _ Rb N). exact R.
Qed.
Lemma ahead fuel : forall r seen parts xs t, iter_state_rec fuel w0 r seen parts = Ok (xs, t) -> ~ In i0 t -> iter_state_rec fuel w1 r seen parts = Ok (xs, t).
Proof.
  induction fuel as [|fuel IH]; intros r seen parts xs t R N; [discriminate|]. cbn [iter_state_rec] in *. destruct (Nat.eq_dec r q) as [->|Nq].
  - destruct (get_obj w0 q) as [o|] eqn:E0; [|discriminate]. exfalso. apply N. destruct (nmem (m_id o) seen) eqn:Nm.
    + injection R as <- <-. apply nmem_In in Nm. now rewrite (HERE o eq_refl) in Nm.
    + apply (fields_grow w0 fuel (seen_grow w0 fuel)) in R. apply R, in_or_app. right. left. now apply HERE.
  - rewrite (OTHERS r Nq). destruct (get_obj w0 r) as [o|]; [|discriminate]. destruct (nmem (m_id o) seen); [exact R|]. rewrite NODES. eapply fields_ahead; eauto.
Qed.

Definition old_or_new (x : result (list (string * attr) * list nat * running)) (y0 y1 : result (list (string * attr) * list nat)) : Prop :=
  match x with
  | Ok (xs, t, s') => (before s' /\ y0 = Ok (xs, t)) \/ (after s' /\ (y0 = Ok (xs, t) \/ y1 = Ok (xs, t)))
  | Err e => y0 = Err e \/ y1 = Err e
  end.
Lemma iter_single fuel : forall s r seen parts, before s ->
  old_or_new (iter_state_during fuel s r seen parts) (iter_state_rec fuel w0 r seen parts) (iter_state_rec fuel w1 r seen parts).
Proof.
  induction fuel as [|fuel IH]; intros s r seen parts B; [left; reflexivity|].
  destruct (before_next s B) as [B1|A1].
  2: { (* the write comes before this read *)
    destruct (iter_after_read (S fuel) s r seen parts A1) as [D1 D2].
    destruct (iter_state_during (S fuel) s r seen parts) as [[[xs t] s']|e]; cbn [drop] in D1; rewrite <- D1; cbn [old_or_new]; [|now right].
    right. split; [eapply D2; reflexivity|now right]. }
  cbn [iter_state_during iter_state_rec]. pose proof (proj1 B1) as E. rewrite E. destruct (get_obj w0 r) as [o|] eqn:Go; [|left; reflexivity].
  destruct (nmem (m_id o) seen) eqn:Nm; [left; split; [exact B1|reflexivity]|].
  assert (F : forall l s seen, before s -> old_or_new (iter_fields_during (iter_state_during fuel) (w_nodes w0) l s seen parts)
     (iter_fields (iter_state_rec fuel w0) (w_nodes w0) l seen parts) (iter_fields (iter_state_rec fuel w1) (w_nodes w0) l seen parts)).
  { clear s seen B B1 E Nm. induction l as [|[name a] l IHl]; intros s seen B; [left; split; [exact B|reflexivity]|]. destruct (mod_or_not a) as [[x ->]|Na].
    - cbn [iter_fields iter_fields_during]. specialize (IH s x seen (parts ++ [name]) B).
      destruct (iter_state_during fuel s x seen (parts ++ [name])) as [[[xa sa] s1]|e]; cbn [old_or_new rbind] in *.
      2: { destruct IH as [H|H]; rewrite H; cbn [rbind]; auto. }
      destruct IH as [[B1 H]|[A1 H]].
      + rewrite H. cbn [rbind]. specialize (IHl s1 sa B1).
        destruct (iter_fields_during _ _ l s1 sa parts) as [[[ya sb] s2]|e]; cbn [old_or_new rbind] in *.
        * destruct IHl as [[B2 H2]|[A2 [H2|H2]]]; rewrite ?H2; cbn [rbind]; [left; auto|right; auto|]. right. split; [exact A2|].
          destruct (in_dec Nat.eq_dec i0 sa) as [I|N]; [left|right].
          -- rewrite (fields_ext w0 w1 fuel _ (passed fuel) l sa parts I), H2. reflexivity.
          -- rewrite (ahead fuel _ _ _ _ _ H N). cbn [rbind]. now rewrite H2.
        * destruct IHl as [H2|H2]; rewrite ?H2; cbn [rbind]; [now left|]. destruct (in_dec Nat.eq_dec i0 sa) as [I|N]; [left|right].
          -- rewrite (fields_ext w0 w1 fuel _ (passed fuel) l sa parts I), H2. reflexivity.
          -- rewrite (ahead fuel _ _ _ _ _ H N). cbn [rbind]. now rewrite H2.
      + assert (FA : forall l s seen, after s -> drop (iter_fields_during (iter_state_during fuel) (w_nodes w0) l s seen parts) = iter_fields (iter_state_rec fuel w1) (w_nodes w0) l seen parts /\
           forall xs t s', iter_fields_during (iter_state_during fuel) (w_nodes w0) l s seen parts = Ok (xs, t, s') -> after s').
        { clear. intros l. induction l as [|[name a] l IHl]; intros s seen A; [split; [reflexivity|intros ? ? ? [= <- <- <-]; exact A]|]. destruct (mod_or_not a) as [[x ->]|Na].
          - cbn [iter_fields iter_fields_during]. destruct (iter_after fuel s x seen (parts ++ [name]) A) as [E1 E2].
            destruct (iter_state_during fuel s x seen (parts ++ [name])) as [[[xa sa] s1]|e]; cbn [drop] in E1; rewrite <- E1; cbn [rbind]; [|split; [reflexivity|discriminate]].
            destruct (IHl s1 sa (E2 _ _ _ eq_refl)) as [F1 F2]. destruct (iter_fields_during _ _ l s1 sa parts) as [[[ya sb] s2]|e]; cbn [drop] in F1; rewrite <- F1; cbn [rbind]; [|split; [reflexivity|discriminate]].
            split; [reflexivity|]. intros ? ? ? [= <- <- <-]. eapply F2. reflexivity.
          - rewrite iter_fields_leaf, iter_fields_during_leaf by exact Na. destruct (IHl s seen A) as [F1 F2].
            destruct (iter_fields_during _ _ l s seen parts) as [[[ya sb] s2]|e]; cbn [drop] in F1; rewrite <- F1; cbn [rbind]; [|split; [reflexivity|discriminate]].
            destruct (is_node (w_nodes w0) a); (split; [reflexivity|]; intros ? ? ? [= <- <- <-]; eapply F2; reflexivity). }
        destruct (FA l s1 sa A1) as [F1 F2]. clear FA IHl.
        assert (Old : forall y, iter_state_rec fuel w0 x seen (parts ++ [name]) = Ok (xa, sa) -> iter_fields (iter_state_rec fuel w1) (w_nodes w0) l sa parts = y ->
            (iter_fields (iter_state_rec fuel w0) (w_nodes w0) l sa parts = y) \/ iter_state_rec fuel w1 x seen (parts ++ [name]) = Ok (xa, sa)).
        { intros y H0 Hy. destruct (in_dec Nat.eq_dec i0 sa) as [I|N]; [left; now rewrite (fields_ext w0 w1 fuel _ (passed fuel) l sa parts I)|right; now apply ahead]. }
        destruct (iter_fields_during _ _ l s1 sa parts) as [[[ya sb] s2]|e]; cbn [drop] in F1; cbn [rbind old_or_new].
        * right. split; [eapply F2; reflexivity|]. destruct H as [H|H]; [|right; rewrite H; cbn [rbind]; now rewrite <- F1].
          destruct (Old _ H (eq_sym F1)) as [O|O]; [left; rewrite H; cbn [rbind]; now rewrite O|right; rewrite O; cbn [rbind]; now rewrite <- F1].
        * destruct H as [H|H]; [|right; rewrite H; cbn [rbind]; now rewrite <- F1].
          destruct (Old _ H (eq_sym F1)) as [O|O]; [left; rewrite H; cbn [rbind]; now rewrite O|right; rewrite O; cbn [rbind]; now rewrite <- F1].
    - rewrite !iter_fields_leaf, iter_fields_during_leaf by exact Na. specialize (IHl s seen B).
      destruct (iter_fields_during _ _ l s seen parts) as [[[ya sb] s2]|e]; cbn [old_or_new rbind] in *.
      + destruct (is_node (w_nodes w0) a); cbn [old_or_new]; destruct IHl as [[B2 H2]|[A2 [H2|H2]]]; rewrite ?H2; cbn [rbind]; auto.
      + destruct IHl as [H|H]; rewrite H; cbn [rbind]; auto. }
  specialize (F (sort_by_key (m_vars o)) (others_act s) (seen ++ [m_id o]) B1). destruct (Nat.eq_dec r q) as [->|N].
  - (* the object that is written has just been read *)
    rewrite <- (fields_ext w0 w1 fuel _ (passed fuel)) in F by (apply in_or_app; right; left; now apply HERE).
    destruct (iter_fields_during _ _ _ _ _ _) as [[[xs t] s']|e]; cbn [old_or_new] in *; intuition.
  - rewrite (OTHERS r N), Go, Nm, NODES. exact F.
Qed.
End Single.

(** ** one assignment *)
Lemma assign_change q name v w : w_nodes (assign q name v w) = w_nodes w /\ (forall r, r <> q -> get_obj (assign q name v w) r = get_obj w r) /\
  List.length (w_heap (assign q name v w)) = List.length (w_heap w) /\
  (forall o, get_obj w q = Some o -> exists o', get_obj (assign q name v w) q = Some o' /\ m_id o' = m_id o) /\ (get_obj w q = None -> assign q name v w = w).
Proof.
  unfold assign. destruct (setattr w q name v) as [w'|] eqn:E; [|repeat split; auto; intros o Ho; eauto].
  apply setattr_inv in E as (o & a' & Ho & _ & _ & _ & ->). split; [reflexivity|]. split; [intros r N; apply get_put_other; congruence|].
  split; [unfold put_obj; cbn; apply list_set_length|]. split; [|intros H; congruence].
  intros o1 H1. rewrite Ho in H1. injection H1 as <-. exists (set_vars o (dset name a' (m_vars o))). split; [|reflexivity].
  eapply get_put_same; eauto.
Qed.
Lemma assign_wf q name v w : wf_world w -> attr_ok w v -> wf_world (assign q name v w).
Proof. intros W A. unfold assign. destruct (setattr w q name v) as [w'|] eqn:E; [|exact W]. eapply setattr_wf; eauto. Qed.
Theorem single_state w r fuel q name v acts : wf_world w -> r < List.length (w_heap w) -> dfs_fuel w <= fuel -> attr_ok w v ->
  List.concat acts = [assign q name v] ->
  exists st s', get_state_during fuel (mkRun w acts) r = Ok (st, s') /\ (get_state w r = Ok st \/ get_state (assign q name v w) r = Ok st).
Proof.
  intros W V Hf A E. destruct (assign_change q name v w) as (N & O & Ln & Q & Z).
  destruct (get_obj w q) as [oq|] eqn:Gq.
  - set (w1 := assign q name v w) in *. destruct (Q oq eq_refl) as (o1 & G1 & I1).
    assert (S : old_or_new w w1 (assign q name v) (iter_state_during fuel (mkRun w acts) r [] []) (iter_state_rec fuel w r [] []) (iter_state_rec fuel w1 r [] [])).
    { apply (iter_single w w1 q (assign q name v) eq_refl N O (m_id oq)).
      - intros o Ho. rewrite Gq in Ho. now injection Ho as ->.
      - intros o Ho. rewrite G1 in Ho. now injection Ho as <-.
      - rewrite G1, Gq. split; discriminate.
      - split; [reflexivity|exact E]. }
    destruct (iter_runs w r fuel W V Hf) as (x0 & t0 & R0 & S0).
    assert (V1 : r < List.length (w_heap w1)) by now rewrite Ln. assert (Hf1 : dfs_fuel w1 <= fuel) by (unfold dfs_fuel in *; now rewrite Ln).
    destruct (iter_runs w1 r fuel (assign_wf q name v w W A) V1 Hf1) as (x1 & t1 & R1 & S1).
    unfold get_state_during. rewrite R0, R1 in S. destruct (iter_state_during fuel (mkRun w acts) r [] []) as [[[xs t] s']|e]; cbn [old_or_new rbind] in *.
    + exists (mk_state xs), s'. split; [reflexivity|]. destruct S as [[_ S]|[_ [S|S]]]; injection S as -> ->; auto.
    + destruct S; discriminate.
  - assert (OV : only_values w acts).
    { intros act I w' S. rewrite E in I. destruct I as [<-|[]]. destruct (assign_change q name v w') as (_ & _ & _ & _ & Z').
      rewrite Z'; [exact S|]. unfold get_obj in *. apply nth_error_None. rewrite <- (skeleton_length _ _ S). now apply nth_error_None. }
    assert (M : forall n, moment w acts n = w).
    { intros n. unfold moment. rewrite E. destruct n as [|n]; [reflexivity|]. cbn. rewrite firstn_nil. cbn. now apply Z. }
    destruct (torn_state w acts r fuel (mkRun w acts) 0 W V OV Hf (at_start w acts)) as (st & s' & k' & P1 & _ & _ & P2 & P3).
    exists st, s'. split; [exact P1|]. left. destruct (P2 0) as (sn & G & K). rewrite M in G. rewrite G. f_equal.
    destruct (get_state_total w r W V) as (s0 & G0 & WS). rewrite G in G0. injection G0 as <-.
    assert (WT : wf_state st) by (unfold wf_state, keys_increasing in *; unfold keys in K; now rewrite <- K).
    apply state_ext; [exact WS|exact WT|]. intros p. destruct (dget p st) as [a|] eqn:D.
    + destruct (P3 p a D) as (n & s1 & _ & G1 & D1). rewrite M, G in G1. injection G1 as <-. exact D1.
    + apply dget_None. rewrite K. now apply dget_None.
Qed.

(** ** partition *)
Lemma parts_latest st fs x : wf_state st -> partition_state st fs = Ok x -> Forall keys_increasing (sts_list x) /\ forall k, dget k st = latest k (sts_list x).
Proof.
  intros WS E. destruct fs as [|f fs]; cbn [partition_state] in E.
  - injection E as <-. cbn [sts_list]. split; [constructor; [exact WS|constructor]|]. intros k. reflexivity.
  - pose proof (partition_outputs_wf _ _ _ _ WS E) as F. split; [exact F|]. intros k. destruct (sts_list x) as [|y ys] eqn:L.
    + destruct (partition_entries _ _ _ _ WS E) as [H _]. rewrite L in H. discriminate.
    + rewrite <- (partition_merge st f fs x y ys WS E) at 1 by (rewrite L; apply Permutation_refl). now rewrite dget_state_merge by exact F.
Qed.
Theorem partition_torn w acts r fuel fs : wf_world w -> r < List.length (w_heap w) -> names_ok w r -> only_values w acts -> dfs_fuel w <= fuel ->
  (forall n, wf_world (moment w acts n)) ->
  exists d st s', get_module_def w r = Ok d /\
    partition_during fuel (mkRun w acts) r fs = (do x <- partition_state st fs; Ok (mkPure x d, s')) /\
    (forall p a, dget p st = Some a -> exists n sn, get_state (moment w acts n) r = Ok sn /\ dget p sn = Some a) /\
    (exists s0, get_state w r = Ok s0 /\ keys st = keys s0) /\
    forall x wb, partition_state st fs = Ok x -> wf_world wb -> w_nodes wb = w_nodes w ->
      exists m wb', merge wb d (sts_list x) = Ok (m, wb') /\ refilled_copy w r st wb wb' m.
Proof.
  intros W V N O Hf WM. destruct (steady_def w acts r fuel (mkRun w acts) 0 W V O Hf (at_start w acts)) as (d & s1 & k1 & D1 & D2 & D3 & D4).
  destruct (torn_state w acts r fuel s1 k1 W V O Hf D4) as (st & s2 & k2 & P1 & P2 & P3 & P4 & P5).
  exists d, st, s2. split; [exact D2|]. split; [unfold partition_during; rewrite D1; cbn [rbind]; rewrite P1; reflexivity|].
  split; [intros p a H; destruct (P5 p a H) as (n & sn & _ & H1 & H2); eauto|].
  destruct (P4 0) as (s0 & G0 & K0). change (moment w acts 0) with w in G0. split; [eauto|]. intros x wb Ex Wb Nb.
  destruct (get_state_total w r W V) as (s0' & G0' & WS). rewrite G0 in G0'. injection G0' as <-.
  assert (WT : wf_state st) by (unfold wf_state, keys_increasing in *; unfold keys in K0; now rewrite <- K0).
  destruct (parts_latest st fs x WT Ex) as [L1 L2].
  apply (merge_refills w r d s0 (sts_list x) st wb W V N D2 G0 Wb Nb L1 WT L2).
  intros k a H. destruct (P5 k a H) as (n & sn & _ & H1 & H2). split; [rewrite K0; destruct (in_dec String.string_dec k (keys st)) as [I|I]; [exact I|apply dget_None in I; congruence]|].
  pose proof (get_state_plain _ _ _ (WM n) H1) as PL. pose proof (get_state_nodes _ _ _ _ _ (WM n) H1 H2) as NV. unfold node_value in *. rewrite (moment_nodes w acts O n) in NV.
  destruct (PL k a (dget_In _ _ _ H2)) as [? ?]. auto.
Qed.

(** ** what keeps the skeleton *)
Lemma dset_field nt name a l l' b : NoDup (keys l) -> dget name l = Some b -> (b = a \/ (leaf nt b /\ leaf nt a)) -> Forall2 (same_field nt) l l' -> Forall2 (same_field nt) l (dset name a l').
Proof.
  intros ND D H F. revert ND D. induction F as [|[k x] [k' x'] l l' [E HV] F IH]; intros ND D; [discriminate|]. cbn in E. subst k'. cbn in D |- *.
  destruct (String.eqb_spec name k) as [->|N].
  - injection D as ->. constructor; [split; [reflexivity|exact H]|exact F].
  - constructor; [split; [reflexivity|exact HV]|]. apply IH; [now inversion ND|exact D].
Qed.
Lemma Forall2_list_set {A} (R : A -> A -> Prop) i x : forall l l', Forall2 R l l' -> (forall y, nth_error l i = Some y -> R y x) -> Forall2 R l (list_set i x l').
Proof.
  induction i as [|i IH]; intros l l' F H; destruct F; cbn; constructor; auto; apply H; reflexivity.
Qed.
Lemma container_init_cls c x md r : container_init c x md = Ok r -> c_cls r = c.
Proof. unfold container_init. destruct (init_meta c md) as [md0|]; [|discriminate]. cbn [rbind]. destruct x as [v|[v extra]]; intros [= <-]; reflexivity. Qed.
Lemma assign_leaf nt old v a : leaf nt old -> leaf nt v -> assign_value (Some old) v = Ok a -> leaf nt a.
Proof.
  intros [L1 L2] [V1 V2] E. cbn in E. destruct old as [x|c].
  - destruct v as [y|c]; [injection E as <-; split; auto|]. unfold container_copy, container_call in E. cbn in E.
    destruct (container_init (c_cls c) (inl (c_val c)) (c_meta c)) as [c'|] eqn:I; [|discriminate]. injection E as <-. split; [|discriminate].
    unfold is_node, isinstance, cls_of_attr in *. now rewrite (container_init_cls _ _ _ _ I).
  - destruct (container_replace c (Some v) []) as [c'|] eqn:R; [|discriminate]. injection E as <-. split; [|discriminate].
    unfold container_replace in R. destruct (match v with ARaw v0 => Ok v0 | ACont d => if is_equivalent c d then Ok (c_val d) else Err ValueError end); [|discriminate]. cbn in R.
    unfold is_node, isinstance, cls_of_attr in *. now rewrite (container_init_cls _ _ _ _ R).
Qed.
Theorem assign_value_keeps w q o name old v : wf_world w -> get_obj w q = Some o -> dget name (m_vars o) = Some old -> leaf (w_nodes w) old -> leaf (w_nodes w) v ->
  forall w', same_skeleton w w' -> same_skeleton w (assign q name v w').
Proof.
  intros W Ho Hd Hl Hv w' S. unfold assign. destruct (setattr w' q name v) as [w2|] eqn:E; [|exact S]. apply setattr_inv in E as (o' & a' & Ho' & _ & _ & Ha & ->).
  destruct (skeleton_obj _ _ _ _ S Ho) as (o2 & Ho2 & (C1 & C2 & C3 & C4)). rewrite Ho' in Ho2. injection Ho2 as <-.
  destruct S as [S1 S2]. split; [exact S1|]. unfold put_obj. cbn [w_heap set_heap]. apply Forall2_list_set; [exact S2|]. intros y Hy.
  unfold get_obj in Ho. rewrite Ho in Hy. injection Hy as <-. split; [exact C1|]. split; [exact C2|]. split; [exact C3|]. cbn [m_vars set_vars].
  assert (exists b, dget name (m_vars o') = Some b /\ leaf (w_nodes w) b) as (b & Hb & Lb).
  { clear - C4 Hd Hl. revert Hd. induction C4 as [|[k x] [k' x'] l l' [EK HV] F IH]; intros D; [discriminate|]. cbn in EK. subst k'. cbn in *.
    destruct (String.eqb name k); [injection D as ->; exists x'; split; [reflexivity|]; destruct HV as [<-|[_ HV]]; auto|auto]. }
  rewrite Hb in Ha. eapply dset_field; [apply (wfo_names _ _ (wf_objs _ W q o Ho))|exact Hd| |exact C4]. right. split; [exact Hl|]. exact (assign_leaf _ b v a' Lb Hv Ha).
Qed.
