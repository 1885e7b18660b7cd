(** ScanInit_proofs: a module made by scan_init holds, layer by layer, the modules
    the constructor makes one at a time. *)
From Coq Require Import Permutation Lia ZArith.
From Verif Require Import PyBase PyBaseFacts ValuesM Spec_Eq ValuesFacts FiltersM StateM Spec_State State_proofs ModuleM Spec_Module Spec_History Spec_Prog
  Graph_facts Dfs_proofs Bisim_proofs Mdef_proofs RoundTrip_proofs Clone_proofs Laws_proofs History_proofs Prog_proofs Transform_proofs
  SpmdM Spec_Spmd Spmd_proofs ContextM Spec_Context TransformM ScanM Spec_Scan Scan_proofs ScanRng_proofs ScanInitM Spec_ScanInit Revalue_proofs.
Local Open Scope string_scope.
Local Open Scope list_scope.

(** ** partitioning again *)
Lemma latest_keys k (l : list state) : latest k l <> None <-> exists x, In x l /\ In k (keys x).
Proof.
  induction l as [|x l IH]; cbn [latest].
  - split; [congruence|]. intros (x & [] & _).
  - destruct (latest k l) as [a|].
    + split; [intros _|discriminate]. destruct (proj1 IH) as (y & H1 & H2); [discriminate|]. exists y. cbn. auto.
    + split.
      * intros H. exists x. split; [now left|]. destruct (dget k x) as [a|] eqn:D; [|congruence]. eapply dget_In_keys; eauto.
      * intros (y & [->|H1] & H2); [|exfalso; apply (proj2 IH); eauto]. intros D. apply dget_None in D. contradiction.
Qed.
Lemma latest_one k (l : list state) x a : In x l -> dget k x = Some a -> (forall y, In y l -> In k (keys y) -> y = x) -> latest k l = Some a.
Proof.
  induction l as [|y l IH]; [intros []|]. intros Hx D U. cbn [latest]. destruct (latest k l) as [b|] eqn:L.
  - assert (K : latest k l <> None) by congruence. apply latest_keys in K as (z & Z1 & Z2). assert (z = x) by (apply U; [now right|exact Z2]). subst z.
    apply IH; auto. intros y' H1 H2. apply U; [now right|exact H2].
  - destruct Hx as [->|Hx]; [exact D|]. exfalso. assert (K : latest k l <> None) by (apply latest_keys; exists x; split; [exact Hx|eapply dget_In_keys; eauto]). congruence.
Qed.

Definition restate (s : state) (l : list state) : state :=
  map (fun ka => (fst ka, match latest (fst ka) l with Some b => b | None => snd ka end)) s.
Lemma restate_keys s l : keys (restate s l) = keys s.
Proof. unfold keys, restate. rewrite map_map. reflexivity. Qed.
Lemma restate_wf s l : wf_state s -> wf_state (restate s l).
Proof. intros H. eapply keys_inc_ext; [|exact H]. first [apply restate_keys|symmetry; apply restate_keys]. Qed.
Lemma restate_dget s l k : dget k (restate s l) = match dget k s with Some a => Some (match latest k l with Some b => b | None => a end) | None => None end.
Proof.
  induction s as [|[m a] s IH]; cbn; [reflexivity|]. destruct (String.eqb_spec k m) as [->|]; [reflexivity|]. exact IH.
Qed.

Lemma partition_again s fs l l' : wf_state s -> partition_state s fs = Ok (Many l) -> Forall wf_state l' ->
  Forall2 (fun x y : state => keys x = keys y) l l' ->
  (forall g k a b, In g fs -> dget k s = Some a -> latest k l' = Some b -> (matches g k a <-> matches g k b)) ->
  (forall k, dget k (restate s l') = latest k l') /\ partition_state (restate s l') fs = Ok (Many l').
Proof.
  intros Hs HP Hl' HK HM. destruct fs as [|f fs]; [discriminate|]. cbn [partition_state] in HP |- *.
  pose proof (partition_outputs_wf _ _ _ _ Hs HP) as W. destruct (partition_entries _ _ _ _ Hs HP) as [E1 E2]. cbn [sts_list] in *.
  assert (C : exists r, state_partition s f fs = Ok r) by eauto. apply (partition_ok_iff s f fs Hs) in C as (C1 & C2 & C3).
  assert (COV : forall k a, dget k s = Some a -> exists b, latest k l' = Some b).
  { intros k a D. destruct (latest k l') as [b|] eqn:L; [eauto|]. exfalso.
    assert (K : exists x, In x l /\ dget k x = Some a).
    { pose proof (partition_merge s f fs (Many l)) as M. destruct l as [|x xs]; [discriminate|]. specialize (M x xs Hs HP (Permutation_refl _)).
      rewrite <- M in D. rewrite dget_state_merge in D by exact W. now apply last_value_In in D. }
    destruct K as (x & Hx & Dx). apply In_nth_error in Hx as [i Hi]. destruct (Forall2_nth _ _ _ _ _ HK Hi) as (y & Hy & Ey).
    assert (Q : latest k l' <> None); [|congruence]. apply latest_keys. exists y. split; [eapply nth_error_In; eauto|]. rewrite <- Ey. eapply dget_In_keys; eauto. }
  assert (SUB : forall y k, In y l' -> In k (keys y) -> exists a i, dget k s = Some a /\ nth_error l' i = Some y /\ first_match (f :: fs) i k a).
  { intros y k Hy Ky. apply In_nth_error in Hy as [i Hi]. destruct (Forall2_nth2 _ _ _ _ _ HK Hi) as (x & Hx & Ex). rewrite <- Ex in Ky.
    apply dget_Some_keys in Ky as [a D]. apply (E2 i x k a Hx) in D as [D F]. exists a, i. auto. }
  assert (UNI : forall i j k a, first_match (f :: fs) i k a -> first_match (f :: fs) j k a -> i = j).
  { intros i j k a [(g & G1 & G2) F1] [(h & H1 & H2) F2]. destruct (Nat.lt_trichotomy i j) as [Hij|[Hij|Hij]]; [|exact Hij|].
    - exfalso. eapply F2; eauto.
    - exfalso. eapply F1; eauto. }
  assert (LAT : forall y k b, In y l' -> dget k y = Some b -> latest k l' = Some b).
  { intros y k b Hy D. eapply latest_one; eauto. intros z Hz Kz. pose proof (dget_In_keys _ _ _ D) as Ky.
    destruct (SUB y k Hy Ky) as (a & i & A1 & A2 & A3). destruct (SUB z k Hz Kz) as (a' & j & B1 & B2 & B3). assert (a' = a) by congruence. subst a'.
    pose proof (UNI _ _ _ _ A3 B3). subst j. congruence. }
  assert (HU : forall k, dget k (restate s l') = latest k l').
  { intros k. rewrite restate_dget. destruct (dget k s) as [a|] eqn:D; [destruct (COV k a D) as [b ->]; reflexivity|].
    destruct (latest k l') as [b|] eqn:L; [|reflexivity]. exfalso. assert (K : latest k l' <> None) by congruence. apply latest_keys in K as (y & Y1 & Y2).
    destruct (SUB y k Y1 Y2) as (a & i & A1 & _). congruence. }
  split; [exact HU|]. pose proof (restate_wf s l' Hs) as WU.
  assert (FM : forall i k a b, dget k s = Some a -> latest k l' = Some b -> (first_match (f :: fs) i k a <-> first_match (f :: fs) i k b)).
  { intros i k a b D L. unfold first_match. split; intros [(g & G1 & G2) F]; (split; [exists g; split; [exact G1|]|intros j h Hj Hh Q; apply (F j h Hj Hh)]).
    - apply (HM g k a b); auto. eapply nth_error_In; eauto.
    - apply (HM h k a b); auto. eapply nth_error_In; eauto.
    - apply (HM g k a b); auto. eapply nth_error_In; eauto.
    - apply (HM h k a b); auto. eapply nth_error_In; eauto. }
  destruct (proj2 (partition_ok_iff (restate s l') f fs WU)) as [r Hr].
  { split; [exact C1|]. split; [exact C2|]. intros k b D. rewrite HU in D. assert (K : latest k l' <> None) by congruence. apply latest_keys in K as (y & Y1 & Y2).
    destruct (SUB y k Y1 Y2) as (a & i & A1 & _ & _). destruct (C3 k a A1) as (g & G1 & G2). exists g. split; [exact G1|]. now apply (HM g k a b). }
  rewrite Hr. f_equal. pose proof (partition_outputs_wf _ _ _ _ WU Hr) as WR. destruct (partition_entries _ _ _ _ WU Hr) as [R1 R2].
  assert (LL : List.length l = List.length l') by (eapply Forall2_length; eauto).
  assert (EQ : sts_list r = l').
  { apply wf_states_eq; auto; [congruence|]. intros i x y k b Hx Hy. rewrite (R2 i x k b Hx), HU. split.
    - intros [L F]. destruct (dget k y) as [b'|] eqn:D.
      + rewrite (LAT y k b' (nth_error_In _ _ Hy) D) in L. exact L.
      + exfalso. assert (K : latest k l' <> None) by congruence. apply latest_keys in K as (z & Z1 & Z2). destruct (SUB z k Z1 Z2) as (a & j & A1 & A2 & A3).
        apply (FM i k a b A1 L) in F. pose proof (UNI _ _ _ _ A3 F). subst j. assert (z = y) by congruence. subst z. apply dget_None in D. contradiction.
    - intros D. pose proof (LAT y k b (nth_error_In _ _ Hy) D) as L. split; [exact L|]. destruct (SUB y k (nth_error_In _ _ Hy) (dget_In_keys _ _ _ D)) as (a & j & A1 & A2 & A3).
      apply (FM i k a b A1 L). assert (NI : i = j); [|now subst]. 
      destruct (Forall2_nth2 _ _ _ _ _ HK Hy) as (x0 & X0 & Ex). assert (Kx : In k (keys x0)) by (rewrite Ex; eapply dget_In_keys; eauto).
      apply dget_Some_keys in Kx as [a0 Dx]. apply (E2 i x0 k a0 X0) in Dx as [D0 F0]. assert (a0 = a) by congruence. subst a0. eapply UNI; eauto. }
  destruct (partition_inv _ _ _ _ WU Hr) as (_ & _ & _ & _ & _ & PK). rewrite EQ in PK. rewrite PK. unfold pack.
  assert (MS : map mk_state l' = l'). { rewrite <- (map_id l') at 2. apply map_ext_Forall. eapply Forall_impl; [|exact Hl']. intros x Hx. now apply mk_state_id. }
  destruct l' as [|y [|y' t]].
  - reflexivity.
  - exfalso. destruct l as [|x [|x' t]]; try discriminate LL. destruct (partition_inv _ _ _ _ Hs HP) as (_ & _ & _ & _ & _ & PK'). cbn in PK'. discriminate PK'.
  - now rewrite MS.
Qed.

(** ** one column: a State stacked over the layers *)
Definition rt (f g : attr -> result attr) (a : attr) : Prop :=
  exists a', f a = Ok a' /\ cls_of_attr a' = cls_of_attr a /\ plain_attr a' /\ val_of a' = val_of a /\ forall v, g (with_value a' v) = Ok (with_value a v).
Lemma state_map_rel f s t : state_map f s = Ok t <-> Forall2 (fun x y : string * attr => fst x = fst y /\ f (snd x) = Ok (snd y)) s t.
Proof.
  revert t. induction s as [|[k a] s IH]; intros t; cbn [state_map].
  - split; [intros [= <-]; constructor|intros H; inversion H; reflexivity].
  - split.
    + destruct (f a) as [b|] eqn:E; [|discriminate]. cbn [rbind]. destruct (state_map f s) as [t'|] eqn:E'; [|discriminate]. cbn [rbind]. intros [= <-].
      constructor; [auto|]. now apply IH.
    + intros H. inversion H as [|? [k' b] ? t' [H1 H2] H3]; subst. cbn in *. subst k'. rewrite H2. cbn [rbind]. apply IH in H3. rewrite H3. reflexivity.
Qed.
Lemma with_value_val a b : same_kind a b -> with_value a (val_of b) = b.
Proof. destruct a as [v|c], b as [u|e]; cbn; try tauto. intros [H1 H2]. destruct c, e. cbn in *. now subst. Qed.
Lemma is_stack_val J ax l big k a : is_stack J ax l big -> dget k big = Some a -> exists vs, Forall2 (array_at k) l vs /\ val_of a = a_stack J ax vs.
Proof.
  intros [_ H] D. destruct (H k (val_of a)) as (vs & V1 & V2); [exists a; split; [exact D|destruct a; reflexivity]|]. eauto.
Qed.

Lemma column J ax n (L : list state) big f g : stack_slices J ->
  (forall s k a, In s L -> dget k s = Some a -> not_module (val_of a)) -> L <> [] -> List.length L = n -> (forall s, In s L -> NoDup (keys s)) -> is_stack J ax L big -> (forall k a, In (k, a) big -> rt f g a) ->
  exists fin, state_map f big = Ok fin /\ keys fin = keys big /\
    (forall k a', dget k fin = Some a' -> exists a, dget k big = Some a /\ cls_of_attr a' = cls_of_attr a /\ plain_attr a') /\
    (forall i s, nth_error L i = Some s -> exists raw, is_slice J ax n i fin raw /\ state_map g raw = Ok s).
Proof.
  intros HJ HM HL Hn HND HS HR.
  assert (NDb : NoDup (keys big)).
  { destruct L as [|s0 L]; [congruence|]. destruct HS as [HA _]. rewrite <- (alike_keys _ _ (HA s0 (or_introl eq_refl))). apply HND. now left. }
  assert (F : exists fin, Forall2 (fun x y : string * attr => fst x = fst y /\ f (snd x) = Ok (snd y) /\ cls_of_attr (snd y) = cls_of_attr (snd x) /\ plain_attr (snd y) /\
               val_of (snd y) = val_of (snd x) /\ forall v, g (with_value (snd y) v) = Ok (with_value (snd x) v)) big fin).
  { clear - HR. induction big as [|[k a] big IH]; [exists []; constructor|]. destruct IH as [fin IH]; [intros; apply (HR k0); now right|].
    destruct (HR k a (or_introl eq_refl)) as (a' & R1 & R2 & R3 & R4 & R5). exists ((k, a') :: fin). constructor; [cbn; auto 10|exact IH]. }
  destruct F as [fin F]. assert (KF : keys fin = keys big).
  { clear - F. unfold keys. induction F as [|[k a] [k' a'] big fin (H & _) F IH]; cbn in *; [reflexivity|]. now f_equal. }
  assert (DF : forall k a', dget k fin = Some a' -> exists a, dget k big = Some a /\ cls_of_attr a' = cls_of_attr a /\ plain_attr a' /\ val_of a' = val_of a).
  { clear - F. intros k a'. induction F as [|[m a] [m' b] big fin (H1 & H2 & H3 & H4 & H5 & H6) F IH]; [discriminate|]. cbn in H1. subst m'. cbn [dget].
    destruct (String.eqb_spec k m); [|exact IH]. intros [= <-]. exists a. auto. }
  exists fin. split. { apply state_map_rel. clear - F. induction F as [|x y ? ? (H1 & H2 & _) F IH]; constructor; auto. }
  split; [exact KF|]. split. { intros k a' D. destruct (DF k a' D) as (a & A1 & A2 & A3 & _). eauto. }
  intros i s Hi. pose proof HS as [HA HV]. pose proof (HA s (nth_error_In _ _ Hi)) as AS.
  assert (NDs : NoDup (keys s)) by (apply HND; eapply nth_error_In; eauto).
  exists (map (fun ka => (fst ka, with_value (snd ka) (value_at (fst ka) s))) fin). split.
  - split.
    + clear. induction fin as [|[k a] fin IH]; constructor; auto. cbn. split; [reflexivity|apply with_value_same_kind].
    + intros k v (a' & D & Ev). destruct (DF k a' D) as (a & A1 & _ & _ & A4).
      subst v.
      destruct (is_stack_val _ _ _ _ _ _ HS A1) as (vs & V1 & V2).
      destruct (Forall2_nth _ _ _ _ _ V1 Hi) as (x & X1 & (b & B1 & B2)).
      exists vs, x. change (match a' with ARaw v => v | ACont c => c_val c end) with (val_of a'). rewrite A4, V2, HJ. 2:{ intros ->. inversion V1. congruence. }
      2:{ clear - V1 HM. induction V1 as [|s0 v0 L vs (b0 & D0 & E0) V IH]; constructor; [|apply IH; intros; eapply HM; eauto; now right].
          subst v0. change (not_module (val_of b0)). eapply HM; eauto. now left. }
      split; [reflexivity|]. split; [rewrite <- (Forall2_len _ _ _ V1); exact Hn|]. split; [exact X1|].
      exists (with_value a' (value_at k s)). split.
      * clear - D. induction fin as [|[m c] fin IH]; [discriminate|]. cbn [map dget fst snd] in *. destruct (String.eqb_spec k m) as [->|]; [now injection D as ->|now apply IH].
      * unfold value_at. rewrite B1. rewrite B2. destruct a', b; reflexivity.
  - apply state_map_rel. assert (G : forall vf : string -> pyval, (forall k b, In (k, b) s -> vf k = val_of b) ->
      Forall2 (fun x y : string * attr => fst x = fst y /\ g (snd x) = Ok (snd y)) (map (fun ka => (fst ka, with_value (snd ka) (vf (fst ka)))) fin) s).
    { clear - F AS. revert s AS. induction F as [|[k a] [k' a'] big fin (H1 & H2 & H3 & H4 & H5 & H6) F IH]; intros s AS vf HV.
      - inversion AS; subst. constructor.
      - inversion AS as [|[k2 b] ? s' ? [S1 S2] S3]; subst. cbn in *. subst k' k2. constructor.
        + cbn. split; [reflexivity|]. rewrite H6. f_equal. rewrite (HV k b (or_introl eq_refl)). apply with_value_val. now apply same_kind_sym.
        + apply IH; [exact S3|]. intros k0 b0 I. apply (HV k0 b0). now right. }
    apply (G (fun k => value_at k s)). intros k b I. unfold value_at. rewrite (In_dget _ _ _ NDs I). reflexivity.
Qed.

(** the axis name goes in and out *)
Lemma with_value_plain a v : plain_attr a -> not_module v -> plain_attr (with_value a v).
Proof. destruct a as [u|c]; intros [H1 H2] H3; split; cbn in *; auto. destruct v; auto; contradiction. Qed.
Lemma rt_id a : plain_attr a -> rt (fun a => Ok a) (fun a => Ok a) a.
Proof. intros H. exists a. auto. Qed.
Lemma rt_axis index name a : (0 <= index)%Z -> plain_attr a -> covered a -> (forall sh, has_sharding a sh -> Z.to_nat index <= List.length sh) ->
  rt (add_axis1 index name) (remove_axis1 index name) a.
Proof.
  intros H P [W [NS|(s & c & -> & N & D)]] HL.
  - exists a. unfold add_axis1. rewrite (sharding_of_none a NS). cbn [rbind]. split; [reflexivity|]. split; [reflexivity|]. split; [exact P|]. split; [reflexivity|].
    intros v. unfold remove_axis1. rewrite sharding_of_none; [reflexivity|]. destruct a; exact NS.
  - cbn in W. exists (ACont (with_sharding c (sharding_val (add_axis_entry index name s)))). split; [now apply add_axis1_some|]. split; [reflexivity|].
    split; [split; [|reflexivity]; cbn; eapply with_sharding_wf; eauto|]. split; [reflexivity|].
    intros v. cbn [with_value]. set (c2 := mkCont _ _ v). rewrite remove_axis1_some with (s := add_axis_entry index name s).
    + rewrite remove_add_entry by exact H. cbn [rmap]. f_equal. rewrite pad_id by (apply HL; exists c; auto).
      unfold c2, with_sharding. cbn [c_cls c_meta c_val]. do 2 f_equal.
      pose proof (with_sharding_twice c (sharding_val (add_axis_entry index name s)) (sharding_val s)) as T. rewrite (with_sharding_id c (sharding_val s) D) in T.
      unfold with_sharding in T. cbn in T. destruct c as [c1 c2' c3]. cbn in *. congruence.
    + assert (WS : wf_container (with_sharding c (sharding_val (add_axis_entry index name s)))) by (eapply with_sharding_wf; eauto). exact WS.
    + exact N.
    + cbn. apply dget_dset_same.
Qed.

Definition ff (o : scan_opts) (ax : Z) : attr -> result attr := match o_partition o with None => fun a => Ok a | Some n => add_axis1 ax n end.
Definition gg (o : scan_opts) (ax : Z) : attr -> result attr := match o_partition o with None => fun a => Ok a | Some n => remove_axis1 ax n end.
Lemma state_map_Ok s : state_map (fun a => Ok a) s = Ok s.
Proof. apply state_map_rel. induction s as [|[k a] s IH]; constructor; auto. Qed.
Lemma on_axes_ext f g axes l : (forall s ax, f s ax = g s ax) -> on_axes f axes l = on_axes g axes l.
Proof. intros H. revert axes. induction l as [|s l IH]; intros [|[q ax] axes]; cbn; auto. now rewrite H, IH. Qed.
Lemma on_axes_id (axes : list (filt * Z)) : forall l, List.length l = List.length axes -> on_axes (fun s _ => state_map (fun a => Ok a) s) axes l = Ok l.
Proof. induction axes as [|[q ax] axes IH]; intros [|s l] H; try discriminate; cbn; [reflexivity|]. rewrite state_map_Ok. cbn. rewrite IH by (cbn in H; lia). reflexivity. Qed.
Lemma leave_alt o l : List.length l = List.length (o_axes o) -> leave_axes o l = on_axes (fun s ax => state_map (ff o ax) s) (o_axes o) l.
Proof. intros H. unfold leave_axes, ff. destruct (o_partition o); [reflexivity|]. now rewrite on_axes_id. Qed.
Lemma enter_alt o l : List.length l = List.length (o_axes o) -> enter_axes o l = on_axes (fun s ax => state_map (gg o ax) s) (o_axes o) l.
Proof. intros H. unfold enter_axes, gg. destruct (o_partition o); [reflexivity|]. now rewrite on_axes_id. Qed.

Lemma on_axes_nth f axes : forall l l' q y, on_axes f axes l = Ok l' -> nth_error l' q = Some y ->
  exists fx x, nth_error axes q = Some fx /\ nth_error l q = Some x /\ f x (snd fx) = Ok y.
Proof.
  induction axes as [|[g ax] axes IH]; intros [|s l] l' q y H Hq; cbn in H; try (injection H as <-; destruct q; discriminate).
  destruct (f s ax) as [x|] eqn:E; [|discriminate]. cbn in H. destruct (on_axes f axes l) as [xs|] eqn:E2; [|discriminate]. cbn in H. injection H as <-.
  destruct q as [|q]; cbn in Hq; [injection Hq as <-; exists (g, ax), s; auto|]. destruct (IH _ _ _ _ E2 Hq) as (fx & x' & H1 & H2 & H3). exists fx, x'. auto.
Qed.

Definition column_fin (big fin : state) : Prop :=
  keys fin = keys big /\ forall k a', dget k fin = Some a' -> exists a, dget k big = Some a /\ cls_of_attr a' = cls_of_attr a /\ plain_attr a'.

Lemma skipn_nth {A} (x : list A) j dflt : j < List.length x -> skipn j x = nth j x dflt :: skipn (S j) x.
Proof. revert j. induction x as [|a x IH]; intros [|j] H; cbn in *; try lia; [reflexivity|]. apply IH. lia. Qed.

Lemma columns J o n fins : stack_slices J -> (forall x s k a, In x fins -> In s x -> dget k s = Some a -> not_module (val_of a)) -> fins <> [] -> List.length fins = n -> (forall x s, In x fins -> In s x -> NoDup (keys s)) ->
  forall axes j bigs, List.length bigs = List.length axes -> (forall x, In x fins -> List.length x = j + List.length axes) ->
  (forall q fx big, nth_error axes q = Some fx -> nth_error bigs q = Some big ->
     is_stack J (snd fx) (col (j + q) fins) big /\ forall k a, In (k, a) big -> rt (ff o (snd fx)) (gg o (snd fx)) a) ->
  exists fin, on_axes (fun s ax => state_map (ff o ax) s) axes bigs = Ok fin /\ Forall2 column_fin bigs fin /\
    forall i x, nth_error fins i = Some x -> exists raw,
      Forall2 (fun sa small => is_slice J (snd (snd sa)) n i (fst sa) small) (combine fin axes) raw /\
      on_axes (fun s ax => state_map (gg o ax) s) axes raw = Ok (skipn j x).
Proof.
  intros HJ HM HF Hn HND. induction axes as [|[q ax] axes IH]; intros j bigs Hl Hlen HQ.
  - destruct bigs; [|discriminate]. exists []. split; [reflexivity|]. split; [constructor|]. intros i x Hi. exists []. split; [constructor|]. cbn.
    rewrite skipn_all2; [reflexivity|]. rewrite (Hlen x (nth_error_In _ _ Hi)). cbn. lia.
  - destruct bigs as [|big bigs]; [discriminate|]. cbn in Hl. injection Hl as Hl.
    destruct (IH (S j) bigs Hl) as (fin & F1 & F2 & F3).
    { intros x Hx. rewrite (Hlen x Hx). cbn. lia. }
    { intros p fx bg H1 H2. replace (S j + p) with (j + S p) by lia. apply HQ; assumption. }
    destruct (HQ 0 (q, ax) big eq_refl eq_refl) as [S1 S2]. cbn [snd] in S1, S2. rewrite Nat.add_0_r in S1.
    assert (NDc : forall s, In s (col j fins) -> NoDup (keys s)).
    { intros s Hs. apply in_map_iff in Hs as (x & <- & Hx). apply (HND x); [exact Hx|]. apply nth_In. rewrite (Hlen x Hx). cbn. lia. }
    destruct (column J ax n (col j fins) big (ff o ax) (gg o ax) HJ) as (f1 & C1 & C2 & C3 & C4); auto.
    { intros s k a Hs D. apply in_map_iff in Hs as (x & <- & Hx). apply (HM x (nth j x []) k a Hx); [|exact D]. apply nth_In. rewrite (Hlen x Hx). cbn. lia. }
    { destruct fins; [congruence|discriminate]. }
    { unfold col. rewrite map_length. exact Hn. }
    exists (f1 :: fin). split; [cbn; rewrite C1; cbn; rewrite F1; reflexivity|]. split; [constructor; [split; assumption|exact F2]|].
    intros i x Hi. destruct (F3 i x Hi) as (raw & R1 & R2). destruct (C4 i (nth j x [])) as (r1 & G1 & G2).
    { unfold col. rewrite nth_error_map, Hi. reflexivity. }
    exists (r1 :: raw). split; [constructor; [exact G1|exact R1]|]. cbn. rewrite G2. cbn. rewrite R2. cbn.
    rewrite (skipn_nth x j []); [reflexivity|]. rewrite (Hlen x (nth_error_In _ _ Hi)). cbn. lia.
Qed.

Lemma attr_eqb_refl a : wf_attr a -> attr_eqb a a = true.
Proof. intros H. apply attr_eqb_spec; auto. unfold same_attr. destruct a; [constructor|]. split; [reflexivity|]. split; [constructor|apply same_meta_refl]. Qed.
Lemma state_eqb_refl s : plain_st s -> state_eqb s s = true.
Proof. induction s as [|[k a] s IH]; [reflexivity|]. intros H. inversion H as [|? ? [H1 _] H2]; subst. cbn. rewrite String.eqb_refl, attr_eqb_refl by exact H1. cbn. now apply IH. Qed.

Lemma rmapM_map {A B} (f : A -> result B) (h : A -> B) l : (forall x, In x l -> f x = Ok (h x)) -> rmapM f l = Ok (map h l).
Proof. induction l as [|x l IH]; intros H; [reflexivity|]. cbn. rewrite (H x (or_introl eq_refl)). cbn. rewrite IH by (intros y Hy; apply H; now right). reflexivity. Qed.

Section Init.
Variables (J : arrays) (o : scan_opts) (t : trace_state) (ctor : constructor) (w : world) (n : nat) (ctxs : nat -> option pctx).
Variables (lw : nat -> world) (lr : nat -> nat) (d : mdef) (st : nat -> state) (ax : nat -> list state) (b c : state).
Hypothesis HJ : stack_slices J.
Hypothesis HA : arrays_ok J.
Hypothesis Hn : 0 < n.
Hypothesis HL : forall i, i < n -> layer_made o ctor (set_trace w t) (ctxs i) (lw i) (lr i) d (st i) (ax i) b c.
Hypothesis Hal : forall i j, i < n -> j < n -> Forall2 alike (ax i) (ax j).
Hypothesis Hbc : Forall by_class (o_filters o).
Hypothesis Hval : forall i s k a, i < n -> In s (ax i) -> dget k s = Some a -> not_module (val_of a).
Hypothesis Hraw : forall i s k v axis l, i < n -> In s (ax i) -> dget k s = Some (ARaw v) -> cls_of_attr (ARaw (a_stack J axis l)) = cls_of_attr (ARaw v).
Hypothesis Hsh : o_partition o <> None -> forall i j s fx k a, i < n -> nth_error (ax i) j = Some s -> nth_error (o_axes o) j = Some fx -> In (k, a) s ->
  (0 <= snd fx)%Z /\ covered a /\ forall sh, has_sharding a sh -> Z.to_nat (snd fx) <= List.length sh.

Lemma lane_wf i : i < n -> wf_state (st i) /\ plain_st (st i).
Proof.
  intros Hi. destruct (HL i Hi) as [lm_call0 lm_wf0 lm_valid0 lm_names0 lm_def0 lm_state0 lm_part0]. split; [|eapply state_plain; eauto].
  destruct (get_state_total (lw i) (lr i) lm_wf0 lm_valid0) as (s & E & W). congruence.
Qed.
Lemma lane_parts i : i < n -> Forall wf_state (ax i ++ [b; c]) /\ plain_list (ax i ++ [b; c]) /\ List.length (ax i) = List.length (o_axes o) /\
  (forall x k a, In x (ax i ++ [b; c]) -> dget k x = Some a -> dget k (st i) = Some a).
Proof.
  intros Hi. destruct (lane_wf i Hi) as [W P]. destruct (HL i Hi) as [lm_call0 lm_wf0 lm_valid0 lm_names0 lm_def0 lm_state0 lm_part0]. destruct (partition_parts _ _ _ W P lm_part0) as (Q1 & Q2 & Q3 & _ & Q5 & _).
  split; [exact Q1|]. split; [exact Q2|]. split; [|exact Q5]. unfold o_filters in Q3. rewrite !app_length, map_length in Q3. cbn in Q3. lia.
Qed.

Lemma lane_init i : i < n -> init_lane o ctor (ctxs i) (set_trace w t) = (lw i, Ok (d, (ax i, b, c))).
Proof.
  intros Hi. destruct (HL i Hi) as [lm_call0 lm_wf0 lm_valid0 lm_names0 lm_def0 lm_state0 lm_part0]. unfold init_lane. rewrite lm_call0. unfold module_partition. rewrite lm_def0, lm_state0. cbn [rbind]. rewrite lm_part0. cbn [rbind p_states p_def sts_list].
  now rewrite split3_app.
Qed.

Definition lanes : list (list state) := map ax (seq 0 n).
Lemma lanes_nth i x : nth_error lanes i = Some x <-> i < n /\ x = ax i.
Proof.
  unfold lanes. rewrite nth_error_map. destruct (nth_error (seq 0 n) i) as [j|] eqn:E.
  - assert (i < n) by (rewrite <- (seq_length n 0); apply nth_error_Some; congruence).
    pose proof (nth_error_nth _ _ 0 E) as Y. rewrite seq_nth in Y by assumption. cbn in Y. subst j. cbn. split; [intros [= <-]; auto|intros [_ ->]; reflexivity].
  - apply nth_error_None in E. rewrite seq_length in E. split; [discriminate|lia].
Qed.
Lemma lanes_in x : In x lanes -> exists i, i < n /\ x = ax i.
Proof. intros H. apply In_nth_error in H as [i H]. exists i. now apply lanes_nth. Qed.

Lemma vmap_lanes : exists bigs, vmap_init J o t ctor n ctxs w = (set_trace (lw 0) (w_trace w), Ok (d, (bigs, b, c))) /\ List.length bigs = List.length (o_axes o) /\
  forall q fx big, nth_error (o_axes o) q = Some fx -> nth_error bigs q = Some big -> is_stack J (snd fx) (col q lanes) big.
Proof.
  destruct (stack_axes_ok J lanes) with (axes := o_axes o) (i := 0) as (bigs & B1 & B2 & B3).
  { intros E. apply (f_equal (@List.length _)) in E. unfold lanes in E. rewrite map_length, seq_length in E. cbn in E. lia. }
  { intros x Hx. apply lanes_in in Hx as (i & Hi & ->). now apply lane_parts. }
  { apply Forall_forall. intros x Hx. apply lanes_in in Hx as (i & Hi & ->). destruct (lane_parts i Hi) as (_ & P & _). now apply plain_list_app in P. }
  { apply Forall_forall. intros x Hx. apply lanes_in in Hx as (i & Hi & ->). destruct (lane_parts i Hi) as (P & _). apply Forall_app in P as [P _].
    eapply Forall_impl; [|exact P]. intros s Hs. now apply wf_NoDup. }
  { intros x y Hx Hy. apply lanes_in in Hx as (i & Hi & ->). apply lanes_in in Hy as (j & Hj & ->). now apply Hal. }
  exists bigs. split; [|split; [exact B2|exact B3]].
  assert (En : exists n', n = S n') by (exists (pred n); lia). destruct En as [n' En].
  assert (LE : lanes = ax 0 :: map ax (seq 1 n')) by (unfold lanes; rewrite En; reflexivity).
  replace (vmap_init J o t ctor n ctxs w) with (vmap_init J o t ctor (S n') ctxs w) by (rewrite En; reflexivity).
  cbn [vmap_init]. rewrite lane_init by lia. f_equal.
  rewrite (rmapM_map _ (fun i => (d, (ax i, b, c)))).
  2:{ intros i Hi. apply in_seq in Hi. rewrite lane_init by lia. reflexivity. }
  cbn [rbind]. assert (PB : plain_st b /\ plain_st c).
  { destruct (lane_parts 0) as (_ & P & _); [lia|]. apply plain_list_app in P as [_ P]. inversion P as [|? ? P1 P2]; subst. inversion P2 as [|? ? P3 _]; subst. auto. }
  rewrite (proj2 (forallb_forall _ _)).
  2:{ intros x Hx. apply in_map_iff in Hx as (i & <- & _). cbn. destruct PB. now rewrite !state_eqb_refl. }
  rewrite map_map. cbn [fst snd]. change (map (fun x => ax x) (seq 1 n')) with (map ax (seq 1 n')). rewrite <- LE, B1. reflexivity.
Qed.

Theorem init_layers (Hb : w_nodes (lw 0) = w_nodes w) : exists bigs fin m w' U,
  vmap_init J o t ctor n ctxs w = (set_trace (lw 0) (w_trace w), Ok (d, (bigs, b, c))) /\ leave_axes o bigs = Ok fin /\
  merge (set_trace (lw 0) (w_trace w)) d (fin ++ [b; c]) = Ok (m, w') /\
  refilled_copy (lw 0) (lr 0) U (set_trace (lw 0) (w_trace w)) w' m /\
  partition_state U (o_filters o) = Ok (Many (fin ++ [b; c])) /\
  (forall i, i < n -> exists raw, Forall2 (fun sa small => is_slice J (snd (snd sa)) n i (fst sa) small) (combine fin (o_axes o)) raw /\ enter_axes o raw = Ok (ax i)) /\
  keys U = keys (st 0) /\
  (forall k a', dget k U = Some a' -> plain_attr a' /\ exists a, dget k (st 0) = Some a /\
     ((exists x, In x [b; c] /\ dget k x = Some a /\ a' = a) \/
      exists q fx s big, nth_error (o_axes o) q = Some fx /\ nth_error (ax 0) q = Some s /\ dget k s = Some a /\ same_kind a big /\ ff o (snd fx) big = Ok a')).
Proof.
  destruct vmap_lanes as (bigs & V & Lb & HS). exists bigs.
  assert (HX : forall q fx big, nth_error (o_axes o) q = Some fx -> nth_error bigs q = Some big ->
     exists s, nth_error (ax 0) q = Some s /\ alike s big /\ (forall k a, In (k, a) big -> exists a0, dget k s = Some a0 /\ same_kind a0 a) /\
       (forall k a, In (k, a) big -> plain_attr a /\ forall a0, dget k s = Some a0 -> cls_of_attr a = cls_of_attr a0)).
  { intros q fx big H1 H2. pose proof (HS q fx big H1 H2) as [S1 S2]. destruct (lane_parts 0 Hn) as (W & P & L0 & _).
    assert (q < List.length (ax 0)) as Hq by (rewrite L0; apply nth_error_Some; congruence).
    destruct (nth_error (ax 0) q) as [s|] eqn:Es; [|apply nth_error_None in Es; lia]. exists s. split; [reflexivity|].
    assert (AL : alike s big). { apply S1. apply in_map_iff. exists (ax 0). split; [now apply nth_error_nth|]. unfold lanes. apply in_map_iff. exists 0. split; [reflexivity|]. apply in_seq. lia. }
    split; [exact AL|]. apply Forall_app in W as [W _]. apply plain_list_app in P as [P _]. unfold plain_list in P. rewrite Forall_forall in W, P. specialize (W s (nth_error_In _ _ Es)). specialize (P s (nth_error_In _ _ Es)).
    rewrite Forall_forall in P. assert (NB : NoDup (keys big)) by (rewrite <- (alike_keys _ _ AL); now apply wf_NoDup).
    assert (G : forall k a, In (k, a) big -> exists a0, dget k s = Some a0 /\ same_kind a0 a).
    { intros k a I. destruct (alike_get _ _ k a (alike_sym _ _ AL) (In_dget _ _ _ NB I)) as (a0 & D & K). exists a0. split; [exact D|now apply same_kind_sym]. }
    split; [exact G|]. intros k a I. destruct (G k a I) as (a0 & D & K). pose proof (P _ (dget_In _ _ _ D)) as PA. cbn in PA.
    assert (VS : exists vs, val_of a = a_stack J (snd fx) vs).
    { destruct (S2 k (val_of a)) as (vs & _ & E); [exists a; split; [now apply In_dget|destruct a; reflexivity]|eauto]. }
    destruct VS as [vs VS]. destruct a0 as [v0|c0], a as [v|c1]; try contradiction.
    - cbn in VS. subst v. split.
      + split; [exact I0 || exact Logic.I|]. pose proof (ao_stack J HA (snd fx) vs) as N. cbn. destruct (a_stack J (snd fx) vs); auto. contradiction.
      + intros a1 D1. assert (a1 = ARaw v0) by congruence. subst a1. exact (Hraw 0 s k v0 (snd fx) vs Hn (nth_error_In _ _ Es) D).
    - destruct K as [K1 K2]. split.
      + split; [|reflexivity]. destruct PA as [PA _]. cbn in *. destruct c0, c1. cbn in *. subst. exact PA.
      + intros a1 D1. assert (a1 = ACont c0) by congruence. subst a1. cbn. auto. }
  destruct (columns J o n lanes HJ) with (axes := o_axes o) (j := 0) (bigs := bigs) as (fin & F1 & F2 & F3).
  { intros x s k a Hx Hs D. apply lanes_in in Hx as (i & Hi & ->). eapply Hval; eauto. }
  { intros E. apply (f_equal (@List.length _)) in E. unfold lanes in E. rewrite map_length, seq_length in E. cbn in E. lia. }
  { unfold lanes. now rewrite map_length, seq_length. }
  { intros x s Hx Hs. apply lanes_in in Hx as (i & Hi & ->). destruct (lane_parts i Hi) as (P & _). apply Forall_app in P as [P _]. rewrite Forall_forall in P. apply wf_NoDup. now apply P. }
  { exact Lb. }
  { intros x Hx. apply lanes_in in Hx as (i & Hi & ->). now apply lane_parts. }
  { intros q fx big H1 H2. split; [cbn; now apply HS|]. intros k a I. destruct (HX q fx big H1 H2) as (s & X1 & X2 & X3 & X4). destruct (X4 k a I) as [Pa Ca].
    unfold ff, gg. destruct (o_partition o) as [nm|] eqn:EP; [|now apply rt_id]. destruct (X3 k a I) as (a0 & D & K).
    destruct (Hsh ltac:(discriminate) 0 q s fx k a0 Hn X1 H1 (dget_In _ _ _ D)) as (Y1 & Y2 & Y3).
    apply rt_axis; auto.
    - destruct Y2 as [Y2 Y4]. split; [apply Pa|]. destruct a0 as [v0|c0], a as [v|c1]; try contradiction; [left; exact Logic.I|]. destruct K as [K1 K2].
      destruct Y4 as [Y4|(sh & c2 & Z1 & Z2 & Z3)]; [left; cbn in *; rewrite <- K1, <- K2; exact Y4|]. injection Z1 as <-. right. exists sh, c1. rewrite <- K1, <- K2. auto.
    - intros sh (c1 & -> & Z2 & Z3). destruct a0 as [v0|c0]; [contradiction|]. destruct K as [K1 K2]. apply Y3. exists c0. rewrite K1, K2. auto. }
  exists fin. assert (Lf : List.length fin = List.length (o_axes o)) by (rewrite <- Lb; symmetry; eapply Forall2_len; eauto).
  assert (LV : leave_axes o bigs = Ok fin) by (rewrite leave_alt by exact Lb; exact F1).
  destruct (lane_wf 0 Hn) as [W0 P0]. destruct (lane_parts 0 Hn) as (WP & PP & L0 & SUB0).
  (* the columns of the result against those of lane 0 *)
  assert (HF : forall q s f1, nth_error (ax 0) q = Some s -> nth_error fin q = Some f1 -> keys s = keys f1 /\
     forall k a', dget k f1 = Some a' -> plain_attr a' /\ exists a, dget k s = Some a /\ cls_of_attr a' = cls_of_attr a).
  { intros q s f1 H1 H2. assert (Hq : q < List.length (o_axes o)) by (rewrite <- L0; apply nth_error_Some; congruence).
    destruct (nth_error (o_axes o) q) as [fx|] eqn:E1; [|apply nth_error_None in E1; lia]. destruct (Forall2_nth2 _ _ _ _ _ F2 H2) as (big & E2 & [C1 C2]).
    destruct (HX q fx big E1 E2) as (s' & X1 & X2 & X3 & X4). assert (s' = s) by congruence. subst s'. split; [rewrite C1; now apply alike_keys|].
    intros k a' D. destruct (C2 k a' D) as (a & D1 & D2 & D3). split; [exact D3|]. destruct (X3 k a (dget_In _ _ _ D1)) as (a0 & D0 & K). exists a0. split; [exact D0|].
    rewrite D2. now apply (X4 k a (dget_In _ _ _ D1)). }
  assert (WF : Forall wf_state fin).
  { apply Forall_forall. intros f1 Hf. apply In_nth_error in Hf as [q Hq]. destruct (nth_error (ax 0) q) as [s|] eqn:E; [|apply nth_error_None in E; assert (q < List.length fin) by (apply nth_error_Some; congruence); lia].
    destruct (HF q s f1 E Hq) as [K _]. apply Forall_app in WP as [WP _]. rewrite Forall_forall in WP. eapply keys_inc_ext; [exact K|]. apply WP. eapply nth_error_In; eauto. }
  assert (WFbc : Forall wf_state (fin ++ [b; c])) by (apply Forall_app; split; [exact WF|]; now apply Forall_app in WP).
  (* every entry of the new States: where it is in lane 0 *)
  assert (HE : forall x k a', In x (fin ++ [b; c]) -> dget k x = Some a' -> plain_attr a' /\ exists a, dget k (st 0) = Some a /\ cls_of_attr a' = cls_of_attr a).
  { intros x k a' Hx D. apply in_app_iff in Hx as [Hx|Hx].
    - apply In_nth_error in Hx as [q Hq]. destruct (nth_error (ax 0) q) as [s|] eqn:E; [|apply nth_error_None in E; assert (q < List.length fin) by (apply nth_error_Some; congruence); lia].
      destruct (HF q s x E Hq) as [_ K]. destruct (K k a' D) as (Pa & a & Da & Ca). split; [exact Pa|]. exists a. split; [|exact Ca].
      apply (SUB0 s k a); [|exact Da]. apply in_app_iff. left. eapply nth_error_In; eauto.
    - assert (Hx' : In x (ax 0 ++ [b; c])) by (apply in_app_iff; now right). split; [|exists a'; split; [now apply (SUB0 x)|reflexivity]].
      unfold plain_list in PP. rewrite Forall_forall in PP. specialize (PP x Hx'). rewrite Forall_forall in PP. apply (PP (k, a')). now apply dget_In. }
  destruct (partition_again (st 0) (o_filters o) (ax 0 ++ [b; c]) (fin ++ [b; c]) W0) as [PU1 PU2].
  { apply (HL 0 Hn). }
  { exact WFbc. }
  { apply Forall2_app; [|repeat constructor]. assert (LE : List.length (ax 0) = List.length fin) by lia. clear - HF LE. revert HF LE. generalize (ax 0) as l. intros l. revert fin.
    induction l as [|s l IH]; intros [|f1 fin] HF LE; try discriminate; constructor.
    - apply (HF 0 s f1); reflexivity.
    - apply IH; [|cbn in LE; lia]. intros q s' f' H1 H2. exact (HF (S q) s' f' H1 H2). }
  { intros g k a a' Hg D L. assert (K : latest k (fin ++ [b; c]) <> None) by congruence.
    assert (HL' : exists x, In x (fin ++ [b; c]) /\ dget k x = Some a') by (change (latest k (fin ++ [b; c])) with (last_value k (fin ++ [b; c])) in L; now apply last_value_In in L).
    destruct HL' as (x & Hx & Dx). destruct (HE x k a' Hx Dx) as (_ & a1 & D1 & C1). assert (a1 = a) by congruence. subst a1.
    rewrite Forall_forall in Hbc. apply (Hbc g Hg). auto. }
  set (U := restate (st 0) (fin ++ [b; c])) in *.
  destruct (HL 0 Hn) as [M1 M2 M3 M4 M5 M6 M7].
  destruct (merge_refills (lw 0) (lr 0) d (st 0) (fin ++ [b; c]) U (set_trace (lw 0) (w_trace w))) as (m & w' & MG & RC); auto.
  { now apply set_trace_wf. }
  { apply restate_wf. exact W0. }
  { intros k a D. split; [rewrite <- (restate_keys (st 0) (fin ++ [b; c])); eapply dget_In_keys; exact D|].
    rewrite PU1 in D. change (latest k (fin ++ [b; c])) with (last_value k (fin ++ [b; c])) in D. apply last_value_In in D as (x & Hx & Dx).
    destruct (HE x k a Hx Dx) as ([P1 P2] & a0 & D0 & C0). split; [exact P1|]. split; [exact P2|].
    destruct (get_state_entries (lw 0) (lr 0) M2 M3 M4) as (s & path & G1 & _ & _ & G4 & _). assert (s = st 0) by congruence. subst s.
    apply G4 in D0 as (y & nm & _ & (ob & _ & _ & _ & tt & T1 & T2) & _). exists tt. split; [exact T1|]. now rewrite C0. }
  exists m, w', U. split; [exact V|]. split; [exact LV|]. split; [exact MG|]. split; [exact RC|]. split; [exact PU2|].
  split.
  { intros i Hi. destruct (F3 i (ax i)) as (raw & R1 & R2); [apply lanes_nth; auto|]. exists raw. split; [exact R1|].
    rewrite enter_alt; [exact R2|]. rewrite <- (Forall2_len _ _ _ R1), combine_length, Lf. lia. }
  split; [apply restate_keys|]. intros k a' D. rewrite PU1 in D. change (latest k (fin ++ [b; c])) with (last_value k (fin ++ [b; c])) in D. apply last_value_In in D as (x & Hx & Dx).
  split; [now apply (HE x k a' Hx)|]. apply in_app_iff in Hx as [Hx|Hx].
  - apply In_nth_error in Hx as [q Hq]. assert (Hql : q < List.length fin) by (apply nth_error_Some; congruence).
    destruct (nth_error (ax 0) q) as [s|] eqn:E; [|apply nth_error_None in E; lia].
    destruct (nth_error (o_axes o) q) as [fx|] eqn:E1; [|apply nth_error_None in E1; lia].
    destruct (on_axes_nth _ _ _ _ _ _ F1 Hq) as (fx' & big & B1 & B2 & B3). assert (fx' = fx) by congruence. subst fx'.
    apply state_map_rel in B3. destruct (HX q fx big E1 B2) as (s' & X1 & _ & X3 & _). assert (s' = s) by congruence. subst s'.
    assert (EB : exists a, In (k, a) big /\ ff o (snd fx) a = Ok a').
    { apply dget_In in Dx. clear - B3 Dx. induction B3 as [|[k1 a1] [k2 a2] l l' [Q1 Q2] Q IH]; [contradiction|]. destruct Dx as [[= -> ->]|Dx].
      - cbn in Q1, Q2. subst k1. exists a1. split; [now left|exact Q2].
      - destruct (IH Dx) as (a & I1 & I2). exists a. split; [now right|exact I2]. }
    destruct EB as (ab & I1 & I2). destruct (X3 k ab I1) as (a0 & D0 & K). exists a0. split; [apply (SUB0 s k a0); [apply in_app_iff; left; eapply nth_error_In; eauto|exact D0]|].
    right. exists q, fx, s, ab. auto.
  - exists a'. split; [apply (SUB0 x k a'); [apply in_app_iff; now right|exact Dx]|]. left. eauto.
Qed.
End Init.

(** the keys of a lane are those of a layer *)
Lemma dget_lane_keys p n pc i name : dget name (pc_keys (lane_keys p n pc i)) = dget name (pc_keys (step_keys p n pc i)).
Proof.
  rewrite dget_step_keys. cbn [lane_keys pc_keys]. induction (pc_keys pc) as [|[m k] l IH]; [reflexivity|].
  cbn. destruct (String.eqb_spec name m) as [->|]; [reflexivity|exact IH].
Qed.
Lemma merge_streams_ext ks ks' l ss : (forall name, dget name ks = dget name ks') -> merge_streams ks l ss = merge_streams ks' l ss.
Proof. intros H. revert ss. induction l as [|[name path] l IH]; intros ss; [reflexivity|]. cbn. rewrite H. destruct (dget name ks'); [now rewrite IH|reflexivity]. Qed.
Lemma lane_merge cur p n pc i ss : pctx_merge cur (lane_keys p n pc i) ss = pctx_merge cur (step_keys p n pc i) ss.
Proof. unfold pctx_merge. cbn [lane_keys step_keys pc_counts pc_flags]. erewrite merge_streams_ext; [reflexivity|]. intros name. apply (dget_lane_keys p n pc i). Qed.
Lemma lane_alone t p n pc i : alone t (lane_keys p n pc i) = alone t (step_keys p n pc i).
Proof. unfold alone. now rewrite lane_merge. Qed.

Lemma Forall2_nth_intro {A B} (R : A -> B -> Prop) : forall l l', List.length l = List.length l' ->
  (forall i x y, nth_error l i = Some x -> nth_error l' i = Some y -> R x y) -> Forall2 R l l'.
Proof.
  induction l as [|a l IH]; intros [|b l'] H HR; try discriminate; constructor.
  - now apply (HR 0).
  - apply IH; [cbn in H; lia|]. intros i x y. apply (HR (S i)).
Qed.
(** the whole of [scan_init] *)
Theorem scan_init_full :
  forall J o t ctor w ctx ss pc ss' n lw lr d st ax b c,
  arrays_ok J -> stack_slices J -> o_length o = Some n -> 0 < n -> (ctx <> None \/ o_axes o <> []) ->
  scan_ctx (w_trace w) (o_split o) ctx ss = (Ok pc, ss') ->
  (forall i, i < n -> layer_made o ctor (set_trace w t) (option_map (fun pp => lane_keys (snd pp) n (fst pp) i) pc)
                        (lw i) (lr i) d (st i) (ax i) b c) ->
  w_nodes (lw 0) = w_nodes w ->
  (forall i j, i < n -> j < n -> Forall2 alike (ax i) (ax j)) ->
  Forall by_class (o_filters o) ->
  (forall i s k a, i < n -> In s (ax i) -> dget k s = Some a -> not_module (val_of a)) ->
  (forall i s k v axis l, i < n -> In s (ax i) -> dget k s = Some (ARaw v) -> cls_of_attr (ARaw (a_stack J axis l)) = cls_of_attr (ARaw v)) ->
  (o_partition o <> None -> forall i j s fx k a, i < n -> nth_error (ax i) j = Some s -> nth_error (o_axes o) j = Some fx -> In (k, a) s ->
     (0 <= snd fx)%Z /\ (no_sharding a \/ exists sh, has_sharding a sh /\ Z.to_nat (snd fx) <= List.length sh)) ->
  exists fin m w' U,
    scan_init J o t ctor w ctx ss = (w', ss', Ok m) /\
    merge (set_trace (lw 0) (w_trace w)) d (fin ++ [b; c]) = Ok (m, w') /\
    refilled_copy (lw 0) (lr 0) U (set_trace (lw 0) (w_trace w)) w' m /\
    partition_state U (o_filters o) = Ok (Many (fin ++ [b; c])) /\
    (forall i, i < n -> exists raw, Forall2 (fun sa small => is_slice J (snd (snd sa)) n i (fst sa) small) (combine fin (o_axes o)) raw /\ enter_axes o raw = Ok (ax i)) /\
    keys U = keys (st 0) /\
    (forall k a', dget k U = Some a' -> plain_attr a' /\ exists a, dget k (st 0) = Some a /\
       ((exists x, In x [b; c] /\ dget k x = Some a /\ a' = a) \/
        exists q fx s big, nth_error (o_axes o) q = Some fx /\ nth_error (ax 0) q = Some s /\ dget k s = Some a /\ same_kind a big /\ ff o (snd fx) big = Ok a')) /\
    (exists bigs, leave_axes o bigs = Ok fin /\ Forall2 alike (ax 0) bigs /\
       forall q s k a, nth_error bigs q = Some s -> dget k s = Some a -> exists axis vs, val_of a = a_stack J axis vs).
Proof.
  intros J o t ctor w ctx ss pc ss' n lw lr d st ax b c HA HJ HL Hn Hcx HC HM Hnod Hal Hbc Hval Hraw Hsh.
  assert (Hsh' : o_partition o <> None -> forall i j s fx k a, i < n -> nth_error (ax i) j = Some s -> nth_error (o_axes o) j = Some fx -> In (k, a) s ->
     (0 <= snd fx)%Z /\ covered a /\ forall sh, has_sharding a sh -> Z.to_nat (snd fx) <= List.length sh).
  { intros HP i j s fx k a Hi Hj Hx I. destruct (Hsh HP i j s fx k a Hi Hj Hx I) as [H0 H1]. split; [exact H0|].
    destruct (HM i Hi) as [M1 M2 M3 M4 M5 M6 M7]. destruct (get_state_total (lw i) (lr i) M2 M3) as (s1 & G & Ws). assert (s1 = st i) by congruence. subst s1.
    destruct (partition_parts _ _ _ Ws (state_plain _ _ _ M2 M6) M7) as (_ & P & _). unfold plain_list in P. rewrite Forall_forall in P.
    assert (PS : plain_st s) by (apply P, in_app_iff; left; eapply nth_error_In; eauto). unfold plain_st in PS. rewrite Forall_forall in PS. destruct (PS _ I) as [W _]. cbn in W.
    destruct H1 as [H1|(sh & H1 & H2)]; [split; [split; [exact W|left; exact H1]|]|split; [split; [exact W|right; eauto]|]].
    - intros sh (c0 & -> & N1 & N2). cbn in H1. destruct H1 as [H1|[H1|H1]]; [contradiction|rewrite H1 in N2; discriminate|rewrite H1 in N2; discriminate].
    - intros sh' (c0 & -> & N1 & N2). destruct H1 as (c1 & E1 & E2 & E3). injection E1 as <-. rewrite N2 in E3. injection E3 as E3. pose proof (val_sharding_val sh) as V1. pose proof (val_sharding_val sh') as V2. congruence. }
  destruct (init_layers J o t ctor w n (fun i => option_map (fun pp => lane_keys (snd pp) n (fst pp) i) pc) lw lr d st ax b c
    HJ HA Hn HM Hal Hbc Hval Hraw Hsh' Hnod) as (bigs & fin & m & w' & U & V & LV & MG & RC & PU & SL & KU & EU).
  assert (AB : exists bigs, leave_axes o bigs = Ok fin /\ Forall2 alike (ax 0) bigs /\
       forall q s k a, nth_error bigs q = Some s -> dget k s = Some a -> exists axis vs, val_of a = a_stack J axis vs).
  { exists bigs. split; [exact LV|].
    destruct (vmap_lanes J o t ctor w n (fun i => option_map (fun pp => lane_keys (snd pp) n (fst pp) i) pc) lw lr d st ax b c Hn HM Hal) as (bigs' & V' & Lb & HS).
    assert (bigs' = bigs) by congruence. subst bigs'.
    destruct (lane_parts o t ctor w n (fun i => option_map (fun pp => lane_keys (snd pp) n (fst pp) i) pc) lw lr d st ax b c Hn HM 0 Hn) as (_ & _ & L0 & _).
    split.
    2:{ intros q y k a Hy Hk. destruct (nth_error (o_axes o) q) as [fx|] eqn:Ef; [|apply nth_error_None in Ef; assert (q < List.length bigs) by (apply nth_error_Some; congruence); lia].
        destruct (is_stack_val _ _ _ _ _ _ (HS q fx y Ef Hy) Hk) as (vs & _ & Ev). eauto. }
    apply Forall2_nth_intro; [congruence|]. intros q x y Hx Hy.
    destruct (nth_error (o_axes o) q) as [fx|] eqn:Ef; [|apply nth_error_None in Ef; assert (q < List.length (ax 0)) by (apply nth_error_Some; congruence); lia].
    destruct (HS q fx y Ef Hy) as [B1 _]. apply B1. unfold col, lanes. apply in_map_iff. exists (ax 0). split; [now apply nth_error_nth|].
    apply in_map_iff. exists 0. split; [reflexivity|]. apply in_seq. lia. }
  exists fin, m, w', U. split.
  { unfold scan_init. rewrite HL, HC.
    assert (E : match o_axes o with _ :: _ => true | [] => match pc with None => false | _ => true end end = true).
    { destruct (o_axes o); [|reflexivity]. destruct Hcx as [Hcx|Hcx]; [|congruence]. destruct ctx as [x|]; [|congruence]. cbn in HC.
      destruct (context_partition (w_trace w) x ss) as [[pc0|] ss1]; [|discriminate]. destruct (to_rng_predicate (o_split o)); [|discriminate]. cbn in HC. now injection HC as <- <-. }
    destruct (o_axes o) eqn:EA; destruct pc; try discriminate; cbv zeta; rewrite V; rewrite LV; cbn [rbind]; rewrite MG; reflexivity. }
  auto 8.
Qed.
