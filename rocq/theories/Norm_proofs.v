From Coq Require Import ZArith QArith Qcanon Lia.
From Verif Require Import PyBase ModuleM ContextM TensorM NnM Spec_Nn Tensor_proofs Dropout_proofs.
Local Open Scope string_scope.
Local Open Scope nat_scope.
Local Open Scope list_scope.

(** ** positions kept, the others replaced *)
Fixpoint maskv (v : nat) (f : nat -> bool) (i : nat) (s : list nat) : list nat :=
  match s with [] => [] | x :: t => (if f i then x else v) :: maskv v f (S i) t end.
Lemma length_maskv v f : forall s i, List.length (maskv v f i s) = List.length s.
Proof. induction s; cbn; auto. Qed.
Lemma nth_maskv v f : forall s i j, j < List.length s -> nth j (maskv v f i s) 0 = if f (i + j) then nth j s 0 else v.
Proof.
  induction s as [|x s IH]; intros i [|j] H; cbn in *; try lia; [now rewrite Nat.add_0_r|].
  rewrite IH by lia. now rewrite Nat.add_succ_r.
Qed.
Lemma select_ext f g : forall s i, (forall j, i <= j < i + List.length s -> f j = g j) -> select f i s = select g i s.
Proof.
  induction s as [|x s IH]; intros i H; cbn [select]; auto. cbn in H. rewrite (H i) by lia. rewrite (IH (S i)); auto. intros; apply H; lia.
Qed.
Lemma maskv_ext v f g : forall s i, (forall j, i <= j < i + List.length s -> f j = g j) -> maskv v f i s = maskv v g i s.
Proof.
  induction s as [|x s IH]; intros i H; cbn [maskv]; auto. cbn in H. rewrite (H i) by lia. rewrite (IH (S i)); auto. intros; apply H; lia.
Qed.
Lemma prod_maskv f : forall s i, prod (maskv 1 f i s) = prod (select f i s).
Proof.
  unfold prod. induction s as [|x s IH]; intros i; cbn [maskv select fold_right]; auto. rewrite IH. destruct (f i); cbn [fold_right]; lia.
Qed.
Lemma flat_maskv f : forall s i idx, List.length idx = List.length s ->
  flat_pos (maskv 1 f i s) (maskv 0 f i idx) = flat_pos (select f i s) (select f i idx).
Proof.
  induction s as [|x s IH]; intros i [|j idx] H; try discriminate; cbn [maskv select flat_pos]; auto.
  cbn in H. rewrite prod_maskv, IH by lia. destruct (f i); cbn [flat_pos]; lia.
Qed.
Lemma bcast_maskv f : forall s i idx, in_range s idx -> broadcast_idx (maskv 1 f i s) idx = maskv 0 f i idx.
Proof.
  intros s i idx H. revert i. induction H as [|j n idx s Hj H IH]; intros i; cbn [maskv broadcast_idx]; auto. rewrite IH. f_equal.
  destruct (f i); cbn; auto. destruct (Nat.eqb_spec n 1); auto. lia.
Qed.
Lemma select_range f : forall s i idx, in_range s idx -> in_range (select f i s) (select f i idx).
Proof.
  intros s i idx H. revert i. induction H as [|j n idx s Hj H IH]; intros i; cbn [select]; [constructor|].
  destruct (f i); [constructor; auto|]; apply IH.
Qed.
Lemma select_one a : forall s i, i <= a < i + List.length s -> select (fun j => Nat.eqb j a) i s = [nth (a - i) s 0].
Proof.
  induction s as [|x s IH]; intros i H; cbn [select List.length] in *; [lia|]. destruct (Nat.eqb_spec i a) as [->|E].
  - rewrite Nat.sub_diag. cbn [nth]. f_equal. clear.
    enough (G : forall s i, a < i -> select (fun j => Nat.eqb j a) i s = []) by (apply G; lia).
    induction s0 as [|x s' IH]; intros i Hi; cbn [select]; auto. destruct (Nat.eqb_spec i a); [lia|]. apply IH. lia.
  - rewrite IH by lia. replace (a - i) with (S (a - S i)) by lia. reflexivity.
Qed.

(** ** shapes of statistics and features *)
Definition good_axes (rank : nat) (l : list Z) : Prop := forall z, In z l -> (0 <= z < Z.of_nat rank)%Z.
Lemma good_valid rank l z : good_axes rank l -> In z l -> valid_axis rank z.
Proof. intros H Hz. apply H in Hz. unfold valid_axis. lia. Qed.
Lemma names_good rank l z i : good_axes rank l -> In z l -> i < rank -> names_axis rank z i = Z.eqb z (Z.of_nat i).
Proof.
  intros H Hz Hi. apply H in Hz. unfold names_axis. replace (Z.eqb (z + Z.of_nat rank) (Z.of_nat i)) with false; [apply orb_false_r|].
  symmetry. apply Z.eqb_neq. lia.
Qed.
Lemma stats_shape_eq rank l : forall s, List.length s = rank -> stats_shape rank l s = broadcast_shape s l.
Proof.
  induction l as [|z l IH]; intros s H; cbn [stats_shape broadcast_shape]; auto. rewrite H. destruct (py_index rank z); cbn [rbind]; auto.
  apply IH. now rewrite length_list_set.
Qed.
Lemma zmem_false i l : zmem i l = false <-> ~ In i l.
Proof.
  unfold zmem. split.
  - intros H Hi. assert (existsb (Z.eqb i) l = true) by (apply existsb_exists; exists i; split; auto; apply Z.eqb_refl). congruence.
  - intros H. destruct (existsb (Z.eqb i) l) eqn:E; auto. apply existsb_exists in E. destruct E as (x & Hx & E). apply Z.eqb_eq in E. subst. contradiction.
Qed.
Lemma stats_shape_ok s l : good_axes (List.length s) l ->
  stats_shape (List.length s) l s = Ok (maskv 1 (fun i => negb (zmem (Z.of_nat i) l)) 0 s).
Proof.
  intros H. rewrite stats_shape_eq by reflexivity. rewrite broadcast_shape_ok by (intros; eapply good_valid; eauto). f_equal.
  apply (nth_eq 0); rewrite length_set_axes; [now rewrite length_maskv|]. intros i Hi.
  rewrite nth_set_axes, nth_maskv by exact Hi. cbn [Nat.add].
  replace (existsb _ l) with (zmem (Z.of_nat i) l); [now destruct (zmem _ l)|]. unfold zmem.
  induction l as [|z l IH]; cbn [existsb]; auto. rewrite IH by (intros y Hy; apply H; now right). f_equal.
  rewrite (names_good (List.length s) (z :: l)) by (auto; now left). apply Z.eqb_sym.
Qed.
Lemma feature_shape_ok xs l : good_axes (List.length xs) l -> forall acc, List.length acc = List.length xs ->
  exists r, feature_shape (List.length xs) xs l acc = Ok r /\ List.length r = List.length xs /\
    forall i, i < List.length xs -> nth i r 0 = if zmem (Z.of_nat i) l then nth i xs 0 else nth i acc 0.
Proof.
  induction l as [|z l IH]; intros H acc Hl; cbn [feature_shape]; [exists acc; auto|].
  assert (Hz : (0 <= z < Z.of_nat (List.length xs))%Z) by (apply H; now left).
  destruct (py_index_valid (List.length xs) z) as (j & E & Hj & Hn); [unfold valid_axis; lia|]. rewrite E. cbn [rbind].
  destruct (IH (fun y Hy => H y (or_intror Hy)) (list_set j (nth j xs 0) acc)) as (r & Er & Hr & Hnth); [now rewrite length_list_set|].
  exists r. split; auto. split; auto. intros i Hi. rewrite Hnth by exact Hi. cbn [zmem existsb].
  fold (zmem (Z.of_nat i) l). rewrite nth_list_set by lia. pose proof (Hn i Hi) as Hni.
  rewrite (names_good (List.length xs) (z :: l)) in Hni by (auto; now left). rewrite Z.eqb_sym, Hni.
  destruct (Nat.eqb_spec i j) as [->|]; cbn [orb]; auto. now destruct (zmem _ l).
Qed.
Lemma nth_repeat1 r i : i < r -> nth i (repeat 1 r) 0 = 1.
Proof. intros H. rewrite (nth_indep _ 0 1) by now rewrite repeat_length. apply nth_repeat. Qed.
Lemma feature_shape_mask xs l : good_axes (List.length xs) l ->
  feature_shape (List.length xs) xs l (repeat 1 (List.length xs)) = Ok (maskv 1 (fun i => zmem (Z.of_nat i) l) 0 xs).
Proof.
  intros H. destruct (feature_shape_ok xs l H (repeat 1 (List.length xs))) as (r & E & Hl & Hn); [apply repeat_length|].
  rewrite E. f_equal. apply (nth_eq 0); rewrite Hl; [now rewrite length_maskv|]. intros i Hi. rewrite Hn, nth_maskv by exact Hi. cbn [Nat.add].
  destruct (zmem _ l); auto. now apply nth_repeat1.
Qed.

(** ** reshaping a vector over some axes and broadcasting it back *)
Lemma reshape_select t s f : t_shape t = select f 0 s ->
  exists r, reshape t (maskv 1 f 0 s) = Ok r /\ forall idx, in_range s idx -> t_at r (broadcast_idx (maskv 1 f 0 s) idx) = t_at t (select f 0 idx).
Proof.
  intros H. unfold reshape. rewrite H, prod_maskv, Nat.eqb_refl. eexists. split; [reflexivity|].
  intros idx Hr. cbn [t_at]. rewrite bcast_maskv by exact Hr. rewrite flat_maskv by now apply in_range_length.
  rewrite unflat_flat; auto. now apply select_range.
Qed.
Lemma reshape_vec t n s f : t_shape t = [n] -> n = prod (select f 0 s) ->
  exists r, reshape t (maskv 1 f 0 s) = Ok r /\
    forall idx, in_range s idx -> t_at r (broadcast_idx (maskv 1 f 0 s) idx) = t_at t [flat_pos (select f 0 s) (select f 0 idx)].
Proof.
  intros H Hn. unfold reshape. rewrite H, prod_maskv.
  replace (prod [n]) with n by (cbn; lia). rewrite Hn, Nat.eqb_refl. eexists. split; [reflexivity|].
  intros idx Hr. cbn [t_at]. rewrite bcast_maskv by exact Hr. rewrite flat_maskv by now apply in_range_length. f_equal.
  set (p := flat_pos _ _). cbn [unflat prod fold_right]. now rewrite Nat.div_1_r.
Qed.

(** value of an optional scale or bias *)
Definition opt_at (v : option tensor) (idx : list nat) (dflt : Qc) : Qc := match v with Some t => t_at t idx | None => dflt end.

Lemma normalize_eq rsqrt x mean var scale bias red feat eps :
  let rank := List.length (t_shape x) in
  let s := t_shape x in
  let fr := fun i => negb (zmem (Z.of_nat i) (canonicalize_axes rank red)) in
  let ff := fun i => zmem (Z.of_nat i) (canonicalize_axes rank feat) in
  good_axes rank (canonicalize_axes rank red) -> good_axes rank (canonicalize_axes rank feat) ->
  t_shape mean = select fr 0 s -> t_shape var = select fr 0 s ->
  (forall t, scale = Some t \/ bias = Some t -> t_shape t = [prod (select ff 0 s)]) ->
  exists y, normalize rsqrt x mean var scale bias red feat eps = Ok y /\ t_shape y = s /\
    forall idx, in_range s idx ->
      let f := [flat_pos (select ff 0 s) (select ff 0 idx)] in
      t_at y idx = ((t_at x idx - t_at mean (select fr 0 idx)) * (rsqrt (t_at var (select fr 0 idx) + eps) * opt_at scale f 1)
                    + opt_at bias f 0)%Qc.
Proof.
  intros rank s fr ff Hr Hf Hm Hv Hsb. unfold normalize. cbv zeta.
  destruct (reshape_select mean s fr Hm) as (m' & Em & Hm'). destruct (reshape_select var s fr Hv) as (v' & Ev & Hv').
  assert (E1 : stats_shape (List.length (t_shape x)) (canonicalize_axes (List.length (t_shape x)) red) (t_shape x) = Ok (maskv 1 fr 0 s))
    by (apply stats_shape_ok; exact Hr).
  assert (E2 : feature_shape (List.length (t_shape x)) (t_shape x) (canonicalize_axes (List.length (t_shape x)) feat) (repeat 1 (List.length (t_shape x)))
               = Ok (maskv 1 ff 0 s)) by (apply feature_shape_mask; exact Hf).
  rewrite E1. cbn [rbind]. rewrite Em. cbn [rbind]. rewrite Ev. cbn [rbind]. rewrite E2. cbn [rbind].
  assert (Ho : forall v, v = scale \/ v = bias -> exists o, opt_reshape v (maskv 1 ff 0 s) = Ok o /\
             forall idx, in_range s idx -> match o, v with Some o, Some v => t_at o (broadcast_idx (maskv 1 ff 0 s) idx) = t_at v [flat_pos (select ff 0 s) (select ff 0 idx)]
                                                   | None, None => True | _, _ => False end).
  { intros [t|] Hor; cbn [opt_reshape]; [|exists None; split; auto].
    destruct (reshape_vec t (prod (select ff 0 s)) s ff) as (o & Eo & H); [apply Hsb; destruct Hor; auto|reflexivity|].
    rewrite Eo. cbn [rbind]. exists (Some o). split; auto. }
  destruct (Ho scale (or_introl eq_refl)) as (sc & Es & Hs). destruct (Ho bias (or_intror eq_refl)) as (bi & Eb & Hb).
  rewrite Es. cbn [rbind]. rewrite Eb. cbn [rbind]. eexists. split; [reflexivity|]. split; [reflexivity|].
  intros idx Hidx. cbn [t_at]. specialize (Hs idx Hidx). specialize (Hb idx Hidx). rewrite Hm', Hv' by exact Hidx.
  destruct sc, scale; try contradiction; destruct bi, bias; try contradiction; cbn [opt_at]; rewrite ?Hs, ?Hb; ring.
Qed.

(** ** statistics *)
Lemma qmax0 q : (0 <= q)%Qc -> qmax 0 q = q.
Proof. intros H. unfold qmax. destruct (Qclt_le_dec 0 q) as [|H']; auto. now apply Qcle_antisym. Qed.

Lemma variance_eq {A} (f : A -> Qc) l : l <> [] ->
  (average (map (fun i => f i * f i) l) - average (map f l) * average (map f l) =
   average (map (fun i => (f i - average (map f l)) * (f i - average (map f l))) l))%Qc.
Proof.
  intros Hl. set (m := average (map f l)).
  assert (Hn : qnat (List.length l) <> 0%Qc) by (apply qnat_neq; destruct l; [congruence|discriminate]).
  assert (Hm : qsum (map f l) = (m * qnat (List.length l))%Qc).
  { unfold m, average. rewrite map_length. field. exact Hn. }
  assert (Hs : (qsum (map (fun i => (f i - m) * (f i - m)) l) =
                qsum (map (fun i => f i * f i) l) - (1 + 1) * m * qsum (map f l) + m * m * qnat (List.length l))%Qc).
  { rewrite <- (qsum_const (m * m)%Qc l). generalize m. clear. intros m. induction l as [|i l IH]; cbn [map qsum]; [ring|]. rewrite IH. ring. }
  unfold average. rewrite !map_length, Hs, Hm. field. exact Hn.
Qed.
Lemma variance_nonneg {A} (f : A -> Qc) l m : l <> [] -> (0 <= average (map (fun i => (f i - m) * (f i - m)) l))%Qc.
Proof.
  intros Hl. apply average_nonneg; [destruct l; [congruence|discriminate]|].
  intros x Hx. apply in_map_iff in Hx. destruct Hx as (i & <- & _). apply Qc_sq_nonneg.
Qed.

(** the statistics of the entries over an arbitrary index list *)
Lemma compute_stats_at x red k : fiber (t_shape x) red k <> [] ->
  let l := fiber (t_shape x) red k in
  t_at (fst (compute_stats x red)) k = average (map (t_at x) l) /\
  t_at (snd (compute_stats x red)) k =
    average (map (fun i => (t_at x i - average (map (t_at x) l)) * (t_at x i - average (map (t_at x) l)))%Qc l).
Proof.
  intros Hl l. unfold compute_stats. cbn [fst snd t_at mean_over t_shape]. split; [reflexivity|]. fold l.
  rewrite variance_eq by exact Hl. apply qmax0. now apply variance_nonneg.
Qed.

Lemma fiber_in s red k idx : In idx (fiber s red k) <-> in_range s idx /\ kept red idx = k.
Proof.
  unfold fiber. rewrite filter_In, in_all_idx. unfold nlist_eqb. destruct (list_eq_dec Nat.eq_dec (kept red idx) k); intuition congruence.
Qed.
