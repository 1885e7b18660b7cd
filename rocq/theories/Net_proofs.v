(** Net_proofs: proofs about whole networks. *)
From Coq Require Import ZArith QArith Qcanon Lia.
From Verif Require Import PyBase PyBaseFacts ModuleM ContextM TensorM NnM LinearM HelpersM NetM Spec_Nn Spec_Linear Spec_Conv Spec_Net
  Tensor_proofs Dropout_proofs BatchNorm_proofs LayerNorm_proofs Conv_proofs Prop_Linear.
Local Open Scope string_scope.
Local Open Scope nat_scope.
Local Open Scope list_scope.

Lemma list_set_same {A} : forall (l : list A) i x, nth_error l i = Some x -> list_set i x l = l.
Proof. induction l as [|a l IH]; intros [|i] x H; cbn in *; try discriminate; [congruence|]. f_equal. now apply IH. Qed.

(** ** evaluation mode changes nothing *)
Lemma eval_then ctx bns a b : eval_mode ctx bns (NThen a b) -> eval_mode ctx bns a /\ eval_mode ctx bns b.
Proof.
  intros (Hd & Hb). cbn [layers] in *. split; split; intros;
    try (eapply Hb; [apply in_or_app; eauto|eauto]); try (eapply Hd; apply in_or_app; eauto).
Qed.
Lemma layer_pure rsqrt bns l x : exists r, forall blake bern cur ctx ss, eval_mode ctx bns (NLayer l) ->
  layer_call blake bern cur rsqrt ctx l x bns ss = (bns, ss, r).
Proof.
  destruct l as [l|c|d|i|l|g]; cbn [layer_call].
  - eexists. intros. reflexivity.
  - eexists. intros. reflexivity.
  - exists (Ok x). intros blake bern cur ctx ss (Hd & _). specialize (Hd d (or_introl eq_refl)).
    unfold dropout_call. now rewrite first_from_flag, Hd, orb_true_r.
  - destruct (nth_error bns i) as [b|] eqn:Hb; [|eexists; intros; reflexivity].
    exists (bn_norm rsqrt b x (bn_mean b) (bn_var b)). intros blake bern cur ctx ss (_ & H). specialize (H i b (or_introl eq_refl) Hb).
    unfold bn_call. rewrite first_from_flag, H. now rewrite list_set_same.
  - eexists. intros. reflexivity.
  - eexists. intros. reflexivity.
Qed.
Lemma net_pure rsqrt bns : forall n x, exists r, forall blake bern cur ctx ss, eval_mode ctx bns n ->
  net_call blake bern cur rsqrt ctx n x bns ss = (bns, ss, r).
Proof.
  induction n as [|l|a IHa b IHb|a IHa b IHb]; intros x; cbn [net_call].
  - eexists. intros. reflexivity.
  - apply layer_pure.
  - destruct (IHa x) as ([y|e] & Ha).
    + destruct (IHb y) as (r & Hb). exists r. intros blake bern cur ctx ss H. apply eval_then in H. destruct H as (H1 & H2). rewrite Ha by exact H1. now apply Hb.
    + exists (Err e). intros blake bern cur ctx ss H. apply eval_then in H. now rewrite Ha.
  - destruct (IHa x) as ([y|e] & Ha).
    + destruct (IHb x) as ([z|e] & Hb).
      * eexists. intros blake bern cur ctx ss H. apply eval_then in H. destruct H as (H1 & H2). rewrite Ha, Hb by assumption. reflexivity.
      * exists (Err e). intros blake bern cur ctx ss H. apply eval_then in H. destruct H as (H1 & H2). now rewrite Ha, Hb.
    + exists (Err e). intros blake bern cur ctx ss H. apply eval_then in H. now rewrite Ha.
Qed.

(** ** examples of a batch *)
Lemma in_snoc s k idx : in_range (s ++ [k]) idx -> exists b f, idx = b ++ [f] /\ in_range s b /\ f < k.
Proof.
  intros H. apply Forall2_app_inv_r in H. destruct H as (b & t & Hb & Ht & ->). inversion Ht as [|f ? t' ? Hf Ht']; subst. inversion Ht'; subst. eauto.
Qed.

Lemma linear_row i o l bs x n j x' n' j' : linear_wf i o l -> batch_of n (bs ++ [i]) x -> batch_of n' (bs ++ [i]) x' -> j < n -> j' < n' ->
  same_example (bs ++ [i]) x j x' j' ->
  exists y y', linear_call l x = Ok y /\ linear_call l x' = Ok y' /\ batch_of n (bs ++ [o]) y /\ batch_of n' (bs ++ [o]) y' /\ same_example (bs ++ [o]) y j y' j'.
Proof.
  intros Hw Hx Hx' Hj Hj' Hag.
  destruct (C63_linear i o l x (n :: bs) Hw Hx) as (y & E & Hs & H). destruct (C63_linear i o l x' (n' :: bs) Hw Hx') as (y' & E' & Hs' & H').
  exists y, y'. do 4 (split; [assumption|]). intros idx Hidx. apply in_snoc in Hidx. destruct Hidx as (b & f & -> & Hb & Hf).
  specialize (H (j :: b) f ltac:(constructor; assumption) Hf). specialize (H' (j' :: b) f ltac:(constructor; assumption) Hf).
  cbn [app] in H, H'. rewrite H, H'. unfold affine. f_equal. apply qsum_ext. intros k Hk. apply in_seq in Hk. f_equal. apply Hag.
  apply in_range_app; auto. constructor; [lia|constructor].
Qed.

Lemma conv_same c x x' s : List.length s = S (List.length (cv_ks c)) -> Forall (fun n => 0 < n) (cv_ks c) ->
  t_shape x = s -> t_shape x' = s -> (forall t, in_range s t -> t_at x t = t_at x' t) ->
  rel_result (fun y y' => t_shape y = t_shape y' /\ forall t, in_range (t_shape y) t -> t_at y t = t_at y' t) (conv_call c x) (conv_call c x').
Proof.
  intros Hr Hp Hs Hs' Hag. rewrite (conv_call_core c x [] s Hs Hr Hp), (conv_call_core c x' [] s Hs' Hr Hp).
  destruct (flatten_ok x [] s Hs) as (x1 & E1 & Hs1 & H1). destruct (flatten_ok x' [] s Hs') as (x2 & E2 & Hs2 & H2).
  rewrite E1, E2. cbn [rbind].
  assert (Hsl : sliced 1 0 x1 x2).
  { exists s. split; auto. split; auto. split; [lia|]. intros t Ht.
    specialize (H1 [] t ltac:(constructor) Ht). specialize (H2 [] t ltac:(constructor) Ht). cbn [flat_pos app] in H1, H2. rewrite H1, H2. now apply Hag. }
  apply (sliced_core c) in Hsl.
  destruct (conv_core c x1) as [y1|e], (conv_core c x2) as [y2|e']; cbn [rel_result rbind] in *; try contradiction; auto.
  destruct Hsl as (os & Hy1 & Hy2 & Hn & Hy).
  destruct (unflatten_ok y1 [] os Hy1) as (z1 & F1 & Hz1 & G1). destruct (unflatten_ok y2 [] os Hy2) as (z2 & F2 & Hz2 & G2).
  rewrite F1, F2. cbn [rel_result app] in *. rewrite Hz1, Hz2. split; auto. intros t Ht.
  specialize (G1 [] t ltac:(constructor) Ht). specialize (G2 [] t ltac:(constructor) Ht). cbn [app flat_pos] in G1, G2. rewrite G1, G2. now apply Hy.
Qed.
Lemma conv_row c s s' x n j x' n' j' : List.length s = S (List.length (cv_ks c)) -> Forall (fun n => 0 < n) (cv_ks c) ->
  (forall x, t_shape x = s -> exists y, conv_call c x = Ok y /\ t_shape y = s') ->
  batch_of n s x -> batch_of n' s x' -> j < n -> j' < n' -> same_example s x j x' j' ->
  exists y y', conv_call c x = Ok y /\ conv_call c x' = Ok y' /\ batch_of n s' y /\ batch_of n' s' y' /\ same_example s' y j y' j'.
Proof.
  intros Hr Hp Hacc Hx Hx' Hj Hj' Hag.
  pose proof (conv_batched c x [n] s [j] Hx Hr Hp ltac:(repeat constructor; assumption)) as B.
  pose proof (conv_batched c x' [n'] s [j'] Hx' Hr Hp ltac:(repeat constructor; assumption)) as B'.
  pose proof (conv_same c (example_at x [j] s) (example_at x' [j'] s) s Hr Hp eq_refl eq_refl ltac:(intros t Ht; now apply Hag)) as E.
  destruct (Hacc (example_at x [j] s) eq_refl) as (u & Eu & Hu). destruct (Hacc (example_at x' [j'] s) eq_refl) as (u' & Eu' & Hu').
  rewrite Eu, Eu' in *. destruct (conv_call c x) as [y|e]; [|contradiction]. destruct (conv_call c x') as [y'|e]; [|contradiction].
  cbn [rel_result app] in *. destruct B as (Sy & B), B' as (Sy' & B'), E as (_ & E). rewrite Hu, Hu' in *.
  exists y, y'. do 4 (split; [reflexivity || assumption|]). intros idx Hidx. rewrite B, B' by assumption. now apply E.
Qed.

Lemma bn_row rsqrt bns i b k s ctx x n j x' n' j' : nth_error bns i = Some b -> bn_wf k b -> Forall (fun m => 0 < m) s ->
  valid_axis (S (List.length s)) (bn_axis b) -> axis_of (S (List.length s)) (bn_axis b) <> 0 ->
  nth (axis_of (S (List.length s)) (bn_axis b) - 1) s 0 = k ->
  flag_of None (bn_ura b) ctx "use_running_average" = Some true ->
  batch_of n s x -> batch_of n' s x' -> j < n -> j' < n' -> same_example s x j x' j' ->
  exists y y', bn_call rsqrt b x None ctx = (b, Ok y) /\ bn_call rsqrt b x' None ctx = (b, Ok y') /\
    batch_of n s y /\ batch_of n' s y' /\ same_example s y j y' j'.
Proof.
  intros Hb Hw Hpos Hv Ha Hk Hfl Hx Hx' Hj Hj' Hag. unfold batch_of in *.
  assert (Hfit : forall z m q, t_shape z = m :: s -> q < m -> bn_fits k b z).
  { intros z m q Hz Hq. unfold bn_fits. rewrite Hz. cbn [List.length]. split; [exact Hv|]. split; [|constructor; [lia|exact Hpos]].
    destruct (axis_of (S (List.length s)) (bn_axis b)) as [|a]; [congruence|]. cbn [nth]. rewrite <- Hk. f_equal. lia. }
  destruct (bn_eval rsqrt k b x None ctx Hw (Hfit x n j Hx Hj) Hfl) as (y & E & Hs & H).
  destruct (bn_eval rsqrt k b x' None ctx Hw (Hfit x' n' j' Hx' Hj') Hfl) as (y' & E' & Hs' & H').
  exists y, y'. split; auto. split; auto. split; [congruence|]. split; [congruence|]. intros idx Hidx.
  rewrite H by (rewrite Hx; constructor; assumption). rewrite H' by (rewrite Hx'; constructor; assumption).
  rewrite Hx, Hx', (Hag idx Hidx). cbn [List.length].
  destruct (axis_of (S (List.length s)) (bn_axis b)) as [|a]; [congruence|]. reflexivity.
Qed.

(** LayerNorm *)
Lemma names_zero rank d : valid_axis rank d -> axis_of rank d <> 0 -> names_axis rank d 0 = false.
Proof.
  unfold valid_axis, axis_of, names_axis. intros Hv Ha. apply orb_false_iff. rewrite !Z.eqb_neq.
  destruct (d <? 0)%Z eqn:E; [apply Z.ltb_lt in E|apply Z.ltb_ge in E]; split; intros H; apply Ha; lia.
Qed.
Lemma same_rowb_cons red i j idx t : (forall d, In d red -> names_axis (S (List.length idx)) d 0 = false) ->
  same_rowb red (i :: idx) (j :: t) = (Nat.eqb i j && same_rowb red (0 :: idx) (0 :: t))%bool.
Proof.
  intros H. unfold same_rowb. cbn [List.length seq forallb nth].
  assert (E : existsb (fun d => names_axis (S (List.length idx)) d 0) red = false).
  { destruct (existsb _ _) eqn:E; auto. apply existsb_exists in E. destruct E as (d & Hd & E). rewrite H in E by exact Hd. discriminate. }
  rewrite E. cbn [orb Nat.eqb]. destruct (Nat.eqb i j); auto. cbn [andb].
  apply Bool.eq_true_iff_eq. rewrite !forallb_forall. split; intros G k Hk; specialize (G k Hk); apply in_seq in Hk; destruct k as [|k]; try lia; exact G.
Qed.
Lemma filter_map_cons j f (l : list (list nat)) : filter f (map (cons j) l) = map (cons j) (filter (fun t => f (j :: t)) l).
Proof. induction l as [|a l IH]; cbn; auto. destruct (f (j :: a)); cbn; now rewrite IH. Qed.
Lemma filter_flat_map {A B} (f : B -> bool) (g : A -> list B) l : filter f (flat_map g l) = flat_map (fun a => filter f (g a)) l.
Proof. induction l as [|a l IH]; cbn; auto. now rewrite filter_app, IH. Qed.
Lemma flat_map_one {A} (g : nat -> list A) i : forall m a, a <= i < a + m -> (forall j, j <> i -> g j = []) -> flat_map g (seq a m) = g i.
Proof.
  induction m as [|m IH]; intros a Hi H; [lia|]. cbn [seq flat_map]. destruct (Nat.eq_dec a i) as [->|Hne].
  - assert (E : flat_map g (seq (S i) m) = []).
    { clear IH Hi. assert (forall k, In k (seq (S i) m) -> g k = []) by (intros k Hk; apply in_seq in Hk; apply H; lia).
      induction (seq (S i) m) as [|q l IHl]; cbn; auto. rewrite H0 by now left. apply IHl. intros k Hk. apply H0. now right. }
    rewrite E, app_nil_r. reflexivity.
  - rewrite (H a Hne). cbn [app]. apply IH; auto. lia.
Qed.
Lemma all_idx_cons n s : all_idx (n :: s) = flat_map (fun j => map (cons j) (all_idx s)) (seq 0 n).
Proof. reflexivity. Qed.
Lemma filter_const_false {A} (l : list A) (f : A -> bool) : (forall a, In a l -> f a = false) -> filter f l = [].
Proof. induction l as [|a l IH]; intros H; cbn; auto. rewrite H by now left. apply IH. intros b Hb. apply H. now right. Qed.
Lemma row_batch x n s red i idx : batch_of n s x -> i < n -> List.length idx = List.length s ->
  (forall d, In d red -> names_axis (S (List.length s)) d 0 = false) ->
  row x red (i :: idx) = map (fun t => t_at x (i :: t)) (filter (fun t => same_rowb red (0 :: idx) (0 :: t)) (all_idx s)).
Proof.
  intros Hx Hi Hl H. unfold row. rewrite Hx, all_idx_cons, filter_flat_map, (flat_map_one _ i).
  - rewrite filter_map_cons, map_map. f_equal. apply filter_ext. intros t. rewrite same_rowb_cons by (rewrite Hl; exact H). now rewrite Nat.eqb_refl.
  - lia.
  - intros j Hj. rewrite filter_map_cons, filter_const_false; auto. intros t _. rewrite same_rowb_cons by (rewrite Hl; exact H).
    replace (Nat.eqb i j) with false by (symmetry; apply Nat.eqb_neq; congruence). reflexivity.
Qed.
Lemma ln_row rsqrt l d k s x n j x' n' j' :
  axes_ok (S (List.length s)) (ln_red l) -> (forall a, In a (ln_red l) -> axis_of (S (List.length s)) a <> 0) ->
  ln_feat l = [d] -> valid_axis (S (List.length s)) d -> axis_of (S (List.length s)) d <> 0 ->
  nth (axis_of (S (List.length s)) d - 1) s 0 = k -> ln_wf k l ->
  batch_of n s x -> batch_of n' s x' -> j < n -> j' < n' -> same_example s x j x' j' ->
  exists y y', ln_call rsqrt l x = Ok y /\ ln_call rsqrt l x' = Ok y' /\ batch_of n s y /\ batch_of n' s y' /\ same_example s y j y' j'.
Proof.
  intros Hax Hnz Hfe Hd Ha Hk Hw Hx Hx' Hj Hj' Hag.
  assert (Hn : forall m, nth (axis_of (S (List.length s)) d) (m :: s) 0 = k).
  { intros m. destruct (axis_of _ d) as [|a]; [congruence|]. cbn [nth]. rewrite <- Hk. f_equal. lia. }
  destruct (layernorm_ok rsqrt l x k d) as (y & E & Hs & H); try (rewrite Hx; cbn [List.length]); auto.
  destruct (layernorm_ok rsqrt l x' k d) as (y' & E' & Hs' & H'); try (rewrite Hx'; cbn [List.length]); auto.
  exists y, y'. split; auto. split; auto. split; [unfold batch_of; congruence|]. split; [unfold batch_of; congruence|]. intros idx Hidx.
  rewrite H by (rewrite Hx; constructor; assumption). rewrite H' by (rewrite Hx'; constructor; assumption).
  assert (Hr : row x (ln_red l) (j :: idx) = row x' (ln_red l) (j' :: idx)).
  { assert (Hz : forall a, In a (ln_red l) -> names_axis (S (List.length s)) a 0 = false) by (intros a Hin; apply names_zero; [apply Hax|]; auto).
    rewrite (row_batch x n s), (row_batch x' n' s) by (auto; now apply in_range_length).
    apply map_ext_in. intros t Ht. apply filter_In in Ht. apply Hag. now apply in_all_idx. }
  rewrite Hr, Hx, Hx', (Hag idx Hidx). cbn [List.length]. destruct (axis_of _ d) as [|a]; [congruence|]. reflexivity.
Qed.

Lemma layer_row blake bern cur rsqrt ctx bns l s s' x n i x' n' i' ss :
  layer_ok bns l s s' -> eval_mode ctx bns (NLayer l) -> batch_of n s x -> batch_of n' s x' -> i < n -> i' < n' -> same_example s x i x' i' ->
  exists y y', layer_call blake bern cur rsqrt ctx l x bns ss = (bns, ss, Ok y) /\ layer_call blake bern cur rsqrt ctx l x' bns ss = (bns, ss, Ok y') /\
    batch_of n s' y /\ batch_of n' s' y' /\ same_example s' y i y' i'.
Proof.
  intros Hok (Hd & Hb) Hx Hx' Hi Hi' Hag. destruct Hok; cbn [layer_call].
  - destruct (linear_row i0 o l bs x n i x' n' i' H Hx Hx' Hi Hi' Hag) as (y & y' & -> & -> & R). exists y, y'. auto.
  - destruct (conv_row c s s' x n i x' n' i' H H0 H1 Hx Hx' Hi Hi' Hag) as (y & y' & -> & -> & R). exists y, y'. auto.
  - specialize (Hd d (or_introl eq_refl)). unfold dropout_call. rewrite first_from_flag, Hd, orb_true_r. exists x, x'. auto.
  - rewrite H. specialize (Hb i0 b (or_introl eq_refl) H).
    destruct (bn_row rsqrt bns i0 b n0 s ctx x n i x' n' i' H H0 H1 H2 H3 H4 Hb Hx Hx' Hi Hi' Hag) as (y & y' & -> & -> & R).
    rewrite list_set_same by exact H. exists y, y'. auto.
  - destruct (ln_row rsqrt l d n0 s x n i x' n' i' H H0 H1 H2 H3 H4 (conj H5 H6) Hx Hx' Hi Hi' Hag) as (y & y' & -> & -> & R). exists y, y'. auto.
  - eexists. eexists. split; [reflexivity|]. split; [reflexivity|]. split; [exact Hx|]. split; [exact Hx'|]. intros idx Hidx. cbn [t_at]. now rewrite Hag.
Qed.
Lemma net_row blake bern cur rsqrt ctx bns ss i i' n n' : i < n -> i' < n' -> forall m s s', net_ok bns m s s' -> eval_mode ctx bns m ->
  forall x x', batch_of n s x -> batch_of n' s x' -> same_example s x i x' i' ->
  exists y y', net_call blake bern cur rsqrt ctx m x bns ss = (bns, ss, Ok y) /\ net_call blake bern cur rsqrt ctx m x' bns ss = (bns, ss, Ok y') /\
    batch_of n s' y /\ batch_of n' s' y' /\ same_example s' y i y' i'.
Proof.
  intros Hi Hi' m s s' Hok. induction Hok as [s|l s s' Hl|a b s t u Ha IHa Hb IHb|a b s t Ha IHa Hb IHb]; intros He x x' Hx Hx' Hag; cbn [net_call].
  - exists x, x'. auto.
  - now apply layer_row with (s := s).
  - apply eval_then in He. destruct He as (Ea & Eb). destruct (IHa Ea x x' Hx Hx' Hag) as (y & y' & E & E' & Hy & Hy' & R).
    rewrite E, E'. now apply IHb.
  - apply eval_then in He. destruct He as (Ea & Eb). destruct (IHa Ea x x' Hx Hx' Hag) as (y & y' & E & E' & Hy & Hy' & R).
    destruct (IHb Eb x x' Hx Hx' Hag) as (z & z' & F & F' & Hz & Hz' & Q). rewrite E, E', F, F'. unfold add_same.
    destruct (list_eq_dec _ _ _) as [_|Hne]; [|exfalso; apply Hne; unfold batch_of in *; congruence].
    destruct (list_eq_dec _ _ _) as [_|Hne]; [|exfalso; apply Hne; unfold batch_of in *; congruence].
    eexists. eexists. split; [reflexivity|]. split; [reflexivity|]. split; [exact Hy|]. split; [exact Hy'|].
    intros idx Hidx. cbn [t_at]. now rewrite R, Q.
Qed.

(** ** any mode: the streams *)
Definition moved (c : context) (k : nat -> nat) (ss ss' : list stream) : Prop :=
  List.length ss' = List.length ss /\
  forall i s, nth_error ss i = Some s -> nth_error ss' i = Some (mkStream (s_key s) (s_count s + k i) (s_path s)).
Definition layer_draws (c : context) (l : nlayer) (i : nat) : nat := draws c (NLayer l) i.
Lemma draws_app c a b i : draws c (NThen a b) i = draws c a i + draws c b i.
Proof. unfold draws. cbn [layers]. now rewrite filter_app, app_length. Qed.
Lemma moved_zero c ss : moved c (fun _ => 0) ss ss.
Proof. split; auto. intros i [k n p] H. cbn. now rewrite Nat.add_0_r. Qed.
Lemma moved_trans c k k' ss ss1 ss2 : moved c k ss ss1 -> moved c k' ss1 ss2 -> moved c (fun i => k i + k' i) ss ss2.
Proof.
  intros (L & H) (L' & H'). split; [congruence|]. intros i s Hs. apply H in Hs. apply H' in Hs. cbn in Hs. rewrite Hs. now rewrite Nat.add_assoc.
Qed.
Lemma moved_ext c k k' ss ss' : (forall i, k i = k' i) -> moved c k ss ss' -> moved c k' ss ss'.
Proof. intros E (L & H). split; auto. intros i s Hs. rewrite <- E. auto. Qed.
Lemma layer_moved blake bern cur rsqrt c bns l x ss bns' ss' r : layer_call blake bern cur rsqrt (Some c) l x bns ss = (bns', ss', r) ->
  exists k, moved c k ss ss' /\ (forall i, k i <= draws c (NLayer l) i) /\ (forall y, r = Ok y -> forall i, k i = draws c (NLayer l) i).
Proof.
  destruct l as [l|cv|d|i|l|g]; cbn [layer_call]; intros E;
    try (injection E as <- <- <-; exists (fun _ => 0); split; [apply moved_zero|]; split; [intros; lia|reflexivity]).
  - destruct (dropout_call blake bern cur d x None (Some c) ss) as [r0 ss0] eqn:Ed. injection E as <- <- <-.
    unfold draws. cbn [layers filter]. unfold dropout_call in Ed. rewrite first_from_flag in Ed. unfold samples.
    destruct (flag_of None (d_det d) (Some c) "deterministic") as [[|]|].
    + rewrite orb_true_r in Ed. injection Ed as <- <-. exists (fun _ => 0). split; [apply moved_zero|]. split; [intros; cbn; lia|reflexivity].
    + rewrite orb_false_r in Ed. destruct (Qc_eq_bool (d_rate d) 0) eqn:E0.
      { injection Ed as <- <-. exists (fun _ => 0). split; [apply moved_zero|]. split; [intros; cbn; lia|reflexivity]. }
      destruct (Qc_eq_bool (d_rate d) 1) eqn:E1.
      { injection Ed as <- <-. exists (fun _ => 0). split; [apply moved_zero|]. split; [intros; cbn; lia|reflexivity]. }
      cbn [negb andb]. unfold make_rng in Ed. destruct (dget (d_coll d) (x_rngs c)) as [j|] eqn:Ej.
      * destruct (trace_ok cur (x_trace c)); cbn [negb] in Ed;
          [|injection Ed as <- <-; exists (fun _ => 0); split; [apply moved_zero|]; split; [intros; lia|discriminate]].
        destruct (nth_error ss j) as [s|] eqn:Es;
          [|injection Ed as <- <-; exists (fun _ => 0); split; [apply moved_zero|]; split; [intros; lia|discriminate]].
        assert (Hmv : moved c (fun i => if Nat.eqb i j then 1 else 0) ss (list_set j (bump s) ss)).
        { split; [apply length_list_set|]. intros i si Hi. destruct (Nat.eqb i j) eqn:Eij.
          - apply Nat.eqb_eq in Eij. subst i. rewrite nth_list_set_same by (apply nth_error_Some; congruence). rewrite Es in Hi. injection Hi as <-. unfold bump. now rewrite Nat.add_1_r.
          - apply Nat.eqb_neq in Eij. rewrite nth_list_set_other by congruence. rewrite Hi. destruct si. cbn. now rewrite Nat.add_0_r. }
        destruct (broadcast_shape (t_shape x) (d_broadcast d)); injection Ed as <- <-;
          (eexists; split; [exact Hmv|]; split; intros; destruct (Nat.eqb _ j); cbn; auto).
      * injection Ed as <- <-. exists (fun _ => 0). split; [apply moved_zero|]. split; [intros; lia|discriminate].
    + injection Ed as <- <-. exists (fun _ => 0). split; [apply moved_zero|]. split; [intros; cbn; lia|discriminate].
  - destruct (nth_error bns i) as [b|]; [destruct (bn_call rsqrt b x None (Some c)) as [b' r']|]; injection E as <- <- <-;
      exists (fun _ => 0); (split; [apply moved_zero|]); (split; [intros; lia|reflexivity]).
Qed.
Lemma net_moved blake bern cur rsqrt c : forall m x bns ss bns' ss' r, net_call blake bern cur rsqrt (Some c) m x bns ss = (bns', ss', r) ->
  exists k, moved c k ss ss' /\ (forall i, k i <= draws c m i) /\ (forall y, r = Ok y -> forall i, k i = draws c m i).
Proof.
  induction m as [|l|a IHa b IHb|a IHa b IHb]; intros x bns ss bns' ss' r E; cbn [net_call] in E.
  - injection E as <- <- <-. exists (fun _ => 0). split; [apply moved_zero|]. split; [intros; lia|reflexivity].
  - eapply layer_moved; eauto.
  - destruct (net_call _ _ _ _ _ a x bns ss) as [[bns1 ss1] [y|e]] eqn:Ea.
    + destruct (IHa _ _ _ _ _ _ Ea) as (k & Hm & _ & Hk). destruct (IHb _ _ _ _ _ _ E) as (k' & Hm' & Hle' & Hk').
      exists (fun i => k i + k' i). split; [eapply moved_trans; eauto|]. split.
      * intros i. rewrite draws_app. specialize (Hle' i). rewrite (Hk y eq_refl i). lia.
      * intros z -> i. rewrite draws_app, (Hk y eq_refl i), (Hk' z eq_refl i). reflexivity.
    + injection E as <- <- <-. destruct (IHa _ _ _ _ _ _ Ea) as (k & Hm & Hle & _). exists k. split; auto. split; [|discriminate].
      intros i. rewrite draws_app. specialize (Hle i). lia.
  - change (draws c (NSum a b)) with (draws c (NThen a b)).
    destruct (net_call _ _ _ _ _ a x bns ss) as [[bns1 ss1] [y|e]] eqn:Ea.
    + destruct (net_call _ _ _ _ _ b x bns1 ss1) as [[bns2 ss2] [z|e]] eqn:Eb;
        destruct (IHa _ _ _ _ _ _ Ea) as (k & Hm & _ & Hk); destruct (IHb _ _ _ _ _ _ Eb) as (k' & Hm' & Hle' & Hk'); injection E as <- <- <-;
        exists (fun i => k i + k' i); (split; [eapply moved_trans; eauto|]); split.
      * intros i. rewrite draws_app. specialize (Hle' i). rewrite (Hk y eq_refl i). lia.
      * intros w _ i. rewrite draws_app, (Hk y eq_refl i), (Hk' z eq_refl i). reflexivity.
      * intros i. rewrite draws_app. specialize (Hle' i). rewrite (Hk y eq_refl i). lia.
      * discriminate.
    + injection E as <- <- <-. destruct (IHa _ _ _ _ _ _ Ea) as (k & Hm & Hle & _). exists k. split; auto. split; [|discriminate].
      intros i. rewrite draws_app. specialize (Hle i). lia.
Qed.

(** ** any mode: the BatchNorms *)
Definition bns_kept (m : net) (bns bns' : list batchnorm) : Prop :=
  List.length bns' = List.length bns /\
  forall i b, nth_error bns i = Some b ->
    exists b', nth_error bns' i = Some b' /\ same_params b b' /\ (~ In (LBatchNorm i) (layers m) -> b' = b).
Lemma same_params_refl b : same_params b b.
Proof. repeat split. Qed.
Lemma same_params_trans b b' b'' : same_params b b' -> same_params b' b'' -> same_params b b''.
Proof. intros (A1 & A2 & A3 & A4 & A5 & A6) (B1 & B2 & B3 & B4 & B5 & B6). repeat split; congruence. Qed.
Lemma bns_refl m bns : bns_kept m bns bns.
Proof. split; auto. intros i b H. exists b. split; auto. split; auto using same_params_refl. Qed.
Lemma bns_then a b m bns bns1 bns2 : layers m = layers a ++ layers b -> bns_kept a bns bns1 -> bns_kept b bns1 bns2 -> bns_kept m bns bns2.
Proof.
  intros El (L & H) (L' & H'). split; [congruence|]. intros i x Hx. destruct (H i x Hx) as (y & Hy & P & K). destruct (H' i y Hy) as (z & Hz & P' & K').
  exists z. split; auto. split; [eapply same_params_trans; eauto|]. rewrite El. intros Hn. rewrite K' by (intros G; apply Hn; apply in_or_app; auto).
  apply K. intros G; apply Hn; apply in_or_app; auto.
Qed.
Lemma bns_left a b m bns bns1 : layers m = layers a ++ layers b -> bns_kept a bns bns1 -> bns_kept m bns bns1.
Proof. intros El H. eapply bns_then; eauto using bns_refl. Qed.
Lemma bn_call_params rsqrt b x ura ctx b' r : bn_call rsqrt b x ura ctx = (b', r) -> same_params b b'.
Proof.
  unfold bn_call. destruct (first_from _) as [[|]|]; [intros E; injection E as <- <-; apply same_params_refl| |intros E; injection E as <- <-; apply same_params_refl].
  destruct (compute_stats _ _) as [mean var]. unfold bn_update. destruct (add1 _ _); [|intros E; injection E as <- <-; apply same_params_refl].
  destruct (add1 _ _); intros E; injection E as <- <-; repeat split.
Qed.
Lemma net_bns blake bern cur rsqrt ctx : forall m x bns ss bns' ss' r, net_call blake bern cur rsqrt ctx m x bns ss = (bns', ss', r) -> bns_kept m bns bns'.
Proof.
  induction m as [|l|a IHa b IHb|a IHa b IHb]; intros x bns ss bns' ss' r E; cbn [net_call] in E.
  - injection E as <- <- <-. apply bns_refl.
  - destruct l as [l|cv|d|i|l|g]; cbn [layer_call] in E; try (injection E as <- <- <-; apply bns_refl).
    + destruct (dropout_call _ _ _ _ _ _ _ _) as [r0 ss0]. injection E as <- <- <-. apply bns_refl.
    + destruct (nth_error bns i) as [b|] eqn:Hb; [|injection E as <- <- <-; apply bns_refl].
      destruct (bn_call rsqrt b x None ctx) as [b' r'] eqn:Eb. injection E as <- <- <-. apply bn_call_params in Eb.
      split; [apply length_list_set|]. intros j q Hq. destruct (Nat.eq_dec i j) as [<-|Hne].
      * rewrite nth_list_set_same by (apply nth_error_Some; congruence). exists b'. rewrite Hb in Hq. injection Hq as <-. split; auto. split; auto.
        cbn. intros Hn. exfalso. apply Hn. now left.
      * rewrite nth_list_set_other by exact Hne. exists q. split; auto using same_params_refl.
  - destruct (net_call _ _ _ _ _ a x bns ss) as [[bns1 ss1] [y|e]] eqn:Ea.
    + eapply bns_then; eauto. reflexivity.
    + injection E as <- <- <-. eapply bns_left; eauto. reflexivity.
  - destruct (net_call _ _ _ _ _ a x bns ss) as [[bns1 ss1] [y|e]] eqn:Ea.
    + destruct (net_call _ _ _ _ _ b x bns1 ss1) as [[bns2 ss2] [z|e]] eqn:Eb; injection E as <- <- <-; eapply bns_then; eauto; reflexivity.
    + injection E as <- <- <-. eapply bns_left; eauto. reflexivity.
Qed.

(** ** Sequence.__call__ *)
Lemma no_ctx blake bern cur rsqrt n c x bns ss : takes_ctx n = false ->
  net_call blake bern cur rsqrt None n x bns ss = net_call blake bern cur rsqrt (Some c) n x bns ss.
Proof. destruct n as [|[l|cv|d|i|l|g]|a b|a b]; try discriminate; reflexivity. Qed.
Lemma stage blake bern cur rsqrt ctx f x bns ss :
  call_stage takes_ctx (el_run blake bern cur rsqrt) (option_map VCtx ctx) f (bns, ss) [VArr x] [] =
  let '(s', r) := net_call blake bern cur rsqrt ctx f x bns ss in (s', rmap (fun y => OOther (VArr y)) r).
Proof.
  unfold call_stage. destruct ctx as [c|]; cbn [option_map]; [|reflexivity]. destruct (takes_ctx f) eqn:E.
  - cbn [dset el_run fst snd String.eqb]. rewrite E. reflexivity.
  - cbn [el_run fst snd]. now rewrite (no_ctx _ _ _ _ f c).
Qed.
Lemma sequence_loop blake bern cur rsqrt ctx : forall fs, fs <> [] -> forall prev args kwargs x bns ss,
  match prev with None => (args, kwargs) | Some o => spread o end = ([VArr x], []) ->
  call_loop (fun _ => true) takes_ctx (el_run blake bern cur rsqrt) (option_map VCtx ctx) fs prev (bns, ss) args kwargs =
  let '(s', r) := net_call blake bern cur rsqrt ctx (in_sequence fs) x bns ss in (s', rmap (fun y => Some (OOther (VArr y))) r).
Proof.
  induction fs as [|f fs IH]; intros Hne prev args kwargs x bns ss Hp; [congruence|]. cbn [call_loop negb]. rewrite Hp, stage.
  destruct fs as [|g fs].
  - cbn [in_sequence]. destruct (net_call _ _ _ _ ctx f x bns ss) as [s' [y|e]]; reflexivity.
  - change (in_sequence (f :: g :: fs)) with (NThen f (in_sequence (g :: fs))). cbn [net_call].
    destruct (net_call _ _ _ _ ctx f x bns ss) as [[bns1 ss1] [y|e]]; cbn [rmap]; [|reflexivity].
    apply IH; [discriminate|reflexivity].
Qed.
