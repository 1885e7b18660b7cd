From Coq Require Import ZArith QArith Qcanon Lia.
From Verif Require Import PyBase TensorM LinearM Spec_Conv Tensor_proofs Dropout_proofs.
Local Open Scope string_scope.
Local Open Scope nat_scope.
Local Open Scope list_scope.

(** ** canonicalize_padding *)
Lemma pad_loop_length l : List.length (pad_loop l) <= List.length l.
Proof. induction l as [|p l IH]; cbn; [lia|]. destruct p as [s|z|q|q|]; cbn; try lia. destruct q as [|a [|b [|c q]]]; cbn; lia. Qed.
Lemma pad_loop_full l : List.length (pad_loop l) = List.length l -> Forall2 pad_item l (pad_loop l).
Proof.
  induction l as [|p l IH]; intros H; [constructor|]. cbn [pad_loop] in *.
  destruct p as [s|z|q|q|]; try discriminate.
  - cbn in H. constructor; [left; eauto|apply IH; lia].
  - destruct q as [|a [|b [|c q]]]; try discriminate. cbn in H. constructor; [right; eauto|apply IH; lia].
Qed.
Lemma pad_loop_item l r : Forall2 pad_item l r -> pad_loop l = r.
Proof.
  induction 1 as [|p q l r Hp H IH]; auto. destruct Hp as [(z & -> & ->)|(a & b & -> & ->)]; cbn [pad_loop]; now rewrite IH.
Qed.
Lemma Forall2_len {A B} (R : A -> B -> Prop) l l' : Forall2 R l l' -> List.length l = List.length l'.
Proof. induction 1; cbn; congruence. Qed.
Lemma pad_seq_spec l rank r : pad_seq l rank = Ok (LPairs r) <-> List.length l = rank /\ Forall2 pad_item l r.
Proof.
  unfold pad_seq. split.
  - destruct (Nat.eqb_spec (List.length l) rank) as [E|E]; [|discriminate].
    destruct (Nat.eqb_spec (List.length (pad_loop l)) rank) as [E2|E2]; [|discriminate].
    intros H. injection H as <-. split; auto. apply pad_loop_full. congruence.
  - intros (E & H). pose proof (pad_loop_item _ _ H) as Ep. pose proof (Forall2_len _ _ _ H).
    rewrite Ep, E, Nat.eqb_refl. replace (List.length r) with rank by congruence. now rewrite Nat.eqb_refl.
Qed.
Lemma pad_seq_shape l rank q : pad_seq l rank = Ok q -> exists r, q = LPairs r.
Proof. unfold pad_seq. repeat destruct (Nat.eqb _ _); intros H; inversion H; eauto. Qed.
Lemma pad_seq_err l rank e : pad_seq l rank = Err e -> e = ValueError.
Proof. unfold pad_seq. repeat destruct (Nat.eqb _ _); intros H; inversion H; eauto. Qed.

Lemma canon_pad_spec p rank q : canonicalize_padding p rank = Ok q <-> pad_accepts rank p q.
Proof.
  split.
  - destruct p as [s|z|l|l|]; cbn [canonicalize_padding]; intros H.
    + injection H as <-. constructor.
    + injection H as <-. constructor.
    + destruct (pad_seq_shape _ _ _ H) as (r & ->). apply pad_seq_spec in H. now constructor.
    + destruct (pad_seq_shape _ _ _ H) as (r & ->). apply pad_seq_spec in H. now constructor.
    + discriminate.
  - intros H. inversion H; subst; cbn [canonicalize_padding]; auto; now apply pad_seq_spec.
Qed.
Lemma canon_pad_err p rank e : canonicalize_padding p rank = Err e -> e = ValueError.
Proof. destruct p; cbn [canonicalize_padding]; intros H; try discriminate; try (now eapply pad_seq_err; eauto). congruence. Qed.

(** ** batch axes *)
Definition conv_core (c : conv) (x1 : tensor) : result tensor :=
  let rank := List.length (cv_ks c) in
  do xp <- conv_pad c x1;
  if Nat.eqb (cv_groups c) 0 || negb (Nat.eqb (cv_in c mod cv_groups c) 0) then Err AssertionError
  else
    do y <- conv_general_dilated (fst xp) (kernel_of c) (maybe_broadcast rank (cv_strides c)) (snd xp)
              (maybe_broadcast rank (cv_idil c)) (maybe_broadcast rank (cv_kdil c)) (cv_groups c);
    add_bias y (cv_bias c).

Definition flatten (x : tensor) (nb : nat) : result tensor :=
  if Nat.eqb nb 1 then Ok x else reshape x (prod (firstn nb (t_shape x)) :: skipn nb (t_shape x)).
Definition unflatten (y : tensor) (bs : list nat) : result tensor :=
  if Nat.eqb (List.length bs) 1 then Ok y else reshape y (bs ++ tl (t_shape y)).

Lemma rbind_assoc {A B C} (r : result A) (f : A -> result B) (g : B -> result C) :
  rbind (rbind r f) g = rbind r (fun x => rbind (f x) g).
Proof. destruct r; reflexivity. Qed.

Lemma conv_call_core c x bs rest :
  t_shape x = bs ++ rest -> List.length rest = S (List.length (cv_ks c)) -> Forall (fun n => 0 < n) (cv_ks c) ->
  conv_call c x = do x1 <- flatten x (List.length bs); do y <- conv_core c x1; unflatten y bs.
Proof.
  intros Hs Hr Hp. unfold conv_call. rewrite Hs, app_length, Hr.
  replace (Nat.ltb _ _) with false by (symmetry; apply Nat.ltb_ge; lia).
  replace (existsb (Nat.eqb 0) (cv_ks c)) with false.
  2:{ symmetry. clear -Hp. induction Hp as [|n l Hn Hp IH]; auto. cbn. destruct n; [lia|]. exact IH. }
  cbn [orb]. replace (List.length bs + S (List.length (cv_ks c)) - (List.length (cv_ks c) + 1)) with (List.length bs) by lia.
  rewrite firstn_app, Nat.sub_diag, firstn_all, firstn_O, app_nil_r, skipn_app, skipn_all, Nat.sub_diag. cbn [app skipn].
  unfold flatten. rewrite Hs, firstn_app, Nat.sub_diag, firstn_all, firstn_O, app_nil_r, skipn_app, skipn_all, Nat.sub_diag. cbn [app skipn].
  set (r := if Nat.eqb (List.length bs) 1 then Ok x else _). destruct r as [x1|e]; cbn [rbind]; auto.
  unfold conv_core. destruct (conv_pad c x1) as [xp|e]; cbn [rbind]; auto.
  destruct (_ || _)%bool; cbn [rbind]; auto. fold (kernel_of c).
  destruct (conv_general_dilated _ _ _ _ _ _ _) as [y|e]; cbn [rbind]; auto.
Qed.

Lemma in_range_app : forall bs rest b t, in_range bs b -> in_range rest t -> in_range (bs ++ rest) (b ++ t).
Proof. intros. now apply Forall2_app. Qed.

Lemma flatten_ok x bs rest : t_shape x = bs ++ rest ->
  exists x1, flatten x (List.length bs) = Ok x1 /\ t_shape x1 = prod bs :: rest /\
    forall b t, in_range bs b -> in_range rest t -> t_at x1 (flat_pos bs b :: t) = t_at x (b ++ t).
Proof.
  intros Hs. unfold flatten. destruct (Nat.eqb_spec (List.length bs) 1) as [E|E].
  - exists x. split; auto. destruct bs as [|n [|m bs]]; try discriminate. split; [rewrite Hs; cbn; now rewrite Nat.mul_1_r|].
    intros b t Hb Ht. inversion Hb as [|i ? b' ? Hi Hb']; subst. inversion Hb'; subst. cbn. now rewrite Nat.mul_1_r, Nat.add_0_r.
  - rewrite Hs, firstn_app, Nat.sub_diag, firstn_all, firstn_O, app_nil_r, skipn_app, skipn_all, Nat.sub_diag. cbn [app skipn].
    unfold reshape. rewrite Hs, prod_app. cbn [prod fold_right]. fold (prod rest). rewrite Nat.eqb_refl.
    eexists. split; [reflexivity|]. split; [reflexivity|]. intros b t Hb Ht. cbn [t_at flat_pos].
    rewrite <- (flat_pos_app bs rest b t) by now apply in_range_length. rewrite unflat_flat; auto. now apply in_range_app.
Qed.
Lemma unflatten_ok y bs os : t_shape y = prod bs :: os ->
  exists y1, unflatten y bs = Ok y1 /\ t_shape y1 = bs ++ os /\
    forall b t, in_range bs b -> in_range os t -> t_at y1 (b ++ t) = t_at y (flat_pos bs b :: t).
Proof.
  intros Hs. unfold unflatten. destruct (Nat.eqb_spec (List.length bs) 1) as [E|E].
  - exists y. split; auto. destruct bs as [|n [|m bs]]; try discriminate. split; [rewrite Hs; cbn; now rewrite Nat.mul_1_r|].
    intros b t Hb Ht. inversion Hb as [|i ? b' ? Hi Hb']; subst. inversion Hb'; subst. cbn. now rewrite Nat.mul_1_r, Nat.add_0_r.
  - rewrite Hs. cbn [tl]. unfold reshape. rewrite Hs, prod_app. cbn [prod fold_right]. fold (prod os). rewrite Nat.eqb_refl.
    eexists. split; [reflexivity|]. split; [reflexivity|]. intros b t Hb Ht. cbn [t_at].
    rewrite flat_pos_app by now apply in_range_length. change (flat_pos bs b * prod os + flat_pos os t) with (flat_pos (prod bs :: os) (flat_pos bs b :: t)).
    rewrite unflat_flat; auto. constructor; auto. now apply flat_pos_lt.
Qed.

(** ** one example out of a batch *)
Definition sliced (n m : nat) (x x' : tensor) : Prop :=
  exists rest, t_shape x = n :: rest /\ t_shape x' = 1 :: rest /\ m < n /\
    forall t, in_range rest t -> t_at x (m :: t) = t_at x' (0 :: t).
Definition rel_result {A B} (R : A -> B -> Prop) (r : result A) (r' : result B) : Prop :=
  match r, r' with Ok a, Ok b => R a b | Err e, Err e' => e = e' | _, _ => False end.

Lemma wrap_idx_range : forall ns pads t, wrap_ok ns pads = true -> in_range (pad_shape ns pads) t -> in_range ns (wrap_idx ns pads t).
Proof.
  induction ns as [|n ns IH]; intros [|[lo hi] pads] t Hok Ht; cbn [pad_shape wrap_idx wrap_ok] in *; try discriminate.
  - inversion Ht. constructor.
  - inversion Ht as [|i ? t' ? Hi Ht']; subst. apply andb_prop in Hok. destruct Hok as (Hz & Hok). constructor; [|now apply IH].
    destruct n as [|n]; [cbn in Hz; apply Nat.eqb_eq in Hz; lia|].
    pose proof (Z.mod_pos_bound (Z.of_nat i - Z.of_nat lo) (Z.of_nat (S n))). lia.
Qed.
Lemma sliced_wrap n m x x' pads : sliced n m x x' -> rel_result (sliced n m) (pad_wrap x ((0, 0) :: pads)) (pad_wrap x' ((0, 0) :: pads)).
Proof.
  intros (rest & Hs & Hs' & Hm & H). unfold pad_wrap. rewrite Hs, Hs'. cbn [wrap_ok].
  rewrite !orb_true_r. cbn [andb]. destruct (wrap_ok rest pads) eqn:Hok; cbn [rel_result]; auto.
  exists (pad_shape rest pads). cbn [t_shape pad_shape]. split; [f_equal; lia|]. split; [f_equal; lia|]. split; auto.
  intros t Ht. cbn [t_at wrap_idx]. rewrite Z.sub_0_r, Z.mod_small, Nat2Z.id by lia. cbn [Z.sub Z.of_nat Z.opp Z.add]. rewrite Z.mod_0_l by lia. apply H.
  now apply wrap_idx_range.
Qed.
Lemma zero_idx_range : forall ns pads t r, List.length ns = List.length pads -> in_range (pad_shape ns pads) t -> zero_idx ns pads t = Some r -> in_range ns r.
Proof.
  induction ns as [|n ns IH]; intros [|[lo hi] pads] t r Hl Ht E; cbn [pad_shape zero_idx] in *; try discriminate.
  - inversion Ht; subst. injection E as <-. constructor.
  - inversion Ht as [|i ? t' ? Hi Ht']; subst. destruct (Nat.leb_spec lo i); [|discriminate]. destruct (Nat.ltb_spec i (lo + n)); [|discriminate].
    cbn [andb] in E. destruct (zero_idx ns pads t') as [r'|] eqn:Er; [|discriminate]. injection E as <-. constructor; [lia|].
    eapply IH; eauto.
Qed.
Lemma sliced_zero n m x x' pads : sliced n m x x' -> rel_result (sliced n m) (pad_zero x ((0, 0) :: pads)) (pad_zero x' ((0, 0) :: pads)).
Proof.
  intros (rest & Hs & Hs' & Hm & H). unfold pad_zero. rewrite Hs, Hs'. cbn [List.length].
  destruct (Nat.eqb_spec (S (List.length rest)) (S (List.length pads))) as [El|El]; cbn [rel_result]; auto.
  exists (pad_shape rest pads). cbn [t_shape pad_shape]. split; [f_equal; lia|]. split; [f_equal; lia|]. split; auto.
  intros t Ht. cbn [t_at zero_idx]. cbn [Nat.leb Nat.add andb]. replace (Nat.ltb m n) with true by (symmetry; now apply Nat.ltb_lt). cbn [andb].
  replace (Nat.ltb 0 1) with true by reflexivity.
  destruct (zero_idx rest pads t) as [r|] eqn:E; auto. rewrite !Nat.sub_0_r. apply H. eapply zero_idx_range; [|exact Ht|exact E]. lia.
Qed.

Lemma sliced_pad c n m x x' : sliced n m x x' ->
  rel_result (fun a b => sliced n m (fst a) (fst b) /\ snd a = snd b) (conv_pad c x) (conv_pad c x').
Proof.
  intros H. unfold conv_pad. destruct (canonicalize_padding _ _) as [p|e]; cbn [rbind rel_result]; auto.
  destruct p as [s|l]; cbn [rel_result fst snd]; auto.
  destruct (String.eqb s "CIRCULAR").
  - pose proof (sliced_wrap n m x x' (zip_with circular_pad (cv_ks c) (maybe_broadcast (List.length (cv_ks c)) (cv_kdil c)) ++ [(0, 0)]) H) as Hw.
    destruct (pad_wrap x _), (pad_wrap x' _); cbn [rbind rel_result fst snd] in *; auto.
  - destruct (String.eqb s "CAUSAL"); [|cbn [rel_result fst snd]; auto].
    destruct (negb _); cbn [rel_result]; auto. destruct (maybe_broadcast _ _) as [|d ds]; cbn [rel_result]; auto.
    pose proof (sliced_zero n m x x' [(d * (nth 0 (cv_ks c) 0 - 1), 0); (0, 0)] H) as Hw.
    destruct (pad_zero x _), (pad_zero x' _); cbn [rbind rel_result fst snd] in *; auto.
Qed.

(** positions read are in range *)
Lemma read_pos_range n ld rd s pad o k p : ld <> 0 -> read_pos n ld rd s pad o k = Some p -> p < n.
Proof.
  intros Hld. unfold read_pos. set (q := (_ - fst pad)%Z).
  destruct (Z.leb_spec 0 q); [|discriminate]. destruct (Z.ltb_spec q (Z.of_nat (dilated n ld))) as [Hq|]; [|discriminate].
  destruct (Z.eqb_spec (q mod Z.of_nat ld) 0) as [Hm|]; [|discriminate]. cbn [andb]. intros E. injection E as <-.
  destruct n as [|n]; [cbn in Hq; lia|]. cbn [dilated] in Hq.
  pose proof (Z.div_mod q (Z.of_nat ld) ltac:(lia)) as Hd. rewrite Hm in Hd.
  assert (q / Z.of_nat ld <= Z.of_nat n)%Z; [|pose proof (Z.div_pos q (Z.of_nat ld)); lia].
  apply Z.lt_succ_r. apply Z.div_lt_upper_bound; [lia|]. rewrite Nat2Z.inj_add, Nat2Z.inj_mul in Hq. nia.
Qed.
Lemma read_all_range dims : (forall d, In d dims -> dm_ld d <> 0) -> forall o k p, List.length o = List.length dims -> List.length k = List.length dims ->
  read_all dims o k = Some p -> in_range (map dm_n dims) p.
Proof.
  induction dims as [|d dims IH]; intros Hd [|oi o] [|ki k] p Ho Hk E; try discriminate; cbn [read_all map] in *.
  - injection E as <-. constructor.
  - destruct (read_pos _ _ _ _ _ _ _) as [q|] eqn:Eq; [|discriminate]. destruct (read_all dims o k) as [r|] eqn:Er; [|discriminate].
    injection E as <-. constructor; [eapply read_pos_range; [apply Hd; now left|exact Eq]|]. cbn in Ho, Hk. eapply (IH ltac:(intros; apply Hd; now right) o k r); [lia|lia|exact Er].
Qed.

Lemma mk_dims_spec : forall ns lds ks rds ss pads dims, mk_dims ns lds ks rds ss pads = Ok dims ->
  map dm_n dims = ns /\ map dm_ld dims = lds /\ map dm_k dims = ks /\ map dm_rd dims = rds /\ map dm_s dims = ss /\ map dm_pad dims = pads /\
  Forall (fun d => dm_ld d <> 0 /\ dm_rd d <> 0 /\ dm_s d <> 0 /\ dm_k d <> 0) dims.
Proof.
  induction ns as [|n ns IH]; intros [|ld lds] [|k ks] [|rd rds] [|s ss] [|p pads] dims E; cbn [mk_dims] in E; try discriminate.
  - injection E as <-. repeat split. constructor.
  - destruct (Nat.eqb_spec ld 0); [discriminate|]. destruct (Nat.eqb_spec rd 0); [discriminate|].
    destruct (Nat.eqb_spec s 0); [discriminate|]. destruct (Nat.eqb_spec k 0); [discriminate|]. cbn [orb] in E.
    destruct (mk_dims ns lds ks rds ss pads) as [l|] eqn:El; [|discriminate]. injection E as <-. apply IH in El.
    destruct El as (<- & <- & <- & <- & <- & <- & Hf). cbn. repeat split. constructor; auto.
Qed.
Lemma mk_dims_err : forall ns lds ks rds ss pads e, mk_dims ns lds ks rds ss pads = Err e -> e = TypeError.
Proof.
  induction ns as [|n ns IH]; intros [|ld lds] [|k ks] [|rd rds] [|s ss] [|p pads] e E; cbn [mk_dims] in E; try congruence.
  destruct (_ || _)%bool; [congruence|]. destruct (mk_dims ns lds ks rds ss pads) eqn:El; [discriminate|]. injection E as <-. eapply IH; eauto.
Qed.
Lemma mk_dims_ok : forall ns lds ks rds ss pads,
  List.length lds = List.length ns -> List.length ks = List.length ns -> List.length rds = List.length ns -> List.length ss = List.length ns ->
  List.length pads = List.length ns -> Forall (fun n => 0 < n) lds -> Forall (fun n => 0 < n) ks -> Forall (fun n => 0 < n) rds -> Forall (fun n => 0 < n) ss ->
  exists dims, mk_dims ns lds ks rds ss pads = Ok dims.
Proof.
  induction ns as [|n ns IH]; intros [|ld lds] [|k ks] [|rd rds] [|s ss] [|p pads] H1 H2 H3 H4 H5 F1 F2 F3 F4; try discriminate; cbn [mk_dims].
  - eauto.
  - inversion F1; inversion F2; inversion F3; inversion F4; subst.
    destruct (Nat.eqb_spec ld 0); [lia|]. destruct (Nat.eqb_spec rd 0); [lia|].
    destruct (Nat.eqb_spec s 0); [lia|]. destruct (Nat.eqb_spec k 0); [lia|]. cbn [orb].
    destruct (IH lds ks rds ss pads) as (l & ->); auto. cbn. eauto.
Qed.

(** the shape of an input of a convolution: batch, spatial sizes, channels *)
Lemma shape_split {A} (l : list A) d : 2 <= List.length l ->
  l = nth 0 l d :: firstn (List.length l - 2) (tl l) ++ [nth (S (List.length l - 2)) l d].
Proof.
  destruct l as [|a l]; cbn [List.length]; [lia|]. intros H. cbn [nth tl]. f_equal. replace (S (List.length l) - 2) with (List.length l - 1) by lia.
  clear a. induction l as [|a l IH]; cbn [List.length] in *; [lia|]. destruct l as [|b l]; [reflexivity|].
  cbn [List.length] in *. replace (S (S (List.length l)) - 1) with (S (List.length l)) by lia.
  replace (S (List.length l) - 1) with (List.length l) in IH by lia.
  cbn [firstn app nth]. f_equal. apply IH. lia.
Qed.

Lemma last_removelast_range rest n t : in_range (rest ++ [n]) t -> in_range rest (removelast t) /\ last t 0 < n /\ t = removelast t ++ [last t 0].
Proof.
  intros H. apply Forall2_app_inv_r in H. destruct H as (t1 & t2 & H1 & H2 & ->). inversion H2 as [|i ? t3 ? Hi H3]; subst. inversion H3; subst.
  rewrite removelast_last, last_last. auto.
Qed.

Lemma group_channel f cg nf groups ch : groups <> 0 -> nf mod groups = 0 -> f < nf -> ch < cg -> f / (nf / groups) * cg + ch < groups * cg.
Proof.
  intros Hg Hm Hf Hc. assert (E : nf = groups * (nf / groups)) by (pose proof (Nat.div_mod nf groups Hg); lia).
  assert (f / (nf / groups) < groups); [|nia]. apply Nat.div_lt_upper_bound; [intros E0; rewrite E0 in E; lia|lia].
Qed.

Lemma sliced_cgd n m x x' k ss pad lds rds groups : sliced n m x x' ->
  rel_result (sliced n m) (conv_general_dilated x k ss pad lds rds groups) (conv_general_dilated x' k ss pad lds rds groups).
Proof.
  intros (rest & Hs & Hs' & Hm & H). unfold conv_general_dilated. rewrite Hs, Hs'. cbn [List.length tl nth].
  destruct (_ || _)%bool eqn:E1; cbn [rel_result]; auto. apply orb_false_elim in E1. destruct E1 as (E1 & E1'). apply Nat.ltb_ge in E1'.
  destruct (_ || _)%bool eqn:E2; cbn [rel_result]; auto. apply orb_false_elim in E2. destruct E2 as (E2 & E3).
  apply orb_false_elim in E2. destruct E2 as (E2 & E4). apply Nat.eqb_neq in E2. apply negb_false_iff, Nat.eqb_eq in E3, E4.
  set (sp := firstn (S (List.length rest) - 2) rest) in *. set (ks := firstn _ (t_shape k)).
  destruct (lax_pads pad sp lds ks rds ss) as [pads|e]; cbn [rbind rel_result]; auto.
  destruct (mk_dims sp lds ks rds ss pads) as [dims|e] eqn:Ed; cbn [rbind rel_result]; auto.
  eexists. cbn [t_shape]. split; [reflexivity|]. split; [reflexivity|]. split; auto.
  intros t Ht. cbn [t_at]. apply last_removelast_range in Ht. destruct Ht as (Ho & Hf & _).
  apply mk_dims_spec in Ed. destruct Ed as (En & El & Ek & _ & _ & _ & Hp).
  assert (Hlen : List.length dims = S (List.length rest) - 2).
  { rewrite <- (map_length dm_n), En. unfold sp. apply firstn_length_le. lia. }
  unfold conv_entry. apply qsum_ext. intros kk Hkk. apply in_all_idx in Hkk.
  destruct (read_all dims (removelast t) kk) as [p|] eqn:Er; auto. apply qsum_ext. intros ch Hch. apply in_seq in Hch. f_equal.
  apply H. assert (Hsplit : rest = sp ++ [nth (S (List.length rest) - 2) rest 0]).
  { pose proof (shape_split (n :: rest) 0) as Hsp. cbn [List.length tl nth] in Hsp. specialize (Hsp ltac:(lia)). injection Hsp as Hsp. exact Hsp. }
  rewrite Hsplit. apply in_range_app.
  - rewrite <- En. eapply read_all_range; [| | |exact Er].
    + intros d Hd. rewrite Forall_forall in Hp. now apply Hp.
    + pose proof (in_range_length _ _ Ho) as E. rewrite map_length in E. exact E.
    + pose proof (in_range_length _ _ Hkk) as E. rewrite map_length in E. exact E.
  - constructor; [|constructor]. rewrite E4. rewrite Hlen in *.  apply group_channel; auto; lia.
Qed.
Lemma sliced_bias n m y y' b : sliced n m y y' -> (forall q, t_shape y <> [q]) -> rel_result (sliced n m) (add_bias y b) (add_bias y' b).
Proof.
  intros (rest & Hs & Hs' & Hm & H) Hne. unfold add_bias. destruct b as [t|]; [|exists rest; auto].
  destruct (t_shape t) as [|q [|? ?]]; cbn [rel_result]; auto. rewrite Hs, Hs'.
  destruct rest as [|r rest]; [now specialize (Hne n)|]. change (last (1 :: r :: rest) 0) with (last (n :: r :: rest) 0).
  destruct (Nat.eqb q (last _ _)); [|destruct (_ || _)%bool; reflexivity]. cbn [rel_result]. exists (r :: rest). cbn [t_shape]. do 3 (split; [assumption || reflexivity|]).
  intros i Hi. cbn [t_at]. rewrite H by exact Hi. f_equal. inversion Hi; subst. reflexivity.
Qed.
Lemma cgd_shape x k ss pad lds rds g y : conv_general_dilated x k ss pad lds rds g = Ok y ->
  exists a r, t_shape y = nth 0 (t_shape x) 0 :: a ++ [r].
Proof.
  unfold conv_general_dilated. destruct (_ || _)%bool; [discriminate|]. destruct (_ || _)%bool; [discriminate|].
  destruct (lax_pads _ _ _ _ _ _) as [p|]; [|discriminate]. cbn [rbind]. destruct (mk_dims _ _ _ _ _ _); [|discriminate]. cbn [rbind].
  intros E. injection E as <-. cbn [t_shape]. eauto.
Qed.
Lemma add_bias_shape y b z : add_bias y b = Ok z -> t_shape z = t_shape y.
Proof.
  unfold add_bias. destruct b as [t|]; [|congruence]. destruct (t_shape t) as [|n [|? ?]]; try discriminate.
  destruct (Nat.eqb _ _); [|destruct (_ || _)%bool; discriminate]. intros E. injection E as <-. reflexivity.
Qed.
Lemma sliced_core c n m x x' : sliced n m x x' -> rel_result (sliced n m) (conv_core c x) (conv_core c x').
Proof.
  intros H. unfold conv_core. pose proof (sliced_pad c n m x x' H) as Hp.
  destruct (conv_pad c x) as [[a p]|e], (conv_pad c x') as [[a' p']|e']; cbn [rel_result rbind fst snd] in *; try contradiction; auto.
  destruct Hp as (Ha & <-). destruct (_ || _)%bool; cbn [rel_result]; auto.
  set (A1 := maybe_broadcast _ (cv_strides c)). set (A2 := maybe_broadcast _ (cv_idil c)). set (A3 := maybe_broadcast _ (cv_kdil c)).
  pose proof (sliced_cgd n m a a' (kernel_of c) A1 p A2 A3 (cv_groups c) Ha) as Hy.
  destruct (conv_general_dilated a _ _ _ _ _ _) as [y|e] eqn:Ey, (conv_general_dilated a' _ _ _ _ _ _) as [y'|e'] eqn:Ey';
    cbn [rel_result rbind] in *; try contradiction; auto.
  apply sliced_bias; auto. intros q E. apply cgd_shape in Ey. destruct Ey as (u & r & Eu). rewrite Eu in E. destruct u; discriminate.
Qed.

Lemma conv_batched c x bs rest b :
  t_shape x = bs ++ rest -> List.length rest = S (List.length (cv_ks c)) -> Forall (fun n => 0 < n) (cv_ks c) -> in_range bs b ->
  rel_result (fun y y' => t_shape y = bs ++ t_shape y' /\ forall t, in_range (t_shape y') t -> t_at y (b ++ t) = t_at y' t)
    (conv_call c x) (conv_call c (example_at x b rest)).
Proof.
  intros Hs Hr Hp Hb. rewrite (conv_call_core c x bs rest Hs Hr Hp).
  rewrite (conv_call_core c (example_at x b rest) [] rest eq_refl Hr Hp).
  destruct (flatten_ok x bs rest Hs) as (x1 & E1 & Hs1 & H1).
  destruct (flatten_ok (example_at x b rest) [] rest eq_refl) as (x2 & E2 & Hs2 & H2).
  rewrite E1, E2. cbn [rbind].
  assert (Hsl : sliced (prod bs) (flat_pos bs b) x1 x2).
  { exists rest. split; auto. split; auto. split; [now apply flat_pos_lt|]. intros t Ht. rewrite H1 by assumption.
    specialize (H2 [] t ltac:(constructor) Ht). cbn [flat_pos] in H2. rewrite H2. reflexivity. }
  apply (sliced_core c) in Hsl.
  destruct (conv_core c x1) as [y1|e], (conv_core c x2) as [y2|e']; cbn [rel_result rbind] in *; try contradiction; auto.
  destruct Hsl as (os & Hy1 & Hy2 & Hn & Hy).
  destruct (unflatten_ok y1 bs os Hy1) as (z1 & F1 & Hz1 & G1). destruct (unflatten_ok y2 [] os Hy2) as (z2 & F2 & Hz2 & G2).
  rewrite F1, F2. cbn [rel_result app] in *. rewrite Hz2. split; [exact Hz1|]. intros t Ht. rewrite G1 by assumption. rewrite Hy by exact Ht.
  specialize (G2 [] t ltac:(constructor) Ht). cbn [app flat_pos] in G2. now rewrite G2.
Qed.
