(** Property C55: the convolution layer.  Sizes, kernels, strides, dilations, groups,
    batch axes and values are arbitrary. *)
From Coq Require Import ZArith QArith Qcanon Lia.
From Verif Require Import PyBase ModuleM ContextM TensorM NnM LinearM Spec_Nn Spec_Conv Tensor_proofs Norm_proofs Conv_proofs ConvValue_proofs.
Local Open Scope string_scope.
Local Open Scope nat_scope.
Local Open Scope list_scope.

(** ** The padding argument *)
(** [canonicalize_padding] accepts exactly a string, an int, or a sequence of the rank's
    length made of ints and 2-tuples; everything else is a ValueError. *)
Theorem C55_canonicalize p rank q : canonicalize_padding p rank = Ok q <-> pad_accepts rank p q.
Proof. exact (canon_pad_spec p rank q). Qed.
Theorem C55_canonicalize_error p rank : (forall q, ~ pad_accepts rank p q) -> canonicalize_padding p rank = Err ValueError.
Proof.
  intros H. destruct (canonicalize_padding p rank) as [q|e] eqn:E; [exfalso; apply (H q); now apply canon_pad_spec|].
  f_equal. eapply canon_pad_err; eauto.
Qed.
(** "The pairs are pairs of ints": false, the entries of a pair are not looked at. *)
Theorem C55_pair_refuted : exists p q r, canonicalize_padding p 1 = Ok (LPairs q) /\ In r q /\ ~ int_pair r.
Proof. exists (PTuple [PTuple [PStr "a"; POther]]), [(PStr "a", POther)], (PStr "a", POther). split; [reflexivity|]. split; [now left|]. intros (a & b & E). discriminate. Qed.
(** "A pair can be any sequence": false, a list of two ints is rejected. *)
Theorem C55_list_pair_refuted : exists a b, canonicalize_padding (PList [PList [PInt a; PInt b]]) 1 = Err ValueError.
Proof. exists 1%Z, 1%Z. reflexivity. Qed.

(** ** Batch axes *)
(** Any number of batch axes: the output at a batch position is the output for that
    example alone, and the call on the whole batch fails exactly when the call on one
    example does, with the same exception. *)
Theorem C55_batched c x bs rest b :
  t_shape x = bs ++ rest -> List.length rest = S (List.length (cv_ks c)) -> Forall (fun n => 0 < n) (cv_ks c) -> in_range bs b ->
  rel_result (fun y y' => t_shape y = bs ++ t_shape y' /\ forall t, in_range (t_shape y') t -> t_at y (b ++ t) = t_at y' t)
    (conv_call c x) (conv_call c (example_at x b rest)).
Proof. exact (conv_batched c x bs rest b). Qed.

(** ** Values *)
(** CIRCULAR: the convolution with a periodic boundary; each axis has size
    ceil (n / stride). *)
Theorem C55_circular c ks ss ds cin cout x bs sp :
  conv_shape c ks ss ds cin cout -> cv_padding c = PStr "CIRCULAR" ->
  t_shape x = bs ++ sp ++ [cin] -> List.length sp = List.length ks -> Forall (fun n => 0 < n) sp ->
  exists y, conv_call c x = Ok y /\ t_shape y = bs ++ zip_with ceil_div sp ss ++ [cout] /\
    forall b o f, in_range bs b -> in_range (zip_with ceil_div sp ss) o -> f < cout ->
      t_at y (b ++ o ++ [f]) = conv_value c x cin cout (fun kk => Some (circular_read sp ks ds ss o kk)) b f.
Proof. exact (circular_call c ks ss ds cin cout x bs sp). Qed.

(** CAUSAL *)
Theorem C55_causal c k s d cin cout x bs n :
  conv_shape c [k] [s] [d] cin cout -> cv_padding c = PStr "CAUSAL" -> t_shape x = bs ++ [n; cin] -> 0 < n ->
  exists y, conv_call c x = Ok y /\ t_shape y = bs ++ [ceil_div n s; cout] /\
    forall b t f, in_range bs b -> t < ceil_div n s -> f < cout ->
      t_at y (b ++ [t; f]) =
      conv_value c x cin cout (fun kk => match causal_read k d s t (nth 0 kk 0) with Some p => Some [p] | None => None end) b f.
Proof. exact (causal_call c k s d cin cout x bs n). Qed.

(** VALID, SAME and explicit padding *)
Theorem C55_padded c ks ss ds cin cout x bs sp pads :
  conv_shape c ks ss ds cin cout -> t_shape x = bs ++ sp ++ [cin] -> List.length sp = List.length ks ->
  asks sp ks ds ss (cv_padding c) pads ->
  exists y, conv_call c x = Ok y /\ t_shape y = bs ++ padded_sizes sp ks ds ss pads ++ [cout] /\
    forall b o f, in_range bs b -> in_range (padded_sizes sp ks ds ss pads) o -> f < cout ->
      t_at y (b ++ o ++ [f]) = conv_value c x cin cout (padded_read sp ds ss pads o) b f.
Proof. exact (padded_call c ks ss ds cin cout x bs sp pads). Qed.

(** ** Sizes *)
Lemma ceil_div_1 n : 0 < n -> ceil_div n 1 = n.
Proof. intros H. unfold ceil_div. rewrite Nat.add_sub, Nat.div_1_r. reflexivity. Qed.
Lemma ceil_div_ones : forall sp, Forall (fun n => 0 < n) sp -> zip_with ceil_div sp (repeat 1 (List.length sp)) = sp.
Proof. induction 1 as [|n sp Hn H IH]; cbn [List.length repeat zip_with]; auto. now rewrite IH, ceil_div_1. Qed.

(** With stride 1, CIRCULAR, CAUSAL and SAME keep the spatial size, whatever the kernel
    size and its dilation. *)
Theorem C55_same_size c ks ds cin cout x bs sp :
  conv_shape c ks (repeat 1 (List.length ks)) ds cin cout ->
  cv_padding c = PStr "CIRCULAR" \/ cv_padding c = PStr "SAME" \/ (cv_padding c = PStr "CAUSAL" /\ List.length ks = 1) ->
  t_shape x = bs ++ sp ++ [cin] -> List.length sp = List.length ks -> Forall (fun n => 0 < n) sp ->
  exists y, conv_call c x = Ok y /\ t_shape y = bs ++ sp ++ [cout].
Proof.
  intros Hc Hpad Hs Hl Hp. destruct Hpad as [Hpad|[Hpad|(Hpad & H1)]].
  - destruct (C55_circular _ _ _ _ _ _ _ _ _ Hc Hpad Hs Hl Hp) as (y & E & Hy & _). exists y. split; auto.
    now rewrite Hy, <- Hl, ceil_div_ones.
  - assert (Ha : exists pads, all_same_pads sp ks ds (repeat 1 (List.length ks)) pads).
    { destruct (cs_pos _ _ _ _ _ _ Hc) as (Hk & _). pose proof (cs_len_d _ _ _ _ _ _ Hc) as Hd. clear -Hl Hk Hd. revert ks ds Hl Hk Hd.
      induction sp as [|n sp IH]; intros [|k ks] [|d ds] Hl Hk Hd; try discriminate; cbn [List.length repeat].
      - exists []. constructor.
      - inversion Hk; subst. destruct (IH ks ds) as (ps & Hps); auto.
        set (total := Z.max 0 ((Z.of_nat (ceil_div n 1) - 1) * Z.of_nat 1 + Z.of_nat (span k d) - Z.of_nat n)).
        exists ((total / 2, total - total / 2)%Z :: ps). constructor; auto. split; [reflexivity|]. cbn [fst snd]. fold total. lia. }
    destruct Ha as (pads & Ha).
    destruct (C55_padded _ _ _ _ _ _ _ _ _ pads Hc Hs Hl) as (y & E & Hy & _); [rewrite Hpad; now constructor|].
    exists y. split; auto. rewrite Hy. f_equal. f_equal. rewrite (same_sizes _ _ _ _ _ Ha); auto.
    + rewrite <- Hl. now apply ceil_div_ones.
    + destruct (cs_pos _ _ _ _ _ _ Hc) as (_ & H & _). exact H.
  - pose proof (cs_len_d _ _ _ _ _ _ Hc) as Hd. destruct ks as [|k [|]]; try discriminate. destruct ds as [|d [|]]; try discriminate.
    destruct sp as [|n [|]]; try discriminate. cbn [List.length repeat] in Hc. inversion Hp; subst.
    destruct (C55_causal _ _ _ _ _ _ _ _ _ Hc Hpad Hs) as (y & E & Hy & _); auto. exists y. split; auto.
    rewrite Hy, ceil_div_1 by assumption. reflexivity.
Qed.

(** With any stride s, SAME gives ceil (n / s). *)
Theorem C55_same_stride c ks ss ds cin cout x bs sp pads :
  conv_shape c ks ss ds cin cout -> cv_padding c = PStr "SAME" -> all_same_pads sp ks ds ss pads ->
  t_shape x = bs ++ sp ++ [cin] -> List.length sp = List.length ks -> Forall (fun n => 0 < n) sp ->
  exists y, conv_call c x = Ok y /\ t_shape y = bs ++ zip_with ceil_div sp ss ++ [cout].
Proof.
  intros Hc Hpad Ha Hs Hl Hp.
  destruct (C55_padded _ _ _ _ _ _ _ _ _ pads Hc Hs Hl) as (y & E & Hy & _); [rewrite Hpad; now constructor|].
  exists y. split; auto. rewrite Hy. f_equal. f_equal. apply (same_sizes _ _ _ _ _ Ha); auto.
  destruct (cs_pos _ _ _ _ _ _ Hc) as (_ & H & _). exact H.
Qed.

(** ** Causality and equivariance *)
Lemma conv_channel cin cout g f ch : 0 < g -> cin mod g = 0 -> cout mod g = 0 -> f < cout -> ch < cin / g ->
  f / (cout / g) * (cin / g) + ch < cin.
Proof.
  intros Hg Hi Ho Hf Hch. assert (E : cin = g * (cin / g)) by (pose proof (Nat.div_mod cin g ltac:(lia)); lia).
  rewrite E at 2. apply group_channel; auto. lia.
Qed.
(** The output at time t is determined by the inputs at times up to t * stride. *)
Theorem C55_causality c k s d cin cout x x' bs n y y' b t f :
  conv_shape c [k] [s] [d] cin cout -> cv_padding c = PStr "CAUSAL" ->
  t_shape x = bs ++ [n; cin] -> t_shape x' = bs ++ [n; cin] -> 0 < n ->
  conv_call c x = Ok y -> conv_call c x' = Ok y' -> in_range bs b -> t < ceil_div n s -> f < cout ->
  (forall t' ch, t' <= t * s -> ch < cin -> t_at x (b ++ [t'; ch]) = t_at x' (b ++ [t'; ch])) ->
  t_at y (b ++ [t; f]) = t_at y' (b ++ [t; f]).
Proof.
  intros Hc Hpad Hs Hs' Hn Hy Hy' Hb Ht Hf Hag.
  destruct (C55_causal _ _ _ _ _ _ _ _ _ Hc Hpad Hs Hn) as (z & E & _ & H). rewrite E in Hy. injection Hy as ->.
  destruct (C55_causal _ _ _ _ _ _ _ _ _ Hc Hpad Hs' Hn) as (z & E' & _ & H'). rewrite E' in Hy'. injection Hy' as ->.
  rewrite H, H' by assumption. unfold conv_value. f_equal. apply qsum_ext. intros kk Hkk.
  destruct (causal_read k d s t (nth 0 kk 0)) as [p|] eqn:Er; auto.
  apply qsum_ext. intros ch Hch. apply in_seq in Hch. f_equal. cbn [app].
  assert (Hp : p <= t * s) by (unfold causal_read in Er; destruct (_ <=? _); [injection Er as <-; apply Nat.le_sub_l|discriminate]).
  apply Hag; auto. destruct (cs_groups _ _ _ _ _ _ Hc) as (Hg & Hgi & Hgo). apply (conv_channel cin cout (cv_groups c)); auto; lia.
Qed.

(** A rotated input gives the output rotated by as much. *)
Lemma circular_read_rotate : forall sp ks ds hs o kk, List.length ks = List.length sp -> List.length ds = List.length sp ->
  List.length hs = List.length sp -> List.length o = List.length sp -> List.length kk = List.length sp -> Forall (fun n => 0 < n) sp ->
  circular_read sp ks ds (repeat 1 (List.length sp)) (rotate sp hs o) kk = rotate sp hs (circular_read sp ks ds (repeat 1 (List.length sp)) o kk).
Proof.
  induction sp as [|n sp IH]; intros [|k ks] [|d ds] [|h hs] [|i o] [|j kk] H1 H2 H3 H4 H5 Hp; try discriminate; auto.
  inversion Hp; subst. cbn [rotate circular_read List.length repeat]. rewrite IH by (cbn in *; auto; lia). f_equal.
  rewrite !Nat.mul_1_r. set (c := Z.of_nat ((k - 1) * d / 2)). apply Nat2Z.inj.
  rewrite Nat2Z.inj_mod, Nat2Z.inj_add, !Z2Nat.id by (apply Z.mod_pos_bound; lia).
  rewrite !Nat2Z.inj_add, Nat2Z.inj_mod, Nat2Z.inj_add.
  rewrite Z2Nat.id by (apply Z.mod_pos_bound; lia). rewrite Zplus_mod_idemp_l, <- Z.add_sub_assoc, Zplus_mod_idemp_l. f_equal. ring.
Qed.
Theorem C55_equivariance c ks ds cin cout x x' bs sp hs y y' b o f :
  conv_shape c ks (repeat 1 (List.length ks)) ds cin cout -> cv_padding c = PStr "CIRCULAR" ->
  t_shape x = bs ++ sp ++ [cin] -> t_shape x' = bs ++ sp ++ [cin] -> List.length sp = List.length ks -> Forall (fun n => 0 < n) sp ->
  List.length hs = List.length sp ->
  conv_call c x = Ok y -> conv_call c x' = Ok y' -> in_range bs b -> in_range sp o -> f < cout ->
  (forall p ch, in_range sp p -> ch < cin -> t_at x' (b ++ rotate sp hs p ++ [ch]) = t_at x (b ++ p ++ [ch])) ->
  t_at y' (b ++ rotate sp hs o ++ [f]) = t_at y (b ++ o ++ [f]).
Proof.
  intros Hc Hpad Hs Hs' Hl Hp Hh Hy Hy' Hb Ho Hf Hag.
  destruct (C55_circular _ _ _ _ _ _ _ _ _ Hc Hpad Hs Hl Hp) as (z & E & _ & H). rewrite E in Hy. injection Hy as ->.
  destruct (C55_circular _ _ _ _ _ _ _ _ _ Hc Hpad Hs' Hl Hp) as (z & E' & _ & H'). rewrite E' in Hy'. injection Hy' as ->.
  rewrite <- Hl, ceil_div_ones in H, H' by assumption.
  assert (Hro : in_range sp (rotate sp hs o)).
  { clear -Hp Hh Ho. revert hs o Hh Ho. induction Hp as [|n sp Hn Hp IH]; intros [|h hs] o Hh Ho; try discriminate; inversion Ho; subst; constructor.
    - apply Nat.mod_upper_bound. lia.
    - apply IH; auto. }
  rewrite H, H' by assumption. unfold conv_value. f_equal. apply qsum_ext. intros kk Hkk. apply in_all_idx in Hkk.
  rewrite (cs_ks _ _ _ _ _ _ Hc) in Hkk. pose proof (cs_len_d _ _ _ _ _ _ Hc) as Hd.
  apply qsum_ext. intros ch Hch. apply in_seq in Hch. f_equal. pose proof (in_range_length _ _ Ho). pose proof (in_range_length _ _ Hkk).
  rewrite circular_read_rotate by (auto; congruence). apply Hag.
  - apply circular_read_range; rewrite ?repeat_length; auto; congruence.
  - destruct (cs_groups _ _ _ _ _ _ Hc) as (Hg & Hgi & Hgo). apply (conv_channel cin cout (cv_groups c)); auto; lia.
Qed.

(** ** Errors *)
(** CAUSAL with another rank than 1 is a ValueError, before anything is computed. *)
Theorem C55_causal_rank c x :
  cv_padding c = PStr "CAUSAL" -> List.length (cv_ks c) <> 1 -> Forall (fun n => 0 < n) (cv_ks c) ->
  List.length (cv_ks c) < List.length (t_shape x) -> conv_call c x = Err ValueError.
Proof.
  intros Hpad Hr Hk Hlen.
  set (m := List.length (t_shape x) - (List.length (cv_ks c) + 1)).
  rewrite (conv_call_core c x (firstn m (t_shape x)) (skipn m (t_shape x))); auto; [|symmetry; apply firstn_skipn|rewrite skipn_length; unfold m; lia].
  destruct (flatten_ok x (firstn m (t_shape x)) (skipn m (t_shape x))) as (x1 & -> & _); [symmetry; apply firstn_skipn|]. cbn [rbind].
  unfold conv_core, conv_pad. rewrite Hpad. cbn [canonicalize_padding rbind].
  change (String.eqb "CAUSAL" "CIRCULAR") with false. change (String.eqb "CAUSAL" "CAUSAL") with true. cbn iota.
  destruct (Nat.eqb_spec (List.length (cv_ks c)) 1); [congruence|]. reflexivity.
Qed.

(** A convolution that succeeds was given ints in every pair. *)
Theorem C55_int_pads c x y :
  conv_call c x = Ok y -> (forall s, cv_padding c <> PStr s) ->
  exists l, pad_accepts (List.length (cv_ks c)) (cv_padding c) (LPairs l) /\ Forall int_pair l.
Proof.
  intros H Hn. unfold conv_call in H. destruct (_ || _)%bool; [discriminate|]. cbv zeta in H.
  destruct (if Nat.eqb _ 1 then _ else _) as [x1|]; [|discriminate]. cbn [rbind] in H.
  destruct (conv_pad c x1) as [[x2 q]|] eqn:Ep; [|discriminate]. cbn [rbind fst snd] in H.
  unfold conv_pad in Ep. destruct (canonicalize_padding (cv_padding c) _) as [p|] eqn:Ec; [|discriminate]. cbn [rbind] in Ep.
  apply canon_pad_spec in Ec. destruct p as [s|l]; [inversion Ec; subst; congruence|]. injection Ep as <- <-.
  exists l. split; [exact Ec|]. clear Ec. destruct (_ || _)%bool; [discriminate|].
  destruct (conv_general_dilated _ _ _ _ _ _ _) as [z|] eqn:Eg; [|discriminate]. clear H.
  unfold conv_general_dilated in Eg. cbv zeta in Eg. revert Eg.
  destruct (_ || _)%bool; [discriminate|]. destruct (_ || _)%bool; [discriminate|].
  cbn [lax_pads]. destruct (int_pads l) as [pads|] eqn:Ei; [|discriminate]. intros _. revert pads Ei.
  induction l as [|[a b] l IH]; intros pads Ei; [constructor|]. cbn [int_pads] in Ei.
  destruct a as [|za| | |], b as [|zb| | |]; try discriminate. destruct (int_pads l) as [t|]; [|discriminate].
  constructor; [now exists za, zb|]. now apply (IH t).
Qed.

(** An input with another number of channels than the layer was built for is a
    TypeError, whatever the padding. *)
Theorem C55_channels c ks ss ds cin cout x bs sp cin' q :
  conv_shape c ks ss ds cin cout -> pad_accepts (List.length ks) (cv_padding c) q ->
  (cv_padding c = PStr "CAUSAL" -> List.length ks = 1) ->
  t_shape x = bs ++ sp ++ [cin'] -> List.length sp = List.length ks -> Forall (fun n => 0 < n) sp -> cin' <> cin ->
  conv_call c x = Err TypeError.
Proof.
  intros Hc Hq Hca Hs Hl Hp Hne. pose proof (cin_eq _ _ _ _ _ _ Hc) as Hcin. destruct (cs_pos _ _ _ _ _ _ Hc) as (Hk0 & _ & _).
  pose proof (cs_ks _ _ _ _ _ _ Hc) as Eks.
  rewrite (conv_call_core c x bs (sp ++ [cin']) Hs); [|rewrite app_length, Eks; cbn; lia|now rewrite Eks].
  destruct (flatten_ok x bs (sp ++ [cin']) Hs) as (x1 & -> & Hx1 & _). cbn [rbind].
  assert (Hcp : exists xp p sp', conv_pad c x1 = Ok (xp, p) /\ t_shape xp = prod bs :: sp' ++ [cin'] /\ List.length sp' = List.length ks).
  { unfold conv_pad. rewrite Eks, (proj2 (canon_pad_spec _ _ _) Hq). cbn [rbind].
    rewrite (proj1 (per_axis_eq _ _ _) (cs_ds _ _ _ _ _ _ Hc)).
    destruct q as [s|l]; [|exists x1, (LPairs l), sp; auto].
    destruct (String.eqb_spec s "CIRCULAR") as [->|_].
    - set (pads := zip_with circular_pad ks ds).
      assert (Hlp : List.length pads = List.length sp) by (unfold pads; rewrite zip_length by (symmetry; apply (cs_len_d _ _ _ _ _ _ Hc)); congruence).
      unfold pad_wrap. rewrite Hx1. cbn [wrap_ok]. rewrite orb_true_r, wrap_ok_snoc by assumption. cbn [andb rbind].
      eexists _, _, (pad_shape sp pads). split; [reflexivity|]. cbn [t_shape pad_shape]. rewrite pad_shape_snoc by exact Hlp.
      split; [f_equal; lia|]. now rewrite pad_shape_length.
    - destruct (String.eqb_spec s "CAUSAL") as [->|_].
      + inversion Hq as [s' Ep Es| | |]; subst. specialize (Hca (eq_sym Ep)). rewrite Hca. cbn [Nat.eqb negb].
        pose proof (cs_len_d _ _ _ _ _ _ Hc) as Hd. rewrite Hca in Hd. destruct ds as [|d [|? ?]]; try discriminate.
        rewrite Hca in Hl. destruct sp as [|n [|? ?]]; try discriminate. unfold pad_zero. rewrite Hx1. cbn [app List.length Nat.eqb rbind].
        eexists _, _, [d * (nth 0 (cv_ks c) 0 - 1) + n + 0]. split; [reflexivity|]. split; [|reflexivity]. cbn [t_shape pad_shape app].
        f_equal; [lia|]. f_equal. f_equal. lia.
      + exists x1, (LStr s), sp. auto. }
  destruct Hcp as (xp & p & sp' & Ecp & Hxp & Hl'). unfold conv_core. rewrite Ecp. cbn [rbind fst snd].
  destruct (cs_groups _ _ _ _ _ _ Hc) as (Hg & Hgi & Hgo). rewrite (cs_in _ _ _ _ _ _ Hc), Hgi.
  destruct (Nat.eqb_spec (cv_groups c) 0); [lia|]. cbn [orb negb Nat.eqb].
  unfold conv_general_dilated. rewrite Hxp, (cs_kernel _ _ _ _ _ _ Hc). cbv zeta. rewrite !app_length. cbn [List.length]. rewrite !app_length. cbn [List.length].
  rewrite Hl'. replace (Nat.eqb (S (List.length ks + 1)) (List.length ks + 2)) with true by (symmetry; apply Nat.eqb_eq; lia).
  replace (Nat.ltb (S (List.length ks + 1)) 2) with false by (symmetry; apply Nat.ltb_ge; lia). cbn [negb orb].
  replace (S (List.length ks + 1) - 2) with (List.length ks) by lia. cbn [nth].
  rewrite !app_nth2 by lia. rewrite Hl', Nat.sub_diag. cbn [nth]. rewrite <- Hcin.
  destruct (Nat.eqb_spec (cv_groups c) 0); [lia|]. destruct (Nat.eqb_spec cin' cin); [congruence|]. reflexivity.
Qed.

(** A pair with something else than ints in it is a TypeError, of the call. *)
Theorem C55_not_ints c ks ss ds cin cout x bs sp l :
  conv_shape c ks ss ds cin cout -> pad_accepts (List.length ks) (cv_padding c) (LPairs l) -> ~ Forall int_pair l ->
  t_shape x = bs ++ sp ++ [cin] -> List.length sp = List.length ks ->
  conv_call c x = Err TypeError.
Proof.
  intros Hc Hq Hbad Hs Hl. pose proof (cin_eq _ _ _ _ _ _ Hc) as Hcin. destruct (cs_pos _ _ _ _ _ _ Hc) as (Hk0 & _ & _).
  pose proof (cs_ks _ _ _ _ _ _ Hc) as Eks.
  rewrite (conv_call_core c x bs (sp ++ [cin]) Hs); [|rewrite app_length, Eks; cbn; lia|now rewrite Eks].
  destruct (flatten_ok x bs (sp ++ [cin]) Hs) as (x1 & -> & Hx1 & _). cbn [rbind].
  unfold conv_core, conv_pad. rewrite Eks, (proj2 (canon_pad_spec _ _ _) Hq). cbn [rbind fst snd].
  destruct (cs_groups _ _ _ _ _ _ Hc) as (Hg & Hgi & Hgo). rewrite (cs_in _ _ _ _ _ _ Hc), Hgi.
  destruct (Nat.eqb_spec (cv_groups c) 0); [lia|]. cbn [orb negb Nat.eqb].
  unfold conv_general_dilated. rewrite Hx1, (cs_kernel _ _ _ _ _ _ Hc). cbv zeta.
  match goal with |- rbind (rbind ?e _) _ = _ => assert (E : e = Err TypeError); [|now rewrite E] end.
  match goal with |- (if ?b then _ else _) = _ => destruct b; [reflexivity|] end.
  match goal with |- (if ?b then _ else _) = _ => destruct b; [reflexivity|] end.
  assert (E : int_pads l = Err TypeError).
  { clear -Hbad. induction l as [|[a b] l IH]; [destruct Hbad; constructor|]. cbn [int_pads].
    destruct a as [|za| | |], b as [|zb| | |]; try reflexivity. rewrite IH; [reflexivity|]. intros H. apply Hbad. constructor; [now exists za, zb|exact H]. }
  cbn [lax_pads]. rewrite E. reflexivity.
Qed.
(** A convolution that works with its strides raises TypeError with a wrong number of
    strides. *)
Definition with_strides (c : conv) (s : list nat) : conv :=
  mkConv (cv_kernel c) (cv_bias c) (cv_in c) (cv_ks c) (DSeq s) (cv_padding c) (cv_idil c) (cv_kdil c) (cv_groups c) (cv_mask c).
Theorem C55_strides c x y s :
  conv_call c x = Ok y -> List.length s + 2 <> List.length (t_shape (kernel_of c)) -> conv_call (with_strides c s) x = Err TypeError.
Proof.
  intros H L. unfold conv_call in *. cbn [with_strides cv_kernel cv_bias cv_in cv_ks cv_strides cv_padding cv_idil cv_kdil cv_groups cv_mask] in *.
  destruct (_ || _)%bool; [discriminate|]. cbv zeta in *.
  destruct (if Nat.eqb _ 1 then _ else _) as [x1|]; [|discriminate]. cbn [rbind] in *.
  change (conv_pad (with_strides c s) x1) with (conv_pad c x1). destruct (conv_pad c x1) as [[x2 q]|] eqn:Ep; [|discriminate]. cbn [rbind fst snd] in *.
  destruct (_ || _)%bool; [discriminate|].
  fold (kernel_of c) in *. unfold conv_general_dilated in *. cbv zeta in *.
  destruct (negb (Nat.eqb (List.length (t_shape x2)) _) || _)%bool eqn:E1; [discriminate|]. apply Bool.orb_false_iff in E1 as [E1 E2]. apply Bool.negb_false_iff, Nat.eqb_eq in E1. apply Nat.ltb_ge in E2.
  destruct (_ || _)%bool; [discriminate|]. cbn [maybe_broadcast].
  set (ns := firstn _ (tl (t_shape x2))) in *. assert (Ln : List.length ns = List.length (t_shape (kernel_of c)) - 2).
  { unfold ns. rewrite firstn_length. destruct (t_shape x2); cbn in *; lia. }
  match type of H with context [lax_pads q ns ?a ?b ?d ?ss] => destruct (lax_pads q ns a b d ss) as [pads|] eqn:El; [|discriminate];
    assert (G : exists pads', lax_pads q ns a b d s = Ok pads') by (destruct q; cbn [lax_pads] in *; eauto; destruct (negb _); [discriminate|]; destruct (String.eqb _ "VALID"); eauto; destruct (String.eqb _ "SAME"); eauto) end.
  destruct G as (pads' & ->). cbn [rbind] in *.
  match goal with |- context [mk_dims ns ?a ?b ?d s pads'] => destruct (mk_dims ns a b d s pads') as [dims|e] eqn:Ed; cbn [rbind] end.
  - exfalso. apply mk_dims_spec in Ed. destruct Ed as (En & _ & _ & _ & Es & _). apply (f_equal (@List.length nat)) in En, Es. rewrite map_length in En, Es. lia.
  - f_equal. eapply mk_dims_err; exact Ed.
Qed.
Print Assumptions C55_strides.
(** CIRCULAR padding of an empty axis is a ValueError (of [jnp.pad]) if the kernel is
    longer than one there. *)
Theorem C55_circular_empty c ks ss ds cin cout x bs sp i k :
  conv_shape c ks ss ds cin cout -> cv_padding c = PStr "CIRCULAR" ->
  t_shape x = bs ++ sp ++ [cin] -> List.length sp = List.length ks ->
  nth_error sp i = Some 0 -> nth_error ks i = Some k -> 1 < k ->
  conv_call c x = Err ValueError.
Proof.
  intros Hc Hpad Hs Hl Hi Hk H1. destruct (cs_pos _ _ _ _ _ _ Hc) as (Hk0 & _ & Hd0). pose proof (cs_ks _ _ _ _ _ _ Hc) as Eks.
  rewrite (conv_call_core c x bs (sp ++ [cin]) Hs); [|rewrite app_length, Eks; cbn; lia|now rewrite Eks].
  destruct (flatten_ok x bs (sp ++ [cin]) Hs) as (x1 & -> & Hx1 & _). cbn [rbind].
  unfold conv_core, conv_pad. rewrite Hpad, Eks. cbn [canonicalize_padding rbind]. change (String.eqb "CIRCULAR" "CIRCULAR") with true. cbn iota.
  rewrite (proj1 (per_axis_eq _ _ _) (cs_ds _ _ _ _ _ _ Hc)). pose proof (cs_len_d _ _ _ _ _ _ Hc) as Hd.
  assert (E : forall m, wrap_ok (sp ++ [m]) (zip_with circular_pad ks ds ++ [(0, 0)]) = false).
  { intros m. clear -Hl Hi Hk H1 Hd Hd0. revert ks ds i Hl Hi Hk Hd Hd0. induction sp as [|n sp IH]; intros [|k0 ks] [|d ds] i Hl Hi Hk Hd Hd0; try discriminate; [now destruct i|].
    inversion Hd0; subst. cbn [zip_with app]. unfold circular_pad at 1. cbn [wrap_ok]. destruct i as [|i]; cbn [nth_error] in Hi, Hk.
    - injection Hi as ->. injection Hk as ->. apply andb_false_iff. left. cbn [Nat.eqb negb orb].
      apply Nat.eqb_neq. replace ((k - 1) * d + 1) with (S ((k - 1) * d)) by lia.
      assert (1 <= (k - 1) * d) by (change 1 with (1 * 1) at 1; apply Nat.mul_le_mono; lia).
      intros E. assert (S ((k - 1) * d) / 2 = 0) by lia. apply Nat.div_small_iff in H0; lia.
    - apply andb_false_iff. right. apply (IH ks ds i); auto. }
  unfold pad_wrap. rewrite Hx1. cbn [wrap_ok]. rewrite E, andb_false_r. reflexivity.
Qed.

(** String padding, CIRCULAR and CAUSAL included, is not available with an input
    dilation: the call raises. *)
Theorem C55_input_dilation_refuted : exists c x, cv_padding c = PStr "CIRCULAR" /\ cv_idil c = DInt 2 /\
  t_shape x = [1; 3; 1] /\ t_shape (cv_kernel c) = [2; 1; 1] /\ conv_call c x = Err ValueError.
Proof.
  exists (mkConv (mkT [2; 1; 1] (fun _ => 1%Qc)) None 1 [2] DNone (PStr "CIRCULAR") (DInt 2) DNone 1 None), (mkT [1; 3; 1] (fun _ => 1%Qc)).
  split; [reflexivity|]. split; [reflexivity|]. split; [reflexivity|]. split; reflexivity.
Qed.

(** ** Examples *)
(** two groups, kernel size 3 dilated by 2, bias *)
Definition ex_conv (p : pad_val) (s : nat) : conv :=
  mkConv (mkT [3; 1; 2] (fun i => qnat (1 + nth 0 i 0 + 3 * nth 2 i 0))) (Some (mkT [2] (fun i => qnat (nth 0 i 0)))) 2 [3] (DInt s) p DNone (DInt 2) 2 None.
Definition ex_sig : tensor := mkT [2; 5; 2] (fun i => qnat (10 * nth 0 i 0 + nth 1 i 0 * (1 + nth 2 i 0))).
Definition show (r : result tensor) : option (list nat * list Q) :=
  match r with Ok y => Some (t_shape y, map (fun i => this (t_at y i)) (all_idx (t_shape y))) | Err _ => None end.
Lemma ex_shape p s : 0 < s -> conv_shape (ex_conv p s) [3] [s] [2] 2 2.
Proof. intros H. constructor; try reflexivity; try apply (axis_int 1); try apply axis_none; [repeat constructor; auto|repeat constructor|]. intros t E. injection E as <-. reflexivity. Qed.
Example C55_example :
  conv_shape (ex_conv (PStr "CIRCULAR") 1) [3] [1] [2] 2 2 /\ conv_shape (ex_conv (PStr "CAUSAL") 2) [3] [2] [2] 2 2 /\
  t_shape ex_sig = [2] ++ [5] ++ [2] /\
  asks [5] [3] [2] [2] (PTuple [PTuple [PInt 1; PInt (-1)]]) [(1, -1)%Z] /\
  show (conv_call (ex_conv (PStr "CIRCULAR") 1) (example_at ex_sig [0] [5; 2])) =
    Some ([5; 2], [9; 49; 15; 79; 16; 69; 7; 39; 13; 69]%Q) /\
  show (conv_call (ex_conv (PStr "CAUSAL") 2) (example_at ex_sig [0] [5; 2])) = Some ([3; 2], [0; 1; 6; 25; 16; 69]%Q) /\
  show (conv_call (ex_conv (PTuple [PTuple [PInt 1; PInt (-1)]]) 2) (example_at ex_sig [0] [5; 2])) = Some ([1; 2], [11; 47]%Q) /\
  conv_call (ex_conv (PStr "CIRCULAR") 1) (mkT [2; 5; 4] (fun _ => 1%Qc)) = Err TypeError.
Proof.
  split; [apply ex_shape; lia|]. split; [apply ex_shape; lia|]. split; [reflexivity|]. split.
  { apply ask_pairs. apply pa_tuple; [reflexivity|]. constructor; [|constructor]. right. now exists (PInt 1), (PInt (-1)). }
  split; [vm_compute; reflexivity|]. split; [vm_compute; reflexivity|]. split; [vm_compute; reflexivity|].
  apply (C55_channels _ [3] [1] [2] 2 2 _ [2] [5] 4 (LStr "CIRCULAR")); try discriminate; try reflexivity; [apply ex_shape; lia|constructor|repeat constructor; lia].
Qed.
Example C55_error_example :
  conv_call (ex_conv (PTuple [PTuple [PInt 1; PStr "a"]]) 1) ex_sig = Err TypeError /\
  conv_call (ex_conv (PStr "CIRCULAR") 1) (mkT [2; 0; 2] (fun _ => 1%Qc)) = Err ValueError.
Proof.
  split.
  - apply (C55_not_ints _ [3] [1] [2] 2 2 _ [2] [5] [(PInt 1, PStr "a")]); [apply ex_shape; lia| | |reflexivity|reflexivity].
    + apply pa_tuple; [reflexivity|]. constructor; [|constructor]. right. now exists (PInt 1), (PStr "a").
    + intros H. inversion H as [|? ? (a & b & E)]. discriminate.
  - apply (C55_circular_empty _ [3] [1] [2] 2 2 _ [2] [0] 0 3); try reflexivity; [apply ex_shape; lia|lia].
Qed.

Print Assumptions C55_canonicalize.
Print Assumptions C55_batched.
Print Assumptions C55_circular.
Print Assumptions C55_causal.
Print Assumptions C55_padded.
Print Assumptions C55_same_size.
Print Assumptions C55_causality.
Print Assumptions C55_equivariance.
Print Assumptions C55_causal_rank.
Print Assumptions C55_channels.
Print Assumptions C55_not_ints.
Print Assumptions C55_circular_empty.
