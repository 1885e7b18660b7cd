From Coq Require Import ZArith QArith Qcanon Lia.
From Verif Require Import PyBase TensorM LinearM Spec_Conv Tensor_proofs Dropout_proofs Conv_proofs.
Local Open Scope string_scope.
Local Open Scope nat_scope.
Local Open Scope list_scope.

Lemma skipn_exact {A} (l : list A) r n : List.length l = n -> skipn n (l ++ r) = r.
Proof. intros <-. rewrite skipn_app, skipn_all, Nat.sub_diag. reflexivity. Qed.
Lemma firstn_exact {A} (l : list A) r n : List.length l = n -> firstn n (l ++ r) = l.
Proof. intros <-. rewrite firstn_app, firstn_all, Nat.sub_diag, firstn_O, app_nil_r. reflexivity. Qed.
Lemma nth_exact {A} (l : list A) r d n i : List.length l = n -> nth (n + i) (l ++ r) d = nth i r d.
Proof. intros <-. rewrite app_nth2 by lia. f_equal. lia. Qed.

(** the sum over the kernel *)
Definition kernel_sum (x k : tensor) (cg nf groups : nat) (ks : list nat) (read : list nat -> option (list nat)) (b : list nat) (f : nat) : Qc :=
  let g := f / (nf / groups) in
  qsum (map (fun kk => match read kk with
                       | None => 0%Qc
                       | Some p => qsum (map (fun ch => (t_at x (b ++ p ++ [(g * cg + ch)%nat]) * t_at k (kk ++ [ch; f]))%Qc) (seq 0 cg))
                       end) (all_idx ks)).

Lemma cgd_ok x k N sp C ks cg F ss rds lds pad pads dims groups :
  t_shape x = N :: sp ++ [C] -> t_shape k = ks ++ [cg; F] -> List.length ks = List.length sp ->
  groups <> 0 -> C = groups * cg -> F mod groups = 0 ->
  lax_pads pad sp lds ks rds ss = Ok pads -> mk_dims sp lds ks rds ss pads = Ok dims ->
  exists y, conv_general_dilated x k ss pad lds rds groups = Ok y /\ t_shape y = N :: map dim_out dims ++ [F] /\
    forall b o f, t_at y (b :: o ++ [f]) = kernel_sum x k cg F groups ks (read_all dims o) [b] f.
Proof.
  intros Hx Hk Hl Hg HC HF Hp Hd. unfold conv_general_dilated. rewrite Hx, Hk. cbn [List.length tl nth]. rewrite !app_length. cbn [List.length].
  replace (S (List.length sp + 1) - 2) with (List.length sp) by lia.
  replace (Nat.eqb (S (List.length sp + 1)) (List.length ks + 2)) with true by (symmetry; apply Nat.eqb_eq; lia).
  replace (Nat.ltb (S (List.length sp + 1)) 2) with false by (symmetry; apply Nat.ltb_ge; lia). cbn [negb orb].
  rewrite (firstn_exact sp) by reflexivity. rewrite (firstn_exact ks) by exact Hl.
  replace (nth (List.length sp) (sp ++ [C]) 0) with C.
  2:{ rewrite <- (Nat.add_0_r (List.length sp)). now rewrite nth_exact. }
  replace (nth (List.length sp) (ks ++ [cg; F]) 0) with cg.
  2:{ rewrite <- (Nat.add_0_r (List.length sp)). now rewrite nth_exact. }
  replace (nth (S (List.length sp)) (ks ++ [cg; F]) 0) with F.
  2:{ rewrite <- (Nat.add_1_r (List.length sp)). now rewrite nth_exact. }
  destruct (Nat.eqb_spec groups 0); [congruence|]. rewrite <- HC, HF, !Nat.eqb_refl. cbn [negb orb].
  rewrite Hp. cbn [rbind]. rewrite Hd. cbn [rbind]. eexists. split; [reflexivity|]. split; [reflexivity|].
  intros b o f. cbn [t_at]. rewrite removelast_last, last_last.
  destruct (mk_dims_spec _ _ _ _ _ _ _ Hd) as (En & _ & Ek & _).
  assert (Hld : List.length dims = List.length sp) by now rewrite <- En, map_length.
  unfold conv_entry, kernel_sum. rewrite Ek, Hld.
  replace (nth (S (List.length sp)) (t_shape k) 0) with F.
  2:{ rewrite Hk, <- (Nat.add_1_r (List.length sp)). now rewrite nth_exact. }
  replace (nth (List.length sp) (t_shape k) 0) with cg.
  2:{ rewrite Hk, <- (Nat.add_0_r (List.length sp)). now rewrite nth_exact. }
  reflexivity.
Qed.

Lemma add_bias_ok y b F a : t_shape y = a ++ [F] -> (forall t, b = Some t -> t_shape t = [F]) ->
  exists z, add_bias y b = Ok z /\ t_shape z = t_shape y /\
    forall idx f, t_at z (idx ++ [f]) = (t_at y (idx ++ [f]) + match b with Some t => t_at t [f] | None => 0 end)%Qc.
Proof.
  intros Hs Hb. unfold add_bias. destruct b as [t|].
  - rewrite (Hb t eq_refl), Hs, last_last, Nat.eqb_refl. eexists. split; [reflexivity|]. split; [reflexivity|].
    intros idx f. cbn [t_at]. now rewrite last_last.
  - exists y. split; auto. split; auto. intros. ring.
Qed.

(** reading through the padded input *)
Lemma kernel_sum_ext x x' k cg F groups ks read read' b b' f : groups <> 0 -> F mod groups = 0 -> f < F ->
  (forall kk, in_range ks kk ->
     match read kk, read' kk with
     | Some p, Some p' => forall ch, ch < groups * cg -> t_at x (b ++ p ++ [ch]) = t_at x' (b' ++ p' ++ [ch])
     | None, None => True
     | Some p, None => forall ch, ch < groups * cg -> t_at x (b ++ p ++ [ch]) = 0%Qc
     | None, Some p' => False
     end) ->
  kernel_sum x k cg F groups ks read b f = kernel_sum x' k cg F groups ks read' b' f.
Proof.
  intros Hg Hm Hf H. unfold kernel_sum. apply qsum_ext. intros kk Hkk. apply in_all_idx in Hkk. specialize (H kk Hkk).
  destruct (read kk) as [p|], (read' kk) as [p'|]; try contradiction; auto.
  - apply qsum_ext. intros ch Hch. apply in_seq in Hch. f_equal. apply H. apply group_channel; auto. lia.
  - apply qsum_zero. intros ch Hch. apply in_seq in Hch. rewrite H by (apply group_channel; auto; lia). ring.
Qed.
Lemma conv_value_sum c x cin cout read b f :
  conv_value c x cin cout read b f =
  (kernel_sum x (kernel_of c) (cin / cv_groups c) cout (cv_groups c) (cv_ks c) read b f + match cv_bias c with Some t => t_at t [f] | None => 0 end)%Qc.
Proof. reflexivity. Qed.
Lemma per_axis_eq rank x l : per_axis rank x l <-> maybe_broadcast rank x = l.
Proof. split; [now intros []|]. intros <-. destruct x; constructor. Qed.
Lemma cin_eq c ks ss ds cin cout : conv_shape c ks ss ds cin cout -> cin = cv_groups c * (cin / cv_groups c).
Proof. intros H. destruct (cs_groups _ _ _ _ _ _ H) as (Hg & Hm & _). pose proof (Nat.div_mod cin (cv_groups c) ltac:(lia)). lia. Qed.

(** the core on a single batch axis *)
Lemma core_ok c ks ss ds cin cout xp p N sp dims pads x1 :
  conv_shape c ks ss ds cin cout -> conv_pad c x1 = Ok (xp, p) ->
  t_shape xp = N :: sp ++ [cin] -> List.length sp = List.length ks ->
  lax_pads p sp (repeat 1 (List.length ks)) ks ds ss = Ok pads -> mk_dims sp (repeat 1 (List.length ks)) ks ds ss pads = Ok dims ->
  exists y, conv_core c x1 = Ok y /\ t_shape y = N :: map dim_out dims ++ [cout] /\
    forall b o f, t_at y (b :: o ++ [f]) = conv_value c xp cin cout (read_all dims o) [b] f.
Proof.
  intros Hc Hp Hs Hl Hpads Hdims. pose proof (cin_eq _ _ _ _ _ _ Hc) as Hcin. destruct Hc as [Eks Ess Eds Eid _ _ _ (Hg & Hgi & Hgo) Hin Hk Hb].
  apply per_axis_eq in Ess, Eds, Eid. unfold conv_core. rewrite Hp. cbn [rbind fst snd]. rewrite Eks, Ess, Eds, Eid, Hin, Hgi.
  destruct (Nat.eqb_spec (cv_groups c) 0); [lia|]. cbn [orb negb Nat.eqb].
  destruct (cgd_ok xp (kernel_of c) N sp cin ks (cin / cv_groups c) cout ss ds (repeat 1 (List.length ks)) p pads dims (cv_groups c) Hs Hk) as (y & Ey & Hys & Hy); auto.
  rewrite Ey. cbn [rbind].
  destruct (add_bias_ok y (cv_bias c) cout (N :: map dim_out dims)) as (z & Ez & Hzs & Hz); [exact Hys|exact Hb|].
  exists z. split; [exact Ez|]. split; [congruence|]. intros b o f. specialize (Hz (b :: o) f). cbn [app] in Hz. rewrite Hz, Hy.
  rewrite conv_value_sum. now rewrite Eks.
Qed.

(** from one batch axis to any number of batch axes *)
Lemma lift_batch c x bs sp ks ss ds cin cout os (read : list nat -> list nat -> option (list nat)) :
  conv_shape c ks ss ds cin cout -> t_shape x = bs ++ sp ++ [cin] -> List.length sp = List.length ks ->
  (forall o kk p, in_range os o -> in_range ks kk -> read o kk = Some p -> in_range sp p) ->
  (forall x1, t_shape x1 = prod bs :: sp ++ [cin] ->
     exists y, conv_core c x1 = Ok y /\ t_shape y = prod bs :: os ++ [cout] /\
       forall b o f, b < prod bs -> in_range os o -> f < cout -> t_at y (b :: o ++ [f]) = conv_value c x1 cin cout (read o) [b] f) ->
  exists y, conv_call c x = Ok y /\ t_shape y = bs ++ os ++ [cout] /\
    forall b o f, in_range bs b -> in_range os o -> f < cout -> t_at y (b ++ o ++ [f]) = conv_value c x cin cout (read o) b f.
Proof.
  intros Hc Hs Hl Hread Hcore.
  assert (Hlr : List.length (sp ++ [cin]) = S (List.length (cv_ks c))).
  { rewrite app_length. cbn. rewrite (cs_ks _ _ _ _ _ _ Hc). lia. }
  assert (Hpos : Forall (fun n => 0 < n) (cv_ks c)) by (rewrite (cs_ks _ _ _ _ _ _ Hc); apply (cs_pos _ _ _ _ _ _ Hc)).
  rewrite (conv_call_core c x bs (sp ++ [cin]) Hs Hlr Hpos).
  destruct (flatten_ok x bs (sp ++ [cin]) Hs) as (x1 & E1 & Hs1 & H1). rewrite E1. cbn [rbind].
  destruct (Hcore x1 Hs1) as (y & Ey & Hys & Hy). rewrite Ey. cbn [rbind].
  destruct (unflatten_ok y bs (os ++ [cout]) Hys) as (z & Ez & Hzs & Hz).
  exists z. split; [exact Ez|]. split; [exact Hzs|]. intros b o f Hb Ho Hf.
  rewrite Hz by (auto; apply in_range_app; auto; repeat constructor; auto). rewrite Hy by (auto; now apply flat_pos_lt).
  rewrite !conv_value_sum. f_equal. destruct (cs_groups _ _ _ _ _ _ Hc) as (Hg & Hgi & Hgo). rewrite (cs_ks _ _ _ _ _ _ Hc).
  apply kernel_sum_ext; auto; [lia|]. intros kk Hkk. destruct (read o kk) as [p|] eqn:Er; auto.
  intros ch Hch. cbn [app]. rewrite H1; auto. apply in_range_app; [eapply Hread; eauto|]. constructor; [|constructor].
  rewrite (cin_eq _ _ _ _ _ _ Hc). exact Hch.
Qed.

(** ** CIRCULAR *)
Lemma span_dilated k d : 0 < k -> dilated k d = span k d.
Proof. destruct k; [lia|]. intros _. unfold span. cbn. now rewrite Nat.sub_0_r. Qed.
Lemma dilated_1 n : dilated n 1 = n.
Proof. destruct n; cbn; lia. Qed.
Lemma ceil_div_pos n s : 0 < n -> 0 < s -> ceil_div n s = (n - 1) / s + 1.
Proof. intros Hn Hs. unfold ceil_div. replace (n + s - 1) with (n - 1 + 1 * s) by lia. rewrite Nat.div_add by lia. reflexivity. Qed.
Lemma circular_pad_sum k d : 0 < k -> fst (circular_pad k d) + snd (circular_pad k d) = span k d - 1.
Proof.
  intros Hk. unfold circular_pad, span. cbn [fst snd].
  set (m := (k - 1) * d). replace (m + 1 - 1) with m by lia.
  pose proof (Nat.div_mod m 2 ltac:(lia)). pose proof (Nat.div_mod (m + 1) 2 ltac:(lia)).
  pose proof (Nat.mod_upper_bound m 2 ltac:(lia)). pose proof (Nat.mod_upper_bound (m + 1) 2 ltac:(lia)). lia.
Qed.
Lemma valid_out n k d s e : 0 < k -> 0 < s -> 0 < n -> e = span k d - 1 -> out_size (n + e) 1 k d s (0, 0)%Z = ceil_div n s.
Proof.
  intros Hk Hs Hn ->. unfold out_size. rewrite dilated_1, span_dilated by exact Hk. cbn [fst snd]. rewrite !Z.add_0_r.
  assert (Hsp : 1 <= span k d) by (unfold span; apply Nat.le_add_l).
  destruct (Z.leb_spec (Z.of_nat (span k d)) (Z.of_nat (n + (span k d - 1)))); [|lia].
  replace (Z.of_nat (n + (span k d - 1)) - Z.of_nat (span k d))%Z with (Z.of_nat (n - 1)) by lia.
  rewrite <- Nat2Z.inj_div. rewrite ceil_div_pos by assumption. lia.
Qed.
Lemma ceil_div_bound n s o : 0 < n -> 0 < s -> o < ceil_div n s -> o * s < n.
Proof. intros Hn Hs Ho. rewrite ceil_div_pos in Ho by assumption. pose proof (Nat.mul_div_le (n - 1) s ltac:(lia)). nia. Qed.
Lemma read_valid m d s o k : o * s + k * d < m -> read_pos m 1 d s (0, 0)%Z o k = Some (o * s + k * d).
Proof.
  intros H. unfold read_pos. rewrite dilated_1. cbn [fst]. rewrite Z.sub_0_r.
  replace (Z.of_nat o * Z.of_nat s + Z.of_nat k * Z.of_nat d)%Z with (Z.of_nat (o * s + k * d)) by (rewrite Nat2Z.inj_add, !Nat2Z.inj_mul; reflexivity).
  rewrite Z.mod_1_r, Z.div_1_r, Nat2Z.id. cbn [Z.eqb].
  destruct (Z.leb_spec 0 (Z.of_nat (o * s + k * d))); [|lia]. destruct (Z.ltb_spec (Z.of_nat (o * s + k * d)) (Z.of_nat m)); [|lia]. reflexivity.
Qed.

Lemma circular_dims : forall ns ks ds ss dims,
  mk_dims (pad_shape ns (zip_with circular_pad ks ds)) (repeat 1 (List.length ks)) ks ds ss (map (fun _ => (0, 0)%Z) (pad_shape ns (zip_with circular_pad ks ds))) = Ok dims ->
  List.length ns = List.length ks -> List.length ds = List.length ks -> Forall (fun n => 0 < n) ns ->
  map dim_out dims = zip_with ceil_div ns ss /\
  forall o kk, in_range (zip_with ceil_div ns ss) o -> in_range ks kk ->
    exists p, read_all dims o kk = Some p /\ in_range (pad_shape ns (zip_with circular_pad ks ds)) p /\
      wrap_idx ns (zip_with circular_pad ks ds) p = circular_read ns ks ds ss o kk.
Proof.
  induction ns as [|n ns IH]; intros [|k ks] [|d ds] [|s ss] dims E Hn Hd Hp; cbn [List.length] in *; try discriminate.
  - injection E as <-. split; auto. intros o kk Ho Hk. inversion Ho; inversion Hk; subst. exists []. repeat split. constructor.
  - cbn [zip_with] in *. pose proof (circular_pad_sum k d) as Hcs. assert (Hfst : Z.of_nat (fst (circular_pad k d)) = Z.of_nat ((k - 1) * d / 2)).
    { unfold circular_pad. cbn [fst]. now rewrite Nat.add_sub. }
    destruct (circular_pad k d) as [lo hi]. cbn [fst snd] in *. cbn [pad_shape repeat map mk_dims] in E.
    cbn [Nat.eqb] in E. destruct (Nat.eqb_spec d 0); [discriminate|]. destruct (Nat.eqb_spec s 0); [discriminate|].
    destruct (Nat.eqb_spec k 0); [discriminate|]. cbn [orb] in E.
    destruct (mk_dims _ _ ks ds ss _) as [l|] eqn:El; [|discriminate]. cbn [rbind] in E. injection E as <-.
    inversion Hp as [|? ? Hn0 Hp']; subst. destruct (IH ks ds ss l El ltac:(lia) ltac:(lia) Hp') as (IHo & IHr).
    specialize (Hcs ltac:(lia)). split.
    + cbn [map]. rewrite IHo. f_equal. unfold dim_out. cbn [dm_n dm_ld dm_k dm_rd dm_s dm_pad].
      replace (lo + n + hi) with (n + (lo + hi)) by lia. apply valid_out; lia.
    + intros o kk Ho Hkk. inversion Ho as [|oi ? o' ? Hoi Ho']; subst. inversion Hkk as [|kj ? kk' ? Hkj Hkk']; subst.
      destruct (IHr o' kk' Ho' Hkk') as (p & Ep & Hpr & Hw). exists (oi * s + kj * d :: p).
      assert (Hlt : oi * s + kj * d < lo + n + hi).
      { pose proof (ceil_div_bound n s oi ltac:(lia) ltac:(lia) Hoi). unfold span in Hcs. nia. }
      cbn [read_all dm_n dm_ld dm_rd dm_s dm_pad pad_shape wrap_idx circular_read]. rewrite read_valid by exact Hlt. rewrite Ep.
      split; auto. split; [constructor; auto|]. rewrite Hw, Hfst. reflexivity.
Qed.
Lemma zip_length {A B C} (f : A -> B -> C) : forall a b, List.length a = List.length b -> List.length (zip_with f a b) = List.length a.
Proof. induction a as [|x a IH]; intros [|y b] H; cbn in *; try lia. rewrite IH; lia. Qed.
Lemma pad_shape_length : forall ns pads, List.length (pad_shape ns pads) = List.length ns.
Proof. induction ns as [|n ns IH]; intros [|[lo hi] pads]; cbn; auto. Qed.
Lemma pad_shape_snoc : forall ns pads c, List.length pads = List.length ns -> pad_shape (ns ++ [c]) (pads ++ [(0, 0)]) = pad_shape ns pads ++ [c].
Proof.
  induction ns as [|n ns IH]; intros [|[lo hi] pads] c H; try discriminate; cbn [app pad_shape]; [f_equal; lia|]. now rewrite IH by (cbn in H; lia).
Qed.
Lemma wrap_idx_snoc : forall ns pads c p ch, List.length pads = List.length ns -> List.length p = List.length ns -> ch < c ->
  wrap_idx (ns ++ [c]) (pads ++ [(0, 0)]) (p ++ [ch]) = wrap_idx ns pads p ++ [ch].
Proof.
  induction ns as [|n ns IH]; intros [|[lo hi] pads] c [|i p] ch H H2 Hc; try discriminate; cbn [app wrap_idx].
  - rewrite Z.sub_0_r, Z.mod_small, Nat2Z.id by lia. reflexivity.
  - now rewrite IH by (cbn in *; lia).
Qed.
Lemma wrap_ok_snoc : forall ns pads c, List.length pads = List.length ns -> Forall (fun n => 0 < n) ns -> wrap_ok (ns ++ [c]) (pads ++ [(0, 0)]) = true.
Proof.
  induction ns as [|n ns IH]; intros [|[lo hi] pads] c H Hp; try discriminate; cbn [app wrap_ok].
  - now rewrite orb_true_r.
  - inversion Hp; subst. rewrite IH by (auto; cbn in H; lia). destruct n; [lia|]. reflexivity.
Qed.
Lemma circular_read_range : forall ns ks ds ss o kk, List.length ns = List.length ks -> List.length ds = List.length ks -> List.length ss = List.length ks ->
  List.length o = List.length ks -> List.length kk = List.length ks -> Forall (fun n => 0 < n) ns -> in_range ns (circular_read ns ks ds ss o kk).
Proof.
  induction ns as [|n ns IH]; intros [|k ks] [|d ds] [|s ss] [|i o] [|j kk] H1 H2 H3 H4 H5 Hp; try discriminate; cbn [circular_read]; [constructor|].
  inversion Hp; subst. constructor; [|apply IH; cbn in *; auto; lia].
  match goal with |- Z.to_nat (?a mod _) < _ => pose proof (Z.mod_pos_bound a (Z.of_nat n) ltac:(lia)) end. lia.
Qed.
Lemma repeat_pos m : Forall (fun n => 0 < n) (repeat 1 m).
Proof. induction m; cbn; constructor; auto. Qed.

Lemma circular_core c ks ss ds cin cout x1 N sp :
  conv_shape c ks ss ds cin cout -> cv_padding c = PStr "CIRCULAR" ->
  t_shape x1 = N :: sp ++ [cin] -> List.length sp = List.length ks -> Forall (fun n => 0 < n) sp ->
  exists y, conv_core c x1 = Ok y /\ t_shape y = N :: zip_with ceil_div sp ss ++ [cout] /\
    forall b o f, b < N -> in_range (zip_with ceil_div sp ss) o -> f < cout ->
      t_at y (b :: o ++ [f]) = conv_value c x1 cin cout (fun kk => Some (circular_read sp ks ds ss o kk)) [b] f.
Proof.
  intros Hc Hpad Hs Hl Hp. set (pads := zip_with circular_pad ks ds).
  assert (Hlp : List.length pads = List.length sp) by (unfold pads; rewrite zip_length by (symmetry; apply (cs_len_d _ _ _ _ _ _ Hc)); congruence).
  set (xp := mkT (N :: pad_shape sp pads ++ [cin]) (fun idx => t_at x1 (wrap_idx (t_shape x1) ((0, 0) :: pads ++ [(0, 0)]) idx))).
  assert (Hcp : conv_pad c x1 = Ok (xp, LStr "VALID")).
  { unfold conv_pad. rewrite Hpad. cbn [canonicalize_padding rbind]. rewrite (cs_ks _ _ _ _ _ _ Hc), (proj1 (per_axis_eq _ _ _) (cs_ds _ _ _ _ _ _ Hc)). cbn [String.eqb].
    change (String.eqb "CIRCULAR" "CIRCULAR") with true. cbv iota. fold pads. unfold pad_wrap. rewrite Hs. cbn [wrap_ok].
    rewrite orb_true_r, wrap_ok_snoc by assumption. cbn [andb rbind]. unfold xp. rewrite Hs. cbn [pad_shape].
    rewrite pad_shape_snoc by exact Hlp. cbn [Nat.add]. now rewrite Nat.add_0_r. }
  destruct (cs_pos _ _ _ _ _ _ Hc) as (Hk0 & Hs0 & Hd0).
  assert (Hlax : lax_pads (LStr "VALID") (pad_shape sp pads) (repeat 1 (List.length ks)) ks ds ss = Ok (map (fun _ => (0, 0)%Z) (pad_shape sp pads))).
  { unfold lax_pads. replace (forallb (Nat.eqb 1) (repeat 1 (List.length ks))) with true; [reflexivity|].
    clear. induction (List.length ks); cbn; auto. }
  destruct (mk_dims_ok (pad_shape sp pads) (repeat 1 (List.length ks)) ks ds ss (map (fun _ => (0, 0)%Z) (pad_shape sp pads))) as (dims & Hdims);
    rewrite ?repeat_length, ?map_length, ?pad_shape_length; auto; try (rewrite ?(cs_len_d _ _ _ _ _ _ Hc), ?(cs_len_s _ _ _ _ _ _ Hc); congruence); [apply repeat_pos|].
  destruct (circular_dims sp ks ds ss dims Hdims Hl (cs_len_d _ _ _ _ _ _ Hc) Hp) as (Hout & Hread).
  destruct (core_ok c ks ss ds cin cout xp (LStr "VALID") N (pad_shape sp pads) dims _ x1 Hc Hcp eq_refl ltac:(now rewrite pad_shape_length) Hlax Hdims) as (y & Ey & Hys & Hy).
  exists y. split; [exact Ey|]. split; [now rewrite Hys, Hout|]. intros b o f Hb Ho Hf. rewrite Hy, !conv_value_sum. f_equal.
  destruct (cs_groups _ _ _ _ _ _ Hc) as (Hg & Hgi & Hgo). rewrite (cs_ks _ _ _ _ _ _ Hc).
  apply kernel_sum_ext; auto; [lia|]. intros kk Hkk. destruct (Hread o kk Ho Hkk) as (p & -> & Hpr & Hw). fold pads in Hpr, Hw. intros ch Hch.
  rewrite <- (cin_eq _ _ _ _ _ _ Hc) in Hch. unfold xp. cbn [t_at app]. rewrite Hs. cbn [wrap_idx].
  rewrite Z.sub_0_r, Z.mod_small, Nat2Z.id by lia. pose proof (in_range_length _ _ Hpr) as Hpl. rewrite pad_shape_length in Hpl.
  rewrite wrap_idx_snoc by assumption. now rewrite Hw.
Qed.
Lemma zip_range_length {A B C} (f : A -> B -> C) a b n : List.length a = n -> List.length b = n -> List.length (zip_with f a b) = n.
Proof. intros <- H. now apply zip_length. Qed.
Lemma circular_call c ks ss ds cin cout x bs sp :
  conv_shape c ks ss ds cin cout -> cv_padding c = PStr "CIRCULAR" ->
  t_shape x = bs ++ sp ++ [cin] -> List.length sp = List.length ks -> Forall (fun n => 0 < n) sp ->
  exists y, conv_call c x = Ok y /\ t_shape y = bs ++ zip_with ceil_div sp ss ++ [cout] /\
    forall b o f, in_range bs b -> in_range (zip_with ceil_div sp ss) o -> f < cout ->
      t_at y (b ++ o ++ [f]) = conv_value c x cin cout (fun kk => Some (circular_read sp ks ds ss o kk)) b f.
Proof.
  intros Hc Hpad Hs Hl Hp.
  apply (lift_batch c x bs sp ks ss ds cin cout (zip_with ceil_div sp ss) (fun o kk => Some (circular_read sp ks ds ss o kk))); auto.
  - intros o kk p Ho Hk E. injection E as <-. apply in_range_length in Ho, Hk.
    rewrite zip_length in Ho by (rewrite (cs_len_s _ _ _ _ _ _ Hc); exact Hl).
    apply circular_read_range; auto; try congruence; [apply (cs_len_d _ _ _ _ _ _ Hc)|apply (cs_len_s _ _ _ _ _ _ Hc)].
  - intros x1 Hs1. eapply circular_core; eauto.
Qed.

(** ** VALID, SAME and explicit padding *)
Lemma out_size_padded n k d s p : 0 < k -> 0 < s -> out_size n 1 k d s p = padded_size n k d s p.
Proof.
  intros Hk Hs. unfold out_size, padded_size. rewrite dilated_1, span_dilated by exact Hk.
  set (t := (Z.of_nat n + fst p + snd p)%Z).
  destruct (Z.leb_spec (Z.of_nat (span k d)) t), (Z.ltb_spec (t - Z.of_nat (span k d)) 0); try lia.
  pose proof (Z.div_pos (t - Z.of_nat (span k d)) (Z.of_nat s) ltac:(lia) ltac:(lia)). lia.
Qed.
Lemma read_pos_padded n d s p o k :
  read_pos n 1 d s p o k =
  let q := (Z.of_nat (o * s + k * d) - fst p)%Z in
  if (q <? 0)%Z then None else if (Z.of_nat n <=? q)%Z then None else Some (Z.to_nat q).
Proof.
  unfold read_pos. rewrite dilated_1, Z.mod_1_r, Z.div_1_r. cbn [Z.eqb]. cbv zeta.
  replace (Z.of_nat (o * s + k * d)) with (Z.of_nat o * Z.of_nat s + Z.of_nat k * Z.of_nat d)%Z by (rewrite Nat2Z.inj_add, !Nat2Z.inj_mul; reflexivity).
  set (q := (_ - fst p)%Z). destruct (Z.leb_spec 0 q), (Z.ltb_spec q 0); try lia; cbn [andb]; auto.
  destruct (Z.ltb_spec q (Z.of_nat n)), (Z.leb_spec (Z.of_nat n) q); try lia; reflexivity.
Qed.
Lemma padded_dims : forall ns ks ds ss pads dims,
  mk_dims ns (repeat 1 (List.length ks)) ks ds ss pads = Ok dims ->
  map dim_out dims = padded_sizes ns ks ds ss pads /\
  forall o kk, List.length o = List.length ks -> List.length kk = List.length ks -> read_all dims o kk = padded_read ns ds ss pads o kk.
Proof.
  induction ns as [|n ns IH]; intros [|k ks] [|d ds] [|s ss] [|p pads] dims E; cbn [List.length repeat mk_dims] in E; try discriminate.
  - injection E as <-. split; auto.
  - cbn [Nat.eqb] in E. destruct (Nat.eqb_spec d 0); [discriminate|]. destruct (Nat.eqb_spec s 0); [discriminate|].
    destruct (Nat.eqb_spec k 0); [discriminate|]. cbn [orb] in E.
    destruct (mk_dims ns _ ks ds ss pads) as [l|] eqn:El; [|discriminate]. cbn [rbind] in E. injection E as <-.
    destruct (IH ks ds ss pads l El) as (IHo & IHr). split.
    + cbn [map padded_sizes]. rewrite IHo. f_equal. unfold dim_out. cbn [dm_n dm_ld dm_k dm_rd dm_s dm_pad]. apply out_size_padded; lia.
    + intros [|i o] [|j kk] Ho Hk; try discriminate. cbn [read_all padded_read dm_n dm_ld dm_k dm_rd dm_s dm_pad].
      rewrite read_pos_padded, IHr by (cbn in *; lia). cbv zeta. destruct (_ <? 0)%Z; auto. destruct (_ <=? _)%Z; auto.
Qed.
Lemma padded_read_range : forall ns ds ss pads o kk p, List.length ds = List.length ns -> List.length ss = List.length ns -> List.length pads = List.length ns ->
  List.length o = List.length ns -> List.length kk = List.length ns -> padded_read ns ds ss pads o kk = Some p -> in_range ns p.
Proof.
  induction ns as [|n ns IH]; intros [|d ds] [|s ss] [|q pads] [|i o] [|j kk] p H1 H2 H3 H4 H5 E; try discriminate; cbn [padded_read] in E.
  - injection E as <-. constructor.
  - cbv zeta in E. destruct (Z.ltb_spec (Z.of_nat (i * s + j * d) - fst q) 0); [discriminate|].
    destruct (Z.leb_spec (Z.of_nat n) (Z.of_nat (i * s + j * d) - fst q)); [discriminate|].
    destruct (padded_read ns ds ss pads o kk) as [r|] eqn:Er; [|discriminate]. injection E as <-. cbn in *.
    constructor; [lia|]. eapply (IH ds ss pads o kk); eauto.
Qed.

Lemma int_pads_ok ps : int_pads (map (fun q => (PInt (fst q), PInt (snd q))) ps) = Ok ps.
Proof. induction ps as [|[a b] ps IH]; cbn; auto. now rewrite IH. Qed.
Lemma forallb_ones m : forallb (Nat.eqb 1) (repeat 1 m) = true.
Proof. induction m; cbn; auto. Qed.
Lemma same_pads_ok : forall ns ks ds ss ps, all_same_pads ns ks ds ss ps -> Forall (fun n => 0 < n) ks -> map4 same_pad ns ks ds ss = ps.
Proof.
  induction 1 as [|n k d s p ns ks ds ss ps Hp H IH]; intros Hk; cbn [map4]; auto. inversion Hk; subst. rewrite IH by assumption. f_equal.
  destruct Hp as (Hp1 & Hp2). destruct p as [a b]. cbn [fst snd] in *. unfold same_pad. rewrite span_dilated by assumption. fold (ceil_div n s). f_equal; lia.
Qed.
Lemma all_same_length ns ks ds ss ps : all_same_pads ns ks ds ss ps -> List.length ps = List.length ns.
Proof. induction 1; cbn; congruence. Qed.
Lemma asks_pad c ks ss ds cin cout x1 sp pads :
  conv_shape c ks ss ds cin cout -> List.length sp = List.length ks -> asks sp ks ds ss (cv_padding c) pads ->
  List.length pads = List.length sp /\
  exists p, conv_pad c x1 = Ok (x1, p) /\ lax_pads p sp (repeat 1 (List.length ks)) ks ds ss = Ok pads.
Proof.
  intros Hc Hl Ha. destruct (cs_pos _ _ _ _ _ _ Hc) as (Hk0 & _). inversion Ha as [E1 E2|ps Hp E1 E2|p ps Hp E1 E2].
  - split; [apply repeat_length|]. exists (LStr "VALID"). unfold conv_pad. rewrite <- E1. split; [reflexivity|].
    unfold lax_pads. rewrite forallb_ones. cbn. f_equal. clear. induction sp; cbn; congruence.
  - subst ps. split; [eapply all_same_length; eauto|]. exists (LStr "SAME"). unfold conv_pad. rewrite <- E1. split; [reflexivity|].
    unfold lax_pads. rewrite forallb_ones. cbn. f_equal. now apply same_pads_ok.
  - subst p ps. rewrite Hl in Hp.
    assert (Hlen : List.length pads = List.length ks).
    { rewrite <- (map_length (fun q => (PInt (fst q), PInt (snd q)))). inversion Hp as [|z E3 E4|l r E3 E5 E4|l r E3 E5 E4]; [apply repeat_length| |]; rewrite <- E3; symmetry; eapply Forall2_len; eassumption. }
    split; [congruence|].
    exists (LPairs (map (fun q => (PInt (fst q), PInt (snd q))) pads)). unfold conv_pad. rewrite (cs_ks _ _ _ _ _ _ Hc).
    rewrite (proj2 (canon_pad_spec _ _ _) Hp). split; [reflexivity|]. apply int_pads_ok.
Qed.

Lemma padded_call c ks ss ds cin cout x bs sp pads :
  conv_shape c ks ss ds cin cout -> t_shape x = bs ++ sp ++ [cin] -> List.length sp = List.length ks ->
  asks sp ks ds ss (cv_padding c) pads ->
  exists y, conv_call c x = Ok y /\ t_shape y = bs ++ padded_sizes sp ks ds ss pads ++ [cout] /\
    forall b o f, in_range bs b -> in_range (padded_sizes sp ks ds ss pads) o -> f < cout ->
      t_at y (b ++ o ++ [f]) = conv_value c x cin cout (padded_read sp ds ss pads o) b f.
Proof.
  intros Hc Hs Hl Ha. pose proof (cs_len_d _ _ _ _ _ _ Hc) as Hld. pose proof (cs_len_s _ _ _ _ _ _ Hc) as Hls.
  destruct (asks_pad c ks ss ds cin cout x sp pads Hc Hl Ha) as (Hlp & _).
  destruct (cs_pos _ _ _ _ _ _ Hc) as (Hk0 & Hs0 & Hd0).
  destruct (mk_dims_ok sp (repeat 1 (List.length ks)) ks ds ss pads) as (dims & Hdims); rewrite ?repeat_length; auto; try congruence; [apply repeat_pos|].
  destruct (padded_dims _ _ _ _ _ _ Hdims) as (Hout & Hread).
  assert (Hlo : List.length (padded_sizes sp ks ds ss pads) = List.length ks).
  { rewrite <- Hout, map_length. destruct (mk_dims_spec _ _ _ _ _ _ _ Hdims) as (_ & _ & <- & _). now rewrite map_length. }
  apply (lift_batch c x bs sp ks ss ds cin cout (padded_sizes sp ks ds ss pads) (padded_read sp ds ss pads)); auto.
  - intros o kk p Ho Hkk E. apply in_range_length in Ho, Hkk. eapply padded_read_range; [| | | | |exact E]; congruence.
  - intros x1 Hs1. destruct (asks_pad c ks ss ds cin cout x1 sp pads Hc Hl Ha) as (_ & p & Hcp & Hlax).
    destruct (core_ok c ks ss ds cin cout x1 p (prod bs) sp dims pads x1 Hc Hcp Hs1 Hl Hlax Hdims) as (y & Ey & Hys & Hy).
    exists y. split; [exact Ey|]. split; [now rewrite Hys, Hout|]. intros b o f Hb Ho Hf. rewrite Hy, !conv_value_sum. f_equal.
    unfold kernel_sum. apply qsum_ext. intros kk Hkk. apply in_all_idx in Hkk. rewrite (cs_ks _ _ _ _ _ _ Hc) in Hkk. apply in_range_length in Ho, Hkk.
    rewrite Hread by congruence. reflexivity.
Qed.

(** SAME keeps ceil (n / stride) *)
Lemma same_size n k d s p : 0 < s -> 0 < n -> same_pads n k d s p -> padded_size n k d s p = ceil_div n s.
Proof.
  intros Hs Hn (H1 & H2). unfold padded_size. replace (Z.of_nat n + fst p + snd p)%Z with (Z.of_nat n + (fst p + snd p))%Z by lia. rewrite H2.
  assert (Hsp : 1 <= span k d) by (unfold span; apply Nat.le_add_l).
  set (out := ceil_div n s). assert (Ho : (out - 1) * s < n /\ n <= out * s /\ 0 < out).
  { unfold out. rewrite ceil_div_pos by assumption. pose proof (Nat.div_mod (n - 1) s ltac:(lia)). pose proof (Nat.mod_upper_bound (n - 1) s ltac:(lia)).
    rewrite Nat.add_sub. nia. }
  clearbody out. destruct Ho as (Ho1 & Ho2 & Ho3). destruct out as [|o]; [lia|]. cbn [Nat.sub] in *. rewrite Nat.sub_0_r in *.
  replace (Z.of_nat (S o) - 1)%Z with (Z.of_nat o) by lia. set (K := span k d) in *. clearbody K.
  rewrite <- Nat2Z.inj_mul. set (os := o * s) in *. assert (Hos : S o * s = os + s) by (unfold os; lia). rewrite Hos in Ho2.
  destruct (Z.max_spec 0 (Z.of_nat os + Z.of_nat K - Z.of_nat n)) as [(Hm & ->)|(Hm & ->)].
  - replace (Z.of_nat n + (Z.of_nat os + Z.of_nat K - Z.of_nat n) - Z.of_nat K)%Z with (Z.of_nat os) by lia.
    destruct (Z.ltb_spec (Z.of_nat os) 0); [lia|]. rewrite <- Nat2Z.inj_div, Nat2Z.id. unfold os. rewrite Nat.div_mul by lia. reflexivity.
  - replace (Z.of_nat n + 0 - Z.of_nat K)%Z with (Z.of_nat (n - K)) by lia.
    destruct (Z.ltb_spec (Z.of_nat (n - K)) 0); [lia|]. rewrite <- Nat2Z.inj_div, Nat2Z.id. f_equal.
    symmetry. apply (Nat.div_unique (n - K) s o (n - K - os)); [lia|]. unfold os in *. lia.
Qed.
Lemma same_sizes : forall ns ks ds ss ps, all_same_pads ns ks ds ss ps -> Forall (fun n => 0 < n) ss -> Forall (fun n => 0 < n) ns ->
  padded_sizes ns ks ds ss ps = zip_with ceil_div ns ss.
Proof.
  induction 1 as [|n k d s p ns ks ds ss ps Hp H IH]; intros Hs Hn; cbn [padded_sizes zip_with]; auto.
  inversion Hs; inversion Hn; subst. rewrite IH by assumption. f_equal. now apply same_size.
Qed.

(** ** CAUSAL *)
Lemma causal_call c k s d cin cout x bs n :
  conv_shape c [k] [s] [d] cin cout -> cv_padding c = PStr "CAUSAL" -> t_shape x = bs ++ [n; cin] -> 0 < n ->
  exists y, conv_call c x = Ok y /\ t_shape y = bs ++ [ceil_div n s; cout] /\
    forall b t f, in_range bs b -> t < ceil_div n s -> f < cout ->
      t_at y (b ++ [t; f]) =
      conv_value c x cin cout (fun kk => match causal_read k d s t (nth 0 kk 0) with Some p => Some [p] | None => None end) b f.
Proof.
  intros Hc Hpad Hs Hn. destruct (cs_pos _ _ _ _ _ _ Hc) as (Hk0 & Hs0 & Hd0).
  assert (Hk : 0 < k) by now inversion Hk0. assert (Hst : 0 < s) by now inversion Hs0. assert (Hd : 0 < d) by now inversion Hd0.
  destruct (lift_batch c x bs [n] [k] [s] [d] cin cout [ceil_div n s]
              (fun o kk => match causal_read k d s (nth 0 o 0) (nth 0 kk 0) with Some p => Some [p] | None => None end)) as (y & Ey & Hys & Hy); auto.
  - intros o kk p Ho Hkk E. inversion Ho as [|t ? o' ? Ht Ho']; subst. inversion Ho'; subst. inversion Hkk as [|j ? kk' ? Hj Hk']; subst. inversion Hk'; subst.
    cbn [nth] in E. unfold causal_read in E. destruct (Nat.leb_spec ((k - 1 - j) * d) (t * s)); [|discriminate]. injection E as <-.
    constructor; [|constructor]. pose proof (ceil_div_bound n s t Hn Hst Ht). eapply Nat.le_lt_trans; [apply Nat.le_sub_l|assumption].
  - intros x1 Hs1. set (L := d * (k - 1)). cbn [app] in Hs1.
    set (xp := mkT (prod bs :: [L + n + 0] ++ [cin])
                 (fun idx => match zero_idx (t_shape x1) [(0, 0); (L, 0); (0, 0)] idx with Some i => t_at x1 i | None => 0%Qc end)).
    assert (Hcp : conv_pad c x1 = Ok (xp, LStr "VALID")).
    { unfold conv_pad. rewrite Hpad, (cs_ks _ _ _ _ _ _ Hc), (proj1 (per_axis_eq _ _ _) (cs_ds _ _ _ _ _ _ Hc)). cbn [canonicalize_padding rbind List.length].
      change (String.eqb "CAUSAL" "CIRCULAR") with false. change (String.eqb "CAUSAL" "CAUSAL") with true. cbn [Nat.eqb negb nth]. fold L.
      unfold pad_zero. rewrite Hs1. cbn [List.length Nat.eqb rbind]. unfold xp. rewrite Hs1. cbn [pad_shape Nat.add app]. now rewrite !Nat.add_0_r. }
    assert (Hlax : lax_pads (LStr "VALID") [L + n + 0] (repeat 1 (List.length [k])) [k] [d] [s] = Ok [(0, 0)%Z]) by reflexivity.
    assert (Hdims : mk_dims [L + n + 0] (repeat 1 (List.length [k])) [k] [d] [s] [(0, 0)%Z] = Ok [mkDim (L + n + 0) 1 k d s (0, 0)%Z]).
    { cbn. destruct (Nat.eqb_spec d 0); [lia|]. destruct (Nat.eqb_spec s 0); [lia|]. destruct (Nat.eqb_spec k 0); [lia|]. reflexivity. }
    destruct (core_ok c [k] [s] [d] cin cout xp (LStr "VALID") (prod bs) [L + n + 0] _ _ x1 Hc Hcp eq_refl eq_refl Hlax Hdims) as (y & Ey & Hys & Hy).
    assert (HL : L = span k d - 1) by (unfold span, L; rewrite Nat.add_sub; lia).
    exists y. split; [exact Ey|]. split.
    { rewrite Hys. cbn [map app]. unfold dim_out. cbn [dm_n dm_ld dm_k dm_rd dm_s dm_pad].
      replace (L + n + 0) with (n + L) by lia. now rewrite (valid_out n k d s L). }
    intros b o f Hb Ho Hf. rewrite Hy, !conv_value_sum. f_equal. destruct (cs_groups _ _ _ _ _ _ Hc) as (Hg & Hgi & Hgo). rewrite (cs_ks _ _ _ _ _ _ Hc).
    apply kernel_sum_ext; auto; [lia|]. intros kk Hkk.
    inversion Ho as [|t ? o' ? Ht Ho']; subst. inversion Ho'; subst. inversion Hkk as [|j ? kk' ? Hj Hk']; subst. inversion Hk'; subst.
    pose proof (ceil_div_bound n s t Hn Hst Ht) as Hts.
    assert (Hsub : (k - 1 - j) * d + j * d = L) by (unfold L; nia).
    cbn [nth read_all dm_n dm_ld dm_rd dm_s dm_pad]. rewrite read_valid by nia. unfold causal_read.
    destruct (Nat.leb_spec ((k - 1 - j) * d) (t * s)) as [Hle|Hlt]; intros ch Hch; rewrite <- (cin_eq _ _ _ _ _ _ Hc) in Hch;
      unfold xp; cbn [t_at app]; rewrite Hs1; cbn [zero_idx Nat.leb Nat.add andb].
    + replace (Nat.ltb b (prod bs)) with true by (symmetry; now apply Nat.ltb_lt). cbn [andb].
      replace (Nat.leb L (t * s + j * d)) with true by (symmetry; apply Nat.leb_le; lia).
      replace (Nat.ltb (t * s + j * d) (L + n)) with true by (symmetry; apply Nat.ltb_lt; nia). cbn [andb].
      replace (Nat.ltb ch cin) with true by (symmetry; now apply Nat.ltb_lt). rewrite !Nat.sub_0_r.
      replace (t * s + j * d - L) with (t * s - (k - 1 - j) * d) by lia. reflexivity.
    + replace (Nat.ltb b (prod bs)) with true by (symmetry; now apply Nat.ltb_lt). cbn [andb].
      replace (Nat.leb L (t * s + j * d)) with false by (symmetry; apply Nat.leb_gt; lia). reflexivity.
  - exists y. split; [exact Ey|]. split; [exact Hys|]. intros b t f Hb Ht Hf. specialize (Hy b [t] f Hb). cbn [app nth] in Hy. apply Hy; auto.
    constructor; auto.
Qed.
