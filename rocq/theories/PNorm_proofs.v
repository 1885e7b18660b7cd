From Coq Require Import ZArith QArith Qcanon Lia Permutation.
From Verif Require Import PyBase ModuleM ContextM TensorM NnM Spec_Nn Tensor_proofs Dropout_proofs Norm_proofs BatchNorm_proofs LayerNorm_proofs PNormM Spec_PNorm.
Local Open Scope string_scope.
Local Open Scope nat_scope.
Local Open Scope list_scope.

(** ** lists *)
Lemma rmapM_forall2 {A B} (f : A -> result B) (P : A -> B -> Prop) : forall l,
  (forall x, In x l -> exists y, f x = Ok y /\ P x y) ->
  exists l', rmapM f l = Ok l' /\ Forall2 P l l'.
Proof.
  induction l as [|x l IH]; intros H; cbn [rmapM]; [exists []; split; [reflexivity|constructor]|].
  destruct (H x (or_introl eq_refl)) as (y & E & Hy). destruct IH as (l' & E' & Hl); [intros; apply H; now right|].
  exists (y :: l'). rewrite E. cbn [rbind]. rewrite E'. cbn [rbind]. split; [reflexivity|]. now constructor.
Qed.
Lemma forall2_nth {A B} (P : A -> B -> Prop) : forall l l', Forall2 P l l' -> forall d x, nth_error l d = Some x ->
  exists y, nth_error l' d = Some y /\ P x y.
Proof.
  intros l l' H. induction H as [|x y l l' Hxy H IH]; intros [|d] z E; cbn in *; try discriminate.
  - injection E as <-. eauto.
  - eauto.
Qed.
Lemma forall2_len {A B} (P : A -> B -> Prop) l l' : Forall2 P l l' -> List.length l' = List.length l.
Proof. intros H. induction H; cbn; congruence. Qed.

Lemma map_prod_qsum {A B} (F : A -> B -> Qc) (g : list A) (l : list B) :
  qsum (map (fun p => F (fst p) (snd p)) (list_prod g l)) = qsum (map (fun e => qsum (map (F e) l)) g).
Proof.
  induction g as [|e g IH]; cbn [list_prod map qsum]; [reflexivity|]. rewrite map_app, qsum_app, IH, map_map. reflexivity.
Qed.
Lemma qnat_mul a b : qnat (a * b) = (qnat a * qnat b)%Qc.
Proof.
  induction a as [|a IH]; cbn [Nat.mul]; [rewrite qnat_0; ring|].
  assert (Hp : forall x y, qnat (x + y) = (qnat x + qnat y)%Qc).
  { clear. induction x as [|x IH]; intros y; cbn [Nat.add]; [rewrite qnat_0; ring|]. rewrite !qnat_S, IH. ring. }
  rewrite Hp, IH, qnat_S. ring.
Qed.
(** the average of the averages *)
Lemma average_prod {A B} (F : A -> B -> Qc) (g : list A) (l : list B) : g <> [] -> l <> [] ->
  (qsum (map (fun e => average (map (F e) l)) g) / qnat (List.length g))%Qc =
  average (map (fun p => F (fst p) (snd p)) (list_prod g l)).
Proof.
  intros Hg Hl. unfold average. rewrite map_length, prod_length, qnat_mul, map_prod_qsum.
  assert (Hqg : qnat (List.length g) <> 0%Qc) by (apply qnat_neq; destruct g; [congruence|discriminate]).
  assert (Hql : qnat (List.length l) <> 0%Qc) by (apply qnat_neq; destruct l; [congruence|discriminate]).
  rewrite (qsum_ext _ (fun e => (/ qnat (List.length l)) * qsum (map (F e) l))%Qc).
  - rewrite (qsum_scale (/ qnat (List.length l))%Qc). field. split; assumption.
  - intros e _. rewrite map_length. unfold Qcdiv. ring.
Qed.
Lemma flat_prod {A B C} (F : A -> B -> C) (g : list A) (l : list B) :
  flat_map (fun e => map (F e) l) g = map (fun p => F (fst p) (snd p)) (list_prod g l).
Proof. induction g as [|e g IH]; cbn [list_prod flat_map map]; [reflexivity|]. rewrite map_app, map_map, IH. reflexivity. Qed.
Lemma prod_nil {A B} (g : list A) (l : list B) : g <> [] -> l <> [] -> list_prod g l <> [].
Proof. destruct g, l; cbn; congruence. Qed.

(** ** groups *)
Lemma find_group gs d g : NoDup (List.concat gs) -> In g gs -> In d g -> find (fun g => existsb (Nat.eqb d) g) gs = Some g.
Proof.
  induction gs as [|h gs IH]; intros Hn Hg Hd; [destruct Hg|]. cbn [find].
  cbn [List.concat] in Hn. destruct (existsb (Nat.eqb d) h) eqn:E.
  - apply existsb_eqb_in in E. destruct Hg as [<-|Hg]; auto. exfalso.
    revert Hn E. clear -Hg Hd. intros Hn. induction h as [|x h IH]; intros E; [destruct E|].
    cbn in Hn. inversion Hn as [|? ? H1 H2]; subst. destruct E as [->|E]; auto.
    apply H1. apply in_or_app. right. apply in_concat. eauto.
  - destruct Hg as [<-|Hg].
    + apply (existsb_eqb_in d) in Hd. congruence.
    + apply IH; auto. clear -Hn. induction h as [|x h IH]; auto. inversion Hn; auto.
Qed.
Lemma group_of_ok n groups d g : groups_ok n groups -> is_group n groups d g -> group_of n groups d = g /\
  (groups <> None -> In d g).
Proof.
  unfold groups_ok, is_group, group_of. destruct groups as [gs|]; [|intros _ ->; split; congruence].
  intros (Hn & _ & _) (Hg & Hd). rewrite (find_group gs d g Hn Hg Hd). auto.
Qed.
Lemma group_size_ok n groups d g : groups_ok n groups -> is_group n groups d g -> group_size n groups = List.length g.
Proof.
  unfold groups_ok, is_group, group_size. destruct groups as [gs|]; [|intros _ ->; now rewrite seq_length].
  intros (_ & _ & k & Hk) (Hg & _). destruct gs as [|h gs]; [destruct Hg|]. cbn [hd]. rewrite (Hk h), (Hk g); auto. now left.
Qed.
Lemma group_nonempty n groups d g : is_group n groups d g -> d < n -> g <> [].
Proof.
  unfold is_group. destruct groups as [gs|]; [intros (_ & Hd) _ ->; destruct Hd|]. intros -> H E. destruct n; [lia|discriminate].
Qed.
Lemma group_exists n groups d : groups_ok n groups -> d < n -> exists g, is_group n groups d g.
Proof.
  unfold groups_ok, is_group. destruct groups as [gs|]; [|eauto]. intros (_ & H & _) Hd. apply H in Hd. apply in_concat in Hd.
  destruct Hd as (g & Hg & Hd). eauto.
Qed.
Lemma group_members n groups d g e : groups_ok n groups -> is_group n groups d g -> In e g -> e < n.
Proof.
  unfold groups_ok, is_group. destruct groups as [gs|].
  - intros (_ & H & _) (Hg & _) He. apply H. apply in_concat. eauto.
  - intros _ -> He. apply in_seq in He. lia.
Qed.
Lemma groups_fit_ok n groups : groups_ok n groups -> groups_check groups = true /\ groups_fit n groups = true.
Proof.
  unfold groups_ok, groups_check, groups_fit. destruct groups as [gs|]; auto. intros (Hn & H & _).
  assert (Hl : List.length (List.concat gs) = n).
  { rewrite <- (seq_length n 0). apply Permutation_length, NoDup_Permutation; auto using seq_NoDup.
    intros d. rewrite H, in_seq. lia. }
  split; [|now apply Nat.eqb_eq].
  apply forallb_forall. intros d Hd. apply in_seq in Hd. apply existsb_eqb_in, H. lia.
Qed.
Lemma groups_check_false gs : ~ Permutation (List.concat gs) (seq 0 (List.length (List.concat gs))) -> groups_check (Some gs) = false.
Proof.
  intros H. cbn [groups_check]. destruct (forallb _ _) eqn:E; auto. exfalso. apply H. symmetry. rewrite forallb_forall in E.
  apply NoDup_Permutation_bis; [apply seq_NoDup|now rewrite seq_length|]. intros d Hd. apply existsb_eqb_in. now apply E.
Qed.

(** ** the statistics *)
Lemma nlist_eqb_refl l : nlist_eqb l l = true.
Proof. unfold nlist_eqb. destruct (list_eq_dec Nat.eq_dec l l); congruence. Qed.

Definition sq (x : tensor) : tensor := mkT (t_shape x) (fun i => (t_at x i * t_at x i)%Qc).

Definition joint (xs : list tensor) (p : nat * list nat) : Qc := t_at (on_device xs (fst p)) (snd p).

Lemma on_device_nth xs d x : nth_error xs d = Some x -> on_device xs d = x.
Proof. intros H. unfold on_device. now apply nth_error_nth. Qed.

(** [compute_stats_on] computes the statistics of all entries of a group *)
Lemma compute_stats_on_ok groups xs red s n0 s' :
  (forall x, In x xs -> t_shape x = s) -> kept red s = n0 :: s' -> groups_ok (List.length xs) groups ->
  exists stats, compute_stats_on groups xs red = Ok stats /\ List.length stats = List.length xs /\
    forall d g, d < List.length xs -> is_group (List.length xs) groups d g ->
      exists mean var, nth_error stats d = Some (mean, var) /\ t_shape mean = kept red s /\ t_shape var = kept red s /\
        forall k, in_range (kept red s) k -> fiber s red k <> [] ->
          let l := list_prod g (fiber s red k) in
          t_at mean k = average (map (joint xs) l) /\
          t_at var k = average (map (fun p => (joint xs p - average (map (joint xs) l)) * (joint xs p - average (map (joint xs) l)))%Qc l).
Proof.
  intros Hs Hk Hg. unfold compute_stats_on.
  set (cc := fun x => mkT (n0 + n0 :: s') (fun idx => match idx with
                       | [] => 0%Qc
                       | i :: t => if i <? n0 then t_at (mean_over x red) (i :: t) else t_at (mean_over (sq x) red) (i - n0 :: t)
                       end)).
  assert (Hc : rmapM (fun x => concat0 (mean_over x red) (mean_over (mkT (t_shape x) (fun i => (t_at x i * t_at x i)%Qc)) red)) xs = Ok (map cc xs)).
  { clear Hg. induction xs as [|x xs IH]; [reflexivity|]. cbn [rmapM map]. unfold concat0 at 1. cbn [mean_over t_shape].
    rewrite (Hs x (or_introl eq_refl)), Hk, nlist_eqb_refl. cbn [rbind]. rewrite IH by (intros; apply Hs; now right). cbn [rbind].
    unfold cc at 2, sq. cbn [mean_over t_at t_shape]. rewrite (Hs x (or_introl eq_refl)). reflexivity. }
  cbv zeta. rewrite Hc. cbn [rbind]. unfold pmean. rewrite map_length. destruct (groups_fit_ok _ _ Hg) as (-> & ->). cbn [negb rbind].
  set (D := List.length xs) in *.
  match goal with |- context [rmapM ?f ?l] => set (F := f); set (L := l) end.
  assert (HL : List.length L = D) by (unfold L; now rewrite map_length, seq_length).
  destruct (rmapM_forall2 F (fun p y => F p = Ok y) L) as (stats & E & H2).
  { intros p Hp. unfold L in Hp. apply in_map_iff in Hp. destruct Hp as (d & <- & Hd). apply in_seq in Hd.
    unfold F, split0. cbn [t_shape]. unfold on_device.
    rewrite (nth_indep (map cc xs) _ (cc (mkT [] (fun _ => 0%Qc)))) by (rewrite map_length; fold D; lia). rewrite map_nth. cbn [cc t_shape].
    replace (Nat.even (n0 + n0)) with true by (symmetry; apply Nat.even_spec; exists n0; lia). cbn [rbind]. eauto. }
  exists stats. split; [exact E|]. split; [rewrite <- HL; exact (forall2_len _ _ _ H2)|].
  intros d g Hd Hgr.
  assert (Hn : nth_error L d = Some (mkT (n0 + n0 :: s')
       (fun idx => (qsum (map (fun e => t_at (on_device (map cc xs) e) idx) g) / qnat (List.length g))%Qc))).
  { unfold L. rewrite nth_error_map. rewrite (nth_error_nth' _ 0) by now rewrite seq_length. rewrite seq_nth by exact Hd. cbn [Nat.add option_map].
    rewrite (proj1 (group_of_ok _ _ _ _ Hg Hgr)), (group_size_ok _ _ _ _ Hg Hgr). f_equal. f_equal. unfold on_device.
    rewrite (nth_indep (map cc xs) _ (cc (mkT [] (fun _ => 0%Qc)))) by (now rewrite map_length). rewrite map_nth. reflexivity. }
  destruct (forall2_nth _ _ _ H2 d _ Hn) as ([mean var] & Ey & HF). exists mean, var. split; [exact Ey|].
  unfold F, split0 in HF. cbn [t_shape] in HF.
  replace (Nat.even (n0 + n0)) with true in HF by (symmetry; apply Nat.even_spec; exists n0; lia). cbn [rbind] in HF.
  replace ((n0 + n0) / 2) with n0 in HF by (symmetry; replace (n0 + n0) with (n0 * 2) by lia; apply Nat.div_mul; lia).
  injection HF as <- <-. cbn [t_shape t_at]. rewrite Hk. split; [reflexivity|]. split; [reflexivity|].
  intros k Hr Hne. destruct k as [|i t]; [inversion Hr|]. set (l := list_prod g (fiber s red (i :: t))). assert (Hi : i < n0) by now inversion Hr.
  assert (Hgn : g <> []) by now apply (group_nonempty _ _ _ _ Hgr Hd).
  assert (Hdev : forall e, In e g -> on_device (map cc xs) e = cc (on_device xs e) /\ t_shape (on_device xs e) = s).
  { intros e He. assert (e < D) by now apply (group_members _ _ _ _ e Hg Hgr). unfold on_device.
    rewrite (nth_indep (map cc xs) _ (cc (mkT [] (fun _ => 0%Qc)))) by (now rewrite map_length). rewrite map_nth. split; auto.
    apply Hs, nth_In. exact H. }
  assert (Hm : (qsum (map (fun e => t_at (on_device (map cc xs) e) (i :: t)) g) / qnat (List.length g))%Qc = average (map (joint xs) l)).
  { unfold l, joint. rewrite <- (average_prod (fun e j => t_at (on_device xs e) j)) by assumption. f_equal. apply qsum_ext.
    intros e He. destruct (Hdev e He) as (-> & Es). unfold cc. cbn [t_at]. destruct (Nat.ltb_spec i n0); [|lia]. cbn [mean_over t_at]. now rewrite Es. }
  assert (Hm2 : (qsum (map (fun e => t_at (on_device (map cc xs) e) ((n0 + i)%nat :: t)) g) / qnat (List.length g))%Qc =
                average (map (fun p => joint xs p * joint xs p)%Qc l)).
  { unfold l, joint. rewrite <- (average_prod (fun e j => t_at (on_device xs e) j * t_at (on_device xs e) j)%Qc) by assumption. f_equal. apply qsum_ext.
    intros e He. destruct (Hdev e He) as (-> & Es). unfold cc. cbn [t_at]. destruct (Nat.ltb_spec (n0 + i) n0); [lia|].
    replace (n0 + i - n0) with i by lia. cbn [mean_over t_at sq t_shape]. now rewrite Es. }
  split; [exact Hm|]. rewrite Hm, Hm2. rewrite variance_eq by now apply prod_nil. apply qmax0. apply variance_nonneg. now apply prod_nil.
Qed.

(** ** BatchNorm *)
Lemma obool_eqb_refl a : obool_eqb a a = true.
Proof. destruct a as [[|]|]; reflexivity. Qed.
Lemma Qc_eqb_refl a : Qc_eq_bool a a = true.
Proof. unfold Qc_eq_bool. destruct (Qc_eq_dec a a); congruence. Qed.
Lemma oshape_eqb_vec n a b : (forall t, a = Some t -> is_vec n t) -> (forall t, b = Some t -> is_vec n t) -> (b = None <-> a = None) ->
  oshape_eqb a b = true.
Proof.
  intros Ha Hb H. destruct a as [a|], b as [b|]; cbn; auto.
  - rewrite (Ha a eq_refl), (Hb b eq_refl). apply nlist_eqb_refl.
  - destruct H as (H & _). specialize (H eq_refl). discriminate.
  - destruct H as (_ & H). specialize (H eq_refl). discriminate.
Qed.
Lemma bn_one_program n b0 x0 devs : bn_devices_ok n ((b0, x0) :: devs) -> forallb (bn_same_program b0 x0) ((b0, x0) :: devs) = true.
Proof.
  intros H. apply forallb_forall. intros [b x] Hin.
  destruct (H b0 x0 b x (or_introl eq_refl) Hin) as ((W1 & W2 & W3 & W4) & _ & Es & E1 & E2 & E3 & E4 & E5 & E6).
  destruct (H b x b x Hin Hin) as ((V1 & V2 & V3 & V4) & _).
  unfold bn_same_program. cbn [fst snd]. rewrite E1, E2, E3, E4, Es, W1, W2, V1, V2, obool_eqb_refl, Z.eqb_refl, !Qc_eqb_refl, !nlist_eqb_refl.
  cbn [andb]. rewrite (oshape_eqb_vec n (bn_scale b0) (bn_scale b)), (oshape_eqb_vec n (bn_bias b0) (bn_bias b)) by assumption. reflexivity.
Qed.

Lemma channel_prod xs g a f s : (forall e, In e g -> t_shape (on_device xs e) = s) ->
  joint_channel xs g a f = map (joint xs) (list_prod g (filter (fun idx => Nat.eqb (nth a idx 0) f) (all_idx s))).
Proof.
  intros H. unfold joint_channel. rewrite <- (flat_prod (fun e i => t_at (on_device xs e) i)).
  induction g as [|e g IH]; cbn [flat_map]; auto. rewrite IH by (intros; apply H; now right). f_equal.
  unfold channel. now rewrite (H e (or_introl eq_refl)).
Qed.

Lemma combine_nth_error {A B} (l : list A) (l' : list B) d x y : nth_error l d = Some x -> nth_error l' d = Some y ->
  nth_error (combine l l') d = Some (x, y).
Proof. revert l' d. induction l as [|z l IH]; intros [|z' l'] [|d]; cbn; try discriminate; auto. congruence. Qed.
Lemma in_combine_nth {A B} (l : list A) (l' : list B) p : In p (combine l l') ->
  exists d, nth_error l d = Some (fst p) /\ nth_error l' d = Some (snd p).
Proof.
  revert l'. induction l as [|z l IH]; intros [|z' l']; cbn; try contradiction. intros [<-|H]; [exists 0; auto|].
  destruct (IH l' H) as (d & H1 & H2). exists (S d). auto.
Qed.

Definition bn_trained (rsqrt : Qc -> Qc) (n : nat) (xs : list tensor) (g : list nat) (b : batchnorm) (x : tensor) (b' : batchnorm) (y : tensor) : Prop :=
  let a := axis_of (List.length (t_shape x)) (bn_axis b) in
  let m := bn_momentum b in
  bn_wf n b' /\ same_config b b' /\
  (forall f, f < n -> t_at (bn_mean b') [f] = (m * t_at (bn_mean b) [f] + (1 - m) * mean_of (joint_channel xs g a f))%Qc) /\
  (forall f, f < n -> t_at (bn_var b') [f] = (m * t_at (bn_var b) [f] + (1 - m) * variance_of (joint_channel xs g a f))%Qc) /\
  bn_out rsqrt b x a (fun f => mean_of (joint_channel xs g a f)) (fun f => variance_of (joint_channel xs g a f)) y.

Lemma nth_error_lt {A} (l : list A) d x : nth_error l d = Some x -> d < List.length l.
Proof. intros H. apply nth_error_Some. congruence. Qed.

Lemma bn_train_on rsqrt n groups devs ura ctx :
  devs <> [] -> bn_devices_ok n devs -> groups_ok (List.length devs) groups ->
  (forall b x, In (b, x) devs -> flag_of ura (bn_ura b) ctx "use_running_average" = Some false) ->
  exists out, bn_call_on rsqrt groups devs ura ctx = Ok out /\ List.length out = List.length devs /\
    forall d b x g, nth_error devs d = Some (b, x) -> is_group (List.length devs) groups d g ->
      exists b' y, nth_error out d = Some (b', y) /\ bn_trained rsqrt n (map snd devs) g b x b' y.
Proof.
  intros Hne Hok Hg Hfl. destruct devs as [|[b0 x0] devs']; [congruence|]. set (devs := (b0, x0) :: devs') in *.
  assert (H0 : In (b0, x0) devs) by now left.
  destruct (Hok b0 x0 b0 x0 H0 H0) as (W0 & F0 & _). pose proof F0 as (Hv & Hn & Hp).
  set (s := t_shape x0) in *. set (a := axis_of (List.length s) (bn_axis b0)) in *.
  destruct (axis_of_valid _ _ Hv) as (Ha & _). fold a in Ha.
  assert (Hsh : forall x, In x (map snd devs) -> t_shape x = s).
  { intros x Hx. apply in_map_iff in Hx. destruct Hx as ([b x'] & <- & Hin). apply (Hok b0 x0 b x' H0 Hin). }
  set (red := others (List.length s) a).
  assert (Hk : kept red s = [n]) by (unfold red; rewrite kept_others by auto; now rewrite Hn).
  destruct (compute_stats_on_ok groups (map snd devs) red s n [] Hsh Hk) as (stats & Es & Hl & Hst).
  { now rewrite map_length. }
  rewrite map_length in Hl, Hst.
  assert (Hstat : forall d g, d < List.length devs -> is_group (List.length devs) groups d g -> exists mean var,
            nth_error stats d = Some (mean, var) /\ is_vec n mean /\ is_vec n var /\
            forall f, f < n -> t_at mean [f] = mean_of (joint_channel (map snd devs) g a f) /\ t_at var [f] = variance_of (joint_channel (map snd devs) g a f)).
  { intros d g Hd Hgr. destruct (Hst d g Hd Hgr) as (mean & var & En & Hms & Hvs & Hat). exists mean, var.
    rewrite Hk in Hms, Hvs, Hat. split; [exact En|]. split; [exact Hms|]. split; [exact Hvs|]. intros f Hf.
    destruct (Hat [f]) as (H1 & H2); [repeat constructor; exact Hf| |].
    - unfold red. rewrite fiber_others by exact Ha. destruct (channel_inhabited s a f) as (idx & Hi); auto; [now rewrite Hn|].
      intros E. rewrite E in Hi. destruct Hi.
    - unfold red in H1, H2. rewrite fiber_others in H1, H2 by exact Ha.
      rewrite (channel_prod _ g a f s).
      + split; [exact H1|]. rewrite H2. unfold variance_of. rewrite map_map. reflexivity.
      + intros e He. apply Hsh. unfold on_device. apply nth_In. rewrite map_length. exact (group_members _ _ _ _ e Hg Hgr He). }
  assert (Heq : bn_call_on rsqrt groups devs ura ctx =
                rmapM (fun ds => let '((b, x), (mean, var)) := ds in
                                 let '(b', y) := bn_update rsqrt b x mean var in do y <- y; Ok (b', y)) (combine devs stats)).
  { unfold bn_call_on, devs at 1. fold devs. rewrite (bn_one_program n b0 x0 devs' Hok : forallb _ devs = true). cbn [negb].
    rewrite first_from_flag, (Hfl b0 x0 H0). cbn [rbind]. rewrite (bn_axes_ok n b0 x0 F0). cbn [snd]. fold s. fold a. fold red. rewrite Es. reflexivity. }
  rewrite Heq.
  destruct (rmapM_forall2 (fun ds => let '((b, x), (mean, var)) := ds in
                                 let '(b', y) := bn_update rsqrt b x mean var in do y <- y; Ok (b', y))
            (fun ds o => forall d g, nth_error devs d = Some (fst ds) -> nth_error stats d = Some (snd ds) -> is_group (List.length devs) groups d g ->
                          bn_trained rsqrt n (map snd devs) g (fst (fst ds)) (snd (fst ds)) (fst o) (snd o)) (combine devs stats)) as (out & Eo & H2).
  { intros [[b x] [mean var]] Hin. destruct (in_combine_nth _ _ _ Hin) as (d & Hd1 & Hd2). cbn [fst snd] in Hd1, Hd2.
    pose proof (nth_error_In _ _ Hd1) as Hinb. pose proof (nth_error_lt _ _ _ Hd1) as Hd.
    destruct (Hok b0 x0 b x H0 Hinb) as (_ & _ & Exs & _ & Eax & _).
    destruct (Hok b x b x Hinb Hinb) as (Wb & Fb & _).
    destruct (group_exists _ _ _ Hg Hd) as (g0 & Hg0). destruct (Hstat d g0 Hd Hg0) as (mean' & var' & En & Hms & Hvs & _).
    rewrite Hd2 in En. injection En as <- <-.
    destruct (bn_update_ok rsqrt n b x mean var Wb Fb Hms Hvs) as (b' & y & Eu & Hw' & Hc & Hm & Hvv & Ho).
    exists (b', y). rewrite Eu. cbn [rbind]. split; [reflexivity|]. cbn [fst snd]. intros d' g Hd1' Hd2' Hgr.
    pose proof (nth_error_lt _ _ _ Hd1') as Hd'.
    destruct (Hstat d' g Hd' Hgr) as (mean'' & var'' & En & _ & _ & Hval). rewrite Hd2' in En. injection En as <- <-.
    fold s in Exs. unfold bn_trained. cbv zeta. rewrite Exs, Eax in *. fold a in Hm, Hvv, Ho |- *.
    split; [exact Hw'|]. split; [exact Hc|]. split; [|split].
    - intros f Hf. rewrite Hm by exact Hf. now rewrite (proj1 (Hval f Hf)).
    - intros f Hf. rewrite Hvv by exact Hf. now rewrite (proj2 (Hval f Hf)).
    - eapply (bn_out_ext rsqrt n); [rewrite Exs; exact Hn|rewrite Exs; exact Ha| | |exact Ho]; intros f Hf; now apply Hval. }
  exists out. split; [exact Eo|]. split.
  { rewrite (forall2_len _ _ _ H2), combine_length, Hl. apply Nat.min_id. }
  intros d b x g Hd Hgr. destruct (Hstat d g (nth_error_lt _ _ _ Hd) Hgr) as (mean & var & En & _).
  destruct (forall2_nth _ _ _ H2 d _ (combine_nth_error _ _ _ _ _ Hd En)) as ([b' y] & Ey & HP).
  exists b', y. split; [exact Ey|]. exact (HP d g Hd En Hgr).
Qed.

Lemma bn_eval_on rsqrt n groups devs ura ctx :
  devs <> [] -> bn_devices_ok n devs ->
  (forall b x, In (b, x) devs -> flag_of ura (bn_ura b) ctx "use_running_average" = Some true) ->
  exists out, bn_call_on rsqrt groups devs ura ctx = Ok out /\ List.length out = List.length devs /\
    forall d b x, nth_error devs d = Some (b, x) ->
      exists y, nth_error out d = Some (b, y) /\ bn_call rsqrt b x ura ctx = (b, Ok y).
Proof.
  intros Hne Hok Hfl. destruct devs as [|[b0 x0] devs']; [congruence|]. set (devs := (b0, x0) :: devs') in *.
  assert (H0 : In (b0, x0) devs) by now left.
  unfold bn_call_on, devs at 1. fold devs. rewrite (bn_one_program n b0 x0 devs' Hok : forallb _ devs = true). cbn [negb].
  rewrite first_from_flag, (Hfl b0 x0 H0). cbn [rbind].
  destruct (rmapM_forall2 (fun d : batchnorm * tensor => let '(b, x) := d in do y <- bn_norm rsqrt b x (bn_mean b) (bn_var b); Ok (b, y))
             (fun d o => fst o = fst d /\ bn_call rsqrt (fst d) (snd d) ura ctx = (fst d, Ok (snd o))) devs) as (out & Eo & H2).
  { intros [b x] Hin. destruct (Hok b x b x Hin Hin) as (Wb & Fb & _). destruct (bn_eval rsqrt n b x ura ctx Wb Fb (Hfl b x Hin)) as (y & Ey & _).
    exists (b, y). cbn [fst snd]. split; [|auto]. revert Ey. unfold bn_call. rewrite first_from_flag, (Hfl b x Hin). intros Ey. injection Ey as Ey. rewrite Ey. reflexivity. }
  exists out. split; [exact Eo|]. split; [exact (forall2_len _ _ _ H2)|].
  intros d b x Hd. destruct (forall2_nth _ _ _ H2 d _ Hd) as ([b' y] & Ey & E1 & E2). cbn [fst snd] in *. subst b'. eauto.
Qed.

(** ** histories *)
Lemma devices_of n bs xs : bn_replicas n bs -> step_fits n bs xs -> bn_devices_ok n (combine bs xs).
Proof.
  intros Hr (Hl & Hs & Hf) b x b' x' H1 H2. pose proof (in_combine_l _ _ _ _ H1). pose proof (in_combine_l _ _ _ _ H2).
  pose proof (in_combine_r _ _ _ _ H1). pose proof (in_combine_r _ _ _ _ H2).
  destruct (Hr b b') as (W & E1 & E2 & E3 & E4 & E5); auto.
  split; [exact W|]. split; [auto|]. split; [auto|]. auto.
Qed.
Lemma map_snd_combine {A B} (l : list A) (l' : list B) : List.length l' = List.length l -> map snd (combine l l') = l'.
Proof. revert l'. induction l as [|x l IH]; intros [|y l'] H; cbn in *; try discriminate; auto. f_equal. apply IH. congruence. Qed.
Lemma map_fst_combine {A B} (l : list A) (l' : list B) : List.length l' = List.length l -> map fst (combine l l') = l.
Proof. revert l'. induction l as [|x l IH]; intros [|y l'] H; cbn in *; try discriminate; auto. f_equal. apply IH. congruence. Qed.

Lemma nth_in_dev xs x : In x xs -> In (on_device xs 0) xs.
Proof. destruct xs; cbn; [intros []|intros _; now left]. Qed.

Lemma bn_history_on rsqrt n groups : forall ops bs,
  bs <> [] -> bn_replicas n bs -> groups_ok (List.length bs) groups ->
  (forall xs u c, In (xs, u, c) ops -> step_fits n bs xs) ->
  let bs' := bn_run_on rsqrt groups bs ops in
  List.length bs' = List.length bs /\ bn_replicas n bs' /\
  forall d b g, nth_error bs d = Some b -> is_group (List.length bs) groups d g ->
    let steps := training_steps (bn_ura b) ops in
    exists b', nth_error bs' d = Some b' /\ same_config b b' /\
      (forall f, f < n -> t_at (bn_mean b') [f] = moving_average (bn_momentum b) (t_at (bn_mean b) [f]) (step_values mean_of (bn_axis b) g f steps)) /\
      (forall f, f < n -> t_at (bn_var b') [f] = moving_average (bn_momentum b) (t_at (bn_var b) [f]) (step_values variance_of (bn_axis b) g f steps)).
Proof.
  induction ops as [|[[xs u] c] ops IH]; intros bs Hne Hr Hg Hf bs'.
  - cbn in bs'. subst bs'. split; [reflexivity|]. split; [exact Hr|]. intros d b g Hd Hgr. exists b. split; [exact Hd|].
    split; [repeat split|]. cbn. split; intros; now rewrite moving_average_nil.
  - unfold bs'. cbn [bn_run_on]. assert (Hfx : step_fits n bs xs) by (eapply Hf; now left). pose proof Hfx as (Hl & Hsh & Hfit).
    pose proof (devices_of n bs xs Hr Hfx) as Hdev.
    assert (Hlc : List.length (combine bs xs) = List.length bs) by (rewrite combine_length, Hl; apply Nat.min_id).
    assert (Hcn : combine bs xs <> []) by (intros E; rewrite E in Hlc; destruct bs; [congruence|discriminate]).
    destruct bs as [|b0 bs0] eqn:Ebs; [congruence|]. rewrite <- Ebs in *. assert (Hb0 : In b0 bs) by (rewrite Ebs; now left).
    assert (Hura : forall b x, In (b, x) (combine bs xs) -> bn_ura b = bn_ura b0).
    { intros b x Hin. apply in_combine_l in Hin. apply (Hr b0 b Hb0 Hin). }
    assert (Hsame : flag_of u (bn_ura b0) c "use_running_average" <> Some false ->
              match bn_call_on rsqrt groups (combine bs xs) u c with Ok out => map fst out | Err _ => bs end = bs).
    { intros Hnf. destruct (flag_of u (bn_ura b0) c "use_running_average") as [[|]|] eqn:Efl; [|congruence|].
      - destruct (bn_eval_on rsqrt n groups (combine bs xs) u c Hcn Hdev) as (out & Eo & Hlo & Ho).
        { intros b x Hin. now rewrite (Hura b x Hin). }
        rewrite Eo. apply nth_ext with (d := b0) (d' := b0); [now rewrite map_length, Hlo|].
        intros i Hi. rewrite map_length, Hlo in Hi.
        destruct (nth_error (combine bs xs) i) as [[b x]|] eqn:Ei; [|apply nth_error_None in Ei; lia].
        destruct (Ho i b x Ei) as (y & Ey & _).
        rewrite (nth_error_nth (map fst out) i b0 (x := b)) by (rewrite nth_error_map, Ey; reflexivity).
        symmetry. apply nth_error_nth. rewrite <- (map_fst_combine bs xs Hl). now rewrite nth_error_map, Ei.
      - assert (Ee : bn_call_on rsqrt groups (combine bs xs) u c = Err ValueError).
        { destruct (combine bs xs) as [|[b1 x1] cs] eqn:Ec; [congruence|].
          assert (E1 : bn_ura b1 = bn_ura b0) by (apply (Hura b1 x1); now left).
          unfold bn_call_on. rewrite (bn_one_program n b1 x1 cs Hdev). cbn [negb]. rewrite first_from_flag, E1, Efl. reflexivity. }
        now rewrite Ee. }
    destruct (flag_of u (bn_ura b0) c "use_running_average") as [[|]|] eqn:Efl.
    + rewrite Hsame by congruence. destruct (IH bs Hne Hr Hg) as (H1 & H2 & H3); [intros; eapply Hf; right; eauto|].
      split; [exact H1|]. split; [exact H2|]. intros d b g Hd Hgr. specialize (H3 d b g Hd Hgr).
      assert (Eb : bn_ura b = bn_ura b0) by (apply (Hr b0 b Hb0); exact (nth_error_In _ _ Hd)).
      cbn [training_steps flat_map]. rewrite Eb, Efl in *. exact H3.
    + clear Hsame. destruct (bn_train_on rsqrt n groups (combine bs xs) u c Hcn Hdev) as (out & Eo & Hlo & Ho).
      { now rewrite Hlc. }
      { intros b x Hin. now rewrite (Hura b x Hin). }
      rewrite Eo. rewrite map_snd_combine in Ho by exact Hl. rewrite Hlc in *.
      assert (Hstep : forall d b g, nth_error bs d = Some b -> is_group (List.length bs) groups d g ->
                exists b' x, nth_error (map fst out) d = Some b' /\ In x xs /\ exists y, bn_trained rsqrt n xs g b x b' y).
      { intros d b g Hd Hgr. destruct (nth_error xs d) as [x|] eqn:Ex; [|apply nth_error_None in Ex; apply nth_error_lt in Hd; lia].
        destruct (Ho d b x g (combine_nth_error _ _ _ _ _ Hd Ex) Hgr) as (b' & y & Ey & Ht).
        exists b', x. rewrite nth_error_map, Ey. split; [reflexivity|]. split; [exact (nth_error_In _ _ Ex)|]. exists y. exact Ht. }
      assert (Hconf : forall b', In b' (map fst out) -> exists b, In b bs /\ same_config b b' /\ bn_wf n b').
      { intros b' Hin. apply In_nth_error in Hin. destruct Hin as (d & Hd). pose proof (nth_error_lt _ _ _ Hd) as Hlt. rewrite map_length, Hlo in Hlt.
        destruct (nth_error bs d) as [b|] eqn:Eb; [|apply nth_error_None in Eb; lia].
        destruct (group_exists _ _ _ Hg Hlt) as (g & Hgr). destruct (Hstep d b g Eb Hgr) as (b2 & x & Ed & _ & y & Ht).
        rewrite Hd in Ed. injection Ed as <-. exists b. split; [exact (nth_error_In _ _ Eb)|]. split; apply Ht. }
      assert (Hr' : bn_replicas n (map fst out)).
      { intros p q Hp Hq. destruct (Hconf p Hp) as (p0 & Hp0 & (C1 & C2 & C3 & C4 & C5 & C6) & Wp).
        destruct (Hconf q Hq) as (q0 & Hq0 & (K1 & K2 & K3 & K4 & K5 & K6) & _).
        destruct (Hr p0 q0 Hp0 Hq0) as (_ & E1 & E2 & E3 & E4 & E5 & E6).
        rewrite C1, C2, C3, C4, C5, C6, K1, K2, K3, K4, K5, K6. auto 10. }
      assert (Hlm : List.length (map fst out) = List.length bs) by now rewrite map_length.
      destruct (IH (map fst out)) as (H1 & H2 & H3).
      { intros E. rewrite E in Hlm. cbn in Hlm. destruct bs; [congruence|discriminate]. }
      { exact Hr'. }
      { now rewrite Hlm. }
      { intros ys u' c' Hin. destruct (Hf ys u' c' (or_intror Hin)) as (F1 & F2 & F3).
        split; [now rewrite Hlm|]. split; [exact F2|]. intros b' y Hb' Hy. destruct (Hconf b' Hb') as (b & Hb & Hc & _).
        eapply bn_fits_config; [exact Hc|]. now apply F3. }
      rewrite Hlm in *. split; [exact H1|]. split; [exact H2|]. intros d b g Hd Hgr.
      destruct (Hstep d b g Hd Hgr) as (b1 & x & Ed & Hx & y & (_ & Hc & Hm & Hv & _)).
      destruct (H3 d b1 g Ed Hgr) as (b2 & Ed2 & Hc2 & Hm2 & Hv2). exists b2. split; [exact Ed2|].
      split; [eapply same_config_trans; eauto|].
      assert (Eb : bn_ura b = bn_ura b0) by (apply (Hr b0 b Hb0); exact (nth_error_In _ _ Hd)).
      assert (Esh : t_shape (on_device xs 0) = t_shape x) by (apply Hsh; [exact Hx|]; exact (nth_in_dev xs x Hx)).
      pose proof Hc as (_ & _ & Eu & Ea & Em & _). rewrite Eu, Ea, Em in *.
      cbn [training_steps flat_map]. rewrite Eb, Efl in *. cbn [app step_values map]. rewrite Esh.
      split; intros f Hfn; rewrite moving_average_cons.
      * rewrite Hm2 by exact Hfn. rewrite Hm by exact Hfn. reflexivity.
      * rewrite Hv2 by exact Hfn. rewrite Hv by exact Hfn. reflexivity.
    + rewrite Hsame by congruence. destruct (IH bs Hne Hr Hg) as (H1 & H2 & H3); [intros; eapply Hf; right; eauto|].
      split; [exact H1|]. split; [exact H2|]. intros d b g Hd Hgr. specialize (H3 d b g Hd Hgr).
      assert (Eb : bn_ura b = bn_ura b0) by (apply (Hr b0 b Hb0); exact (nth_error_In _ _ Hd)).
      cbn [training_steps flat_map]. rewrite Eb, Efl in *. exact H3.
Qed.

(** ** the batch cut into pieces *)
Lemma seq_chunks m : forall D, seq 0 (D * m) = flat_map (fun d => map (fun i => d * m + i) (seq 0 m)) (seq 0 D).
Proof.
  assert (Hs : forall k a, seq a k = map (fun i => a + i) (seq 0 k)).
  { clear. intros k a. induction k as [|k IH] using nat_ind; [reflexivity|]. rewrite !seq_S, map_app, IH. cbn [map]. now rewrite Nat.add_0_l. }
  induction D as [|D IH]; [reflexivity|]. rewrite seq_S, flat_map_app, <- IH. cbn [flat_map Nat.add].
  rewrite app_nil_r, <- Hs. replace (S D * m) with (D * m + m) by (cbn; lia). now rewrite seq_app.
Qed.
Lemma filter_flat_map {A B} (p : B -> bool) (h : A -> list B) l : filter p (flat_map h l) = flat_map (fun x => filter p (h x)) l.
Proof. induction l as [|x l IH]; cbn [flat_map]; auto. now rewrite filter_app, IH. Qed.
Lemma map_flat_map {A B C} (k : B -> C) (h : A -> list B) l : map k (flat_map h l) = flat_map (fun x => map k (h x)) l.
Proof. induction l as [|x l IH]; cbn [flat_map]; auto. now rewrite map_app, IH. Qed.
Lemma flat_map_flat_map {A B C} (h : A -> list B) (k : B -> list C) l : flat_map k (flat_map h l) = flat_map (fun x => flat_map k (h x)) l.
Proof. induction l as [|x l IH]; cbn [flat_map]; auto. now rewrite flat_map_app, IH. Qed.
Lemma flat_map_map {A B C} (h : A -> B) (k : B -> list C) l : flat_map k (map h l) = flat_map (fun x => k (h x)) l.
Proof. induction l as [|x l IH]; cbn [flat_map map]; auto. now rewrite IH. Qed.
Lemma filter_map_comm {A B} (h : A -> B) (p : B -> bool) l : filter p (map h l) = map h (filter (fun x => p (h x)) l).
Proof. induction l as [|x l IH]; cbn [filter map]; auto. rewrite IH. now destruct (p (h x)). Qed.

Lemma on_device_map {A} (h : A -> tensor) l d x : nth_error l d = Some x -> on_device (map h l) d = h x.
Proof. intros H. apply on_device_nth. now rewrite nth_error_map, H. Qed.
Lemma nth_error_seq0 D d : d < D -> nth_error (seq 0 D) d = Some d.
Proof. intros H. rewrite (nth_error_nth' _ 0) by now rewrite seq_length. now rewrite seq_nth. Qed.

Lemma shard_channel x D m s a f : t_shape x = D * m :: s ->
  joint_channel (map (shard m x) (seq 0 D)) (seq 0 D) (S a) f = channel x (S a) f.
Proof.
  intros Hs. unfold joint_channel.
  transitivity (flat_map (fun d => channel (shard m x d) (S a) f) (seq 0 D)).
  { rewrite !flat_map_concat_map. f_equal. apply map_ext_in. intros d Hd. apply in_seq in Hd.
    now rewrite (on_device_map _ _ _ d) by (apply nth_error_seq0; lia). }
  unfold channel. rewrite Hs. cbn [all_idx]. rewrite seq_chunks. rewrite flat_map_flat_map, filter_flat_map, map_flat_map.
  apply flat_map_ext. intros d. cbn [shard t_shape]. rewrite Hs. cbn [all_idx].
  rewrite flat_map_map, !filter_flat_map, !map_flat_map. apply flat_map_ext. intros i.
  rewrite !filter_map_comm, !map_map. cbn [nth]. apply map_ext. intros t. cbn [shard t_at]. reflexivity.
Qed.

(** the devices that share a batch *)
Lemma shard_devices n b x D m s : bn_wf n b -> bn_fits n b x -> t_shape x = D * m :: s ->
  axis_of (List.length (t_shape x)) (bn_axis b) <> 0 ->
  bn_devices_ok n (map (fun d => (b, shard m x d)) (seq 0 D)).
Proof.
  intros Hw (Hv & Hn & Hp) Hs Ha p q p' q' H1 H2.
  apply in_map_iff in H1, H2. destruct H1 as (d & E1 & Hd), H2 as (d' & E2 & _). injection E1 as <- <-. injection E2 as <- <-.
  split; [exact Hw|]. split; [|repeat split; auto].
  rewrite Hs in Hv, Hn, Ha, Hp. unfold bn_fits. cbn [shard t_shape]. rewrite Hs. cbn [List.length] in *.
  split; [exact Hv|]. split; [destruct (axis_of (S (List.length s)) (bn_axis b)); [congruence|exact Hn]|].
  inversion Hp as [|? ? P1 P2]; subst. constructor; auto. destruct m; [rewrite Nat.mul_0_r in P1; lia|lia].
Qed.

Lemma shard_range D m s d i t : d < D -> in_range (m :: s) (i :: t) -> in_range (D * m :: s) (d * m + i :: t).
Proof. intros Hd H. inversion H as [|? ? ? ? H1 H2]; subst. constructor; auto. nia. Qed.

Lemma bn_whole_batch rsqrt n b x D m s ura ctx fl :
  bn_wf n b -> bn_fits n b x -> t_shape x = D * m :: s -> axis_of (List.length (t_shape x)) (bn_axis b) <> 0 ->
  flag_of ura (bn_ura b) ctx "use_running_average" = Some fl ->
  exists b' y out, bn_call rsqrt b x ura ctx = (b', Ok y) /\
    bn_call_on rsqrt None (map (fun d => (b, shard m x d)) (seq 0 D)) ura ctx = Ok out /\ List.length out = D /\
    forall d, d < D -> exists bd yd, nth_error out d = Some (bd, yd) /\
      teq (bn_mean bd) (bn_mean b') /\ teq (bn_var bd) (bn_var b') /\ same_config b' bd /\ teq yd (shard m y d).
Proof.
  intros Hw Hf Hs Ha Hfl. pose proof Hf as (_ & _ & Hp).
  assert (HD : D <> 0) by (intros ->; rewrite Hs in Hp; inversion Hp; cbn in *; lia).
  set (devs := map (fun d => (b, shard m x d)) (seq 0 D)).
  assert (Hl : List.length devs = D) by (unfold devs; now rewrite map_length, seq_length).
  assert (Hne : devs <> []) by (intros E; rewrite E in Hl; cbn in Hl; lia).
  pose proof (shard_devices n b x D m s Hw Hf Hs Ha) as Hdev. fold devs in Hdev.
  assert (Hnd : forall d, d < D -> nth_error devs d = Some (b, shard m x d)).
  { intros d Hd. unfold devs. rewrite nth_error_map, nth_error_seq0 by exact Hd. reflexivity. }
  assert (Hb : forall p q, In (p, q) devs -> p = b).
  { intros p q H. unfold devs in H. apply in_map_iff in H. destruct H as (d & E & _). now injection E as <- _. }
  assert (Hfld : forall p q, In (p, q) devs -> flag_of ura (bn_ura p) ctx "use_running_average" = Some fl).
  { intros p q H. now rewrite (Hb p q H). }
  set (a := axis_of (List.length (t_shape x)) (bn_axis b)) in *.
  assert (Has : forall d, axis_of (List.length (t_shape (shard m x d))) (bn_axis b) = a).
  { intros d. unfold a. cbn [shard t_shape]. rewrite Hs. reflexivity. }
  destruct a as [|a'] eqn:Ea; [congruence|].
  destruct fl.
  - destruct (bn_eval rsqrt n b x ura ctx Hw Hf Hfl) as (y & Ey & Hys & Hy). fold a in Hy. rewrite Ea in Hy.
    destruct (bn_eval_on rsqrt n None devs ura ctx Hne Hdev Hfld) as (out & Eo & Hlo & Ho).
    exists b, y, out. split; [exact Ey|]. split; [exact Eo|]. split; [congruence|]. intros d Hd.
    destruct (Ho d b (shard m x d) (Hnd d Hd)) as (yd & Ed & Ecd). exists b, yd. split; [exact Ed|].
    split; [split; auto|]. split; [split; auto|]. split; [repeat split|].
    destruct (Hdev b (shard m x d) b (shard m x d)) as (_ & Fd & _); [eapply nth_error_In; eauto..|].
    destruct (bn_eval rsqrt n b (shard m x d) ura ctx Hw Fd Hfl) as (yd' & Eyd & Hsd & Hyd). rewrite Ecd in Eyd. injection Eyd as <-.
    split; [rewrite Hsd; cbn [shard t_shape]; now rewrite Hs, Hys, Hs|].
    intros idx Hr. rewrite Hsd in Hr. rewrite Hyd by exact Hr. cbv zeta. rewrite Has. cbn [shard t_shape t_at] in Hr |- *. rewrite Hs in Hr.
    destruct idx as [|i t]; [inversion Hr|]. rewrite Hy by (rewrite Hs; now apply shard_range). cbv zeta. cbn [nth]. reflexivity.
  - destruct (bn_train rsqrt n b x ura ctx Hw Hf Hfl) as (b' & y & Ey & Hw' & Hc & Hm & Hv & Hys & Hy). fold a in Hm, Hv, Hy. rewrite Ea in Hm, Hv, Hy.
    destruct (bn_train_on rsqrt n None devs ura ctx Hne Hdev Logic.I Hfld) as (out & Eo & Hlo & Ho).
    exists b', y, out. split; [exact Ey|]. split; [exact Eo|]. split; [congruence|]. intros d Hd.
    destruct (Ho d b (shard m x d) (seq 0 D) (Hnd d Hd)) as (bd & yd & Ed & Ht); [cbn; now rewrite Hl|].
    exists bd, yd. split; [exact Ed|]. unfold bn_trained in Ht. cbv zeta in Ht. rewrite Has in Ht.
    assert (Hxs : map snd devs = map (shard m x) (seq 0 D)) by (unfold devs; rewrite map_map; reflexivity). rewrite Hxs in Ht.
    destruct Ht as (Wd & Cd & Hmd & Hvd & Hsd & Hyd).
    pose proof Hw' as (M' & V' & _). pose proof Wd as (Md & Vd & _).
    split; [|split; [|split]].
    + split; [congruence|]. intros idx Hr. rewrite Md in Hr. destruct idx as [|f [|? ?]]; [inversion Hr| |inversion Hr as [|? ? ? ? _ H2]; inversion H2].
      assert (Hfn : f < n) by now inversion Hr. rewrite Hmd, Hm by exact Hfn. now rewrite (shard_channel x D m s a' f Hs).
    + split; [congruence|]. intros idx Hr. rewrite Vd in Hr. destruct idx as [|f [|? ?]]; [inversion Hr| |inversion Hr as [|? ? ? ? _ H2]; inversion H2].
      assert (Hfn : f < n) by now inversion Hr. rewrite Hvd, Hv by exact Hfn. now rewrite (shard_channel x D m s a' f Hs).
    + unfold same_config in *. intuition congruence.
    + split; [rewrite Hsd; cbn [shard t_shape]; now rewrite Hs, Hys, Hs|].
      intros idx Hr. rewrite Hsd in Hr. rewrite Hyd by exact Hr. cbv zeta. cbn [shard t_shape t_at] in Hr |- *. rewrite Hs in Hr.
      destruct idx as [|i t]; [inversion Hr|]. rewrite Hy by (rewrite Hs; now apply shard_range). cbv zeta. cbn [nth].
      now rewrite (shard_channel x D m s a' _ Hs).
Qed.

(** ** LayerNorm *)
Lemma ln_normalize rsqrt l x n d mean var :
  axes_ok (List.length (t_shape x)) (ln_red l) -> ln_feat l = [d] -> valid_axis (List.length (t_shape x)) d ->
  let a := axis_of (List.length (t_shape x)) d in
  let rl := map (axis_of (List.length (t_shape x))) (ln_red l) in
  nth a (t_shape x) 0 = n -> ln_wf n l -> t_shape mean = kept rl (t_shape x) -> t_shape var = kept rl (t_shape x) ->
  exists y, normalize rsqrt x mean var (ln_scale l) (ln_bias l) (ln_red l) (ln_feat l) (ln_epsilon l) = Ok y /\ t_shape y = t_shape x /\
    forall idx, in_range (t_shape x) idx ->
      let f := nth a idx 0 in
      t_at y idx = ((t_at x idx - t_at mean (kept rl idx)) *
                    (rsqrt (t_at var (kept rl idx) + ln_epsilon l) * opt_at (ln_scale l) [f] 1) + opt_at (ln_bias l) [f] 0)%Qc.
Proof.
  intros Hax Hfe Hd a rl Hn (Hs & Hb) Hms Hvs. pose proof Hax as (Hv & Hnd).
  destruct (axis_of_valid _ _ Hd) as (Ha & Ea). fold a in Ha.
  assert (Hself : forall idx, List.length idx = List.length (t_shape x) ->
            select (fun i => zmem (Z.of_nat i) (canonicalize_axes (List.length (t_shape x)) [d])) 0 idx = [nth a idx 0]).
  { intros idx Hl. rewrite canon_one by exact Hd. rewrite (select_ext _ (fun j => Nat.eqb j a)).
    - rewrite select_one by lia. now rewrite Nat.sub_0_r.
    - intros j Hj. apply zmem_one. }
  assert (Hselr : forall idx, select (fun i => negb (zmem (Z.of_nat i) (canonicalize_axes (List.length (t_shape x)) (ln_red l)))) 0 idx = kept rl idx).
  { intros idx. rewrite canon_axes by exact Hax. unfold kept, reduced. apply select_ext. intros j _. now rewrite zmem_map. }
  destruct (normalize_eq rsqrt x mean var (ln_scale l) (ln_bias l) (ln_red l) (ln_feat l) (ln_epsilon l)) as (y & E & Hy & H).
  - rewrite canon_axes by exact Hax. intros z Hz. apply in_map_iff in Hz. destruct Hz as (i & <- & Hi). apply in_map_iff in Hi.
    destruct Hi as (e & <- & He). pose proof (axis_of_valid _ _ (Hv e He)). lia.
  - rewrite Hfe, canon_one by exact Hd. intros z [<-|[]]. fold a. lia.
  - now rewrite Hselr.
  - now rewrite Hselr.
  - rewrite Hfe, Hself by reflexivity. rewrite Hn. intros t [Ht|Ht]; unfold is_vec in *; cbn; rewrite Nat.mul_1_r; auto.
  - exists y. split; [exact E|]. split; [exact Hy|]. intros idx Hr. rewrite H by exact Hr. cbv zeta. rewrite Hfe, !Hself by (reflexivity || now apply in_range_length).
    rewrite Hselr. unfold prod. cbn [flat_pos fold_right]. rewrite Nat.mul_1_r, Nat.add_0_r. reflexivity.
Qed.

Lemma oz_eqb_refl l : oz_eqb l l = true.
Proof. unfold oz_eqb. destruct (list_eq_dec Z.eq_dec l l); congruence. Qed.
Lemma ln_one_program n l0 x0 devs : ln_devices_ok n ((l0, x0) :: devs) -> forallb (ln_same_program l0 x0) ((l0, x0) :: devs) = true.
Proof.
  intros H. apply forallb_forall. intros [l x] Hin.
  destruct (H l0 x0 l x (or_introl eq_refl) Hin) as (W1 & W2 & Es & E1 & E2 & E3 & E5 & E6).
  destruct (H l x l x Hin Hin) as (V1 & V2 & _).
  unfold ln_same_program. cbn [fst snd]. rewrite E1, E2, E3, Es, !oz_eqb_refl, Qc_eqb_refl, !nlist_eqb_refl.
  cbn [andb]. rewrite (oshape_eqb_vec n (ln_scale l0) (ln_scale l)), (oshape_eqb_vec n (ln_bias l0) (ln_bias l)) by assumption. reflexivity.
Qed.

Lemma kept_nonempty s rl i : i < List.length s -> existsb (Nat.eqb i) rl = false -> exists n0 s', kept rl s = n0 :: s'.
Proof.
  intros Hi Hn. unfold kept. assert (H : forall s o i, i < List.length s -> reduced rl (o + i) = true -> exists n0 s', select (reduced rl) o s = n0 :: s').
  { clear. induction s as [|x s IH]; intros o i Hi Hr; cbn in Hi; [lia|]. cbn [select]. destruct (reduced rl o) eqn:E; [eauto|].
    destruct i as [|i]; [rewrite Nat.add_0_r in Hr; congruence|]. apply (IH (S o) i); [lia|]. now rewrite Nat.add_succ_comm. }
  apply (H s 0 i Hi). unfold reduced. cbn [Nat.add]. now rewrite Hn.
Qed.
Lemma kept_all s rl : (forall i, i < List.length s -> existsb (Nat.eqb i) rl = true) -> kept rl s = [].
Proof.
  intros H. unfold kept. assert (G : forall s o, (forall i, i < List.length s -> existsb (Nat.eqb (o + i)) rl = true) -> select (reduced rl) o s = []).
  { clear. induction s as [|x s IH]; intros o H; [reflexivity|]. cbn [select]. unfold reduced at 1.
    pose proof (H 0 ltac:(cbn; lia)) as H0. rewrite Nat.add_0_r in H0. rewrite H0. cbn [negb]. apply IH. intros i Hi.
    rewrite Nat.add_succ_comm. apply H. cbn. lia. }
  apply G. exact H.
Qed.

Lemma row_prod xs g red idx s : (forall e, In e g -> t_shape (on_device xs e) = s) ->
  joint_row xs g red idx = map (joint xs) (list_prod g (filter (same_rowb red idx) (all_idx s))).
Proof.
  intros H. unfold joint_row. rewrite <- (flat_prod (fun e i => t_at (on_device xs e) i)).
  induction g as [|e g IH]; cbn [flat_map]; auto. rewrite IH by (intros; apply H; now right). f_equal.
  unfold row. now rewrite (H e (or_introl eq_refl)).
Qed.

Lemma ln_on rsqrt n groups devs dax s red :
  devs <> [] -> ln_devices_ok n devs -> groups_ok (List.length devs) groups ->
  (forall l x, In (l, x) devs -> t_shape x = s /\ ln_red l = red /\ ln_feat l = [dax]) ->
  axes_ok (List.length s) red -> valid_axis (List.length s) dax ->
  let a := axis_of (List.length s) dax in
  nth a s 0 = n -> (exists i, i < List.length s /\ forall e, In e red -> names_axis (List.length s) e i = false) ->
  exists out, ln_call_on rsqrt groups devs = Ok out /\ List.length out = List.length devs /\
    forall d l x g, nth_error devs d = Some (l, x) -> is_group (List.length devs) groups d g ->
      exists y, nth_error out d = Some y /\ t_shape y = s /\
        forall idx, in_range s idx ->
          let f := nth a idx 0 in
          let group := joint_row (map snd devs) g red idx in
          t_at y idx = ((t_at x idx - mean_of group) * (rsqrt (variance_of group + ln_epsilon l) * opt_at (ln_scale l) [f] 1)
                        + opt_at (ln_bias l) [f] 0)%Qc.
Proof.
  intros Hne Hok Hg Hall Hax Hd a Hn (i0 & Hi0 & Hfree). destruct devs as [|[l0 x0] devs']; [congruence|]. set (devs := (l0, x0) :: devs') in *.
  assert (H0 : In (l0, x0) devs) by now left.
  destruct (Hall l0 x0 H0) as (Es0 & Er0 & Ef0). pose proof Hax as (Hv & Hnd).
  set (rl := map (axis_of (List.length s)) red).
  assert (Hsh : forall x, In x (map snd devs) -> t_shape x = s).
  { intros x Hx. apply in_map_iff in Hx. destruct Hx as ([l x'] & <- & Hin). apply (Hall l x' Hin). }
  destruct (kept_nonempty s rl i0 Hi0) as (n0 & s' & Hk).
  { destruct (existsb (Nat.eqb i0) rl) eqn:E; auto. exfalso. unfold rl in E. rewrite <- existsb_names in E by auto.
    apply existsb_exists in E. destruct E as (e & He & E). rewrite (Hfree e He) in E. discriminate. }
  destruct (compute_stats_on_ok groups (map snd devs) rl s n0 s' Hsh Hk) as (stats & Est & Hl & Hst).
  { now rewrite map_length. }
  rewrite map_length in Hl, Hst.
  assert (Heq : ln_call_on rsqrt groups devs =
                rmapM (fun ds => let '((l, x), (mean, var)) := ds in
                         normalize rsqrt x mean var (ln_scale l) (ln_bias l) (ln_red l) (ln_feat l) (ln_epsilon l)) (combine devs stats)).
  { unfold ln_call_on, devs at 1. fold devs. rewrite (ln_one_program n l0 x0 devs' Hok : forallb _ devs = true). cbn [negb].
    rewrite Es0, Er0, check_axes_ok by auto. cbn [rbind]. fold rl. rewrite Est. reflexivity. }
  rewrite Heq.
  set (P := fun (dd : nat) (g : list nat) (l : layernorm) (x y : tensor) => t_shape y = s /\
        forall idx, in_range s idx ->
          let f := nth a idx 0 in
          let group := joint_row (map snd devs) g red idx in
          t_at y idx = ((t_at x idx - mean_of group) * (rsqrt (variance_of group + ln_epsilon l) * opt_at (ln_scale l) [f] 1)
                        + opt_at (ln_bias l) [f] 0)%Qc).
  destruct (rmapM_forall2 (fun ds => let '((l, x), (mean, var)) := ds in
                         normalize rsqrt x mean var (ln_scale l) (ln_bias l) (ln_red l) (ln_feat l) (ln_epsilon l))
            (fun ds o => forall d g, nth_error devs d = Some (fst ds) -> nth_error stats d = Some (snd ds) -> is_group (List.length devs) groups d g ->
                          P d g (fst (fst ds)) (snd (fst ds)) o) (combine devs stats)) as (out & Eo & H2).
  { intros [[l x] [mean var]] Hin. destruct (in_combine_nth _ _ _ Hin) as (d & Hd1 & Hd2). cbn [fst snd] in Hd1, Hd2.
    pose proof (nth_error_In _ _ Hd1) as Hinb. pose proof (nth_error_lt _ _ _ Hd1) as Hdl.
    destruct (Hall l x Hinb) as (Ex & Er & Ef). destruct (Hok l x l x Hinb Hinb) as (W1 & W2 & _).
    destruct (group_exists _ _ _ Hg Hdl) as (g0 & Hg0). destruct (Hst d g0 Hdl Hg0) as (mean' & var' & En & Hms & Hvs & _).
    rewrite Hd2 in En. injection En as <- <-.
    pose proof (ln_normalize rsqrt l x n dax mean var) as Hnorm. cbv zeta in Hnorm. rewrite Ex, Er in Hnorm. fold a in Hnorm. fold rl in Hnorm.
    destruct (Hnorm Hax Ef Hd Hn (conj W1 W2) Hms Hvs) as (y & Ey & Hys & Hy).
    exists y. rewrite Er. split; [exact Ey|]. intros d' g Hd1' Hd2' Hgr. cbn [fst snd] in Hd1', Hd2' |- *.
    pose proof (nth_error_lt _ _ _ Hd1') as Hdl'.
    destruct (Hst d' g Hdl' Hgr) as (mean'' & var'' & En & _ & _ & Hval). rewrite Hd2' in En. injection En as <- <-.
    split; [exact Hys|]. intros idx Hr. cbv zeta. rewrite Hy by exact Hr.
    assert (Hfr : fiber s rl (kept rl idx) = filter (same_rowb red idx) (all_idx s)) by (apply fiber_row; auto).
    destruct (Hval (kept rl idx)) as (V1 & V2).
    - unfold kept. now apply select_range.
    - intros E. assert (Hin' : In idx (fiber s rl (kept rl idx))) by now apply fiber_in. rewrite E in Hin'. destruct Hin'.
    - rewrite V1, V2, Hfr. rewrite (row_prod _ g red idx s).
      + unfold variance_of. rewrite map_map. reflexivity.
      + intros e He. apply Hsh. unfold on_device. apply nth_In. rewrite map_length. exact (group_members _ _ _ _ e Hg Hgr He). }
  exists out. split; [exact Eo|]. split.
  { rewrite (forall2_len _ _ _ H2), combine_length, Hl. apply Nat.min_id. }
  intros d l x g Hdd Hgr. destruct (Hst d g (nth_error_lt _ _ _ Hdd) Hgr) as (mean & var & En & _).
  destruct (forall2_nth _ _ _ H2 d _ (combine_nth_error _ _ _ _ _ Hdd En)) as (y & Ey & HP).
  exists y. split; [exact Ey|]. exact (HP d g Hdd En Hgr).
Qed.

(** nothing is left after the reduction: [jnp.concatenate] refuses *)
Lemma ln_on_scalar rsqrt n groups devs s red :
  devs <> [] -> ln_devices_ok n devs -> (forall l x, In (l, x) devs -> t_shape x = s /\ ln_red l = red) ->
  axes_ok (List.length s) red -> (forall i, i < List.length s -> exists e, In e red /\ names_axis (List.length s) e i = true) ->
  ln_call_on rsqrt groups devs = Err ValueError.
Proof.
  intros Hne Hok Hall (Hv & Hnd) Hc. destruct devs as [|[l0 x0] devs']; [congruence|]. set (devs := (l0, x0) :: devs') in *.
  destruct (Hall l0 x0 (or_introl eq_refl)) as (Es0 & Er0).
  unfold ln_call_on, devs at 1. fold devs. rewrite (ln_one_program n l0 x0 devs' Hok : forallb _ devs = true). cbn [negb].
  rewrite Es0, Er0, check_axes_ok by auto. cbn [rbind]. unfold compute_stats_on, devs. cbn [map rmapM snd concat0 mean_over t_shape].
  unfold concat0. cbn [mean_over t_shape]. rewrite Es0, kept_all; [reflexivity|]. intros i Hi. rewrite <- existsb_names by auto.
  apply existsb_exists. destruct (Hc i Hi) as (e & H1 & H2). eauto.
Qed.
