(** A Scan object stands for its layers. *)
From Coq Require Import ZArith Lia Permutation.
From Verif Require Import PyBase PyBaseFacts ValuesM Spec_Eq ValuesFacts FiltersM StateM Spec_State State_proofs ModuleM SpmdM Spec_Spmd ContextM TransformM ScanM ScanInitM ScanClassM PureM.
From Verif Require Import Spec_Module Spec_Prog Spec_Context Spec_Scan Spec_ScanInit Spec_ScanClass.
From Verif Require Import Spmd_proofs Graph_facts Dfs_proofs Build_proofs Bisim_proofs Mdef_proofs RoundTrip_proofs Clone_proofs Laws_proofs History_proofs Prog_proofs Context_proofs Transform_proofs Scan_proofs ScanRng_proofs ScanInit_proofs ScanDeco_proofs Refuse_proofs Write_proofs.
Local Open Scope string_scope.
Local Open Scope list_scope.

(** ** partitions of two States with the same keys *)
Lemma repartition s fs l l' s' : wf_state s -> plain_st s -> partition_state s fs = Ok (Many l) -> Forall wf_state l' ->
  Forall2 (fun x y : state => keys x = keys y) l l' ->
  (forall j x y k a b g, nth_error l j = Some x -> nth_error l' j = Some y -> dget k x = Some a -> dget k y = Some b -> In g fs -> (matches g k a <-> matches g k b)) ->
  wf_state s' -> keys s' = keys s -> (forall y k b, In y l' -> dget k y = Some b -> dget k s' = Some b) ->
  partition_state s' fs = Ok (Many l').
Proof.
  intros Ws Ps HP Wl' HK HM Ws' Ks HD. destruct (partition_parts _ _ _ Ws Ps HP) as (_ & _ & _ & Dis & Sub & Cov).
  assert (HM' : forall g k a b, In g fs -> dget k s = Some a -> latest k l' = Some b -> (matches g k a <-> matches g k b)).
  { intros g k a b Hg D La. apply latest_In in La as (y & Hy & Dy). destruct (Cov k a D) as (x & Hx & Dx).
    apply In_nth_error in Hy as [j Hj]. apply In_nth_error in Hx as [i Hi]. destruct (Forall2_nth2 _ _ _ _ _ HK Hj) as (x' & Hx' & Ex).
    assert (i = j). { apply (Dis i j x x' k Hi Hx'); [eapply dget_In_keys; eauto|]. rewrite Ex. eapply dget_In_keys; eauto. }
    subst j. assert (x' = x) by congruence. subst x'. eapply HM; eauto. }
  destruct (partition_again s fs l l' Ws HP Wl' HK HM') as [E1 E2]. rewrite <- E2. f_equal.
  apply state_ext; [exact Ws'|now apply restate_wf|]. intros k. rewrite E1. destruct (latest k l') as [b|] eqn:La.
  - apply latest_In in La as (y & Hy & Dy). eapply HD; eauto.
  - apply dget_None. rewrite Ks, <- (restate_keys s l'). apply dget_None. now rewrite E1.
Qed.

(** a State that came out as the carry part of a partition *)
Definition carried (o : scan_opts) (nodes : list string) (cs : state) : Prop :=
  exists w r s axs b, wf_world w /\ valid w r /\ get_state w r = Ok s /\ w_nodes w = nodes /\ partition_state s (o_filters o) = Ok (Many (axs ++ [b; cs])).

Lemma carried_ok o nodes cs : carried o nodes cs -> wf_state cs /\ plain_st cs /\ (forall k a, dget k cs = Some a -> exists tn, In tn nodes /\ In tn (cls_of_attr a)) /\
  (forall k a j g, dget k cs = Some a -> nth_error (o_filters o) j = Some g -> (matches g k a <-> j = S (List.length (o_axes o)))).
Proof.
  intros (w & r & s & axs & b & W & V & G & N & P). assert (Ws : wf_state s) by (destruct (get_state_total w r W V) as (s' & E & Q); congruence).
  pose proof (state_plain _ _ _ W G) as Pl. destruct (partition_parts _ _ _ Ws Pl P) as (Wl & Pll & Ll & _ & Sub & _).
  apply Forall_app in Wl as [_ Wl]. inversion Wl as [|? ? _ Wl2]; subst. inversion Wl2; subst.
  apply plain_list_app in Pll as [_ Pll]. inversion Pll as [|? ? _ Pl2]; subst. inversion Pl2; subst.
  split; [assumption|]. split; [assumption|].
  assert (I : In cs (axs ++ [b; cs])) by (apply in_app_iff; cbn; auto). split.
  { intros k a D. apply (Sub cs k a I) in D. destruct (get_state_nodes w r s k a W G D) as (tn & T1 & T2). eauto. }
  assert (L2 : List.length axs = List.length (o_axes o)).
  { rewrite app_length in Ll. unfold o_filters in Ll. rewrite app_length, map_length in Ll. cbn in Ll. lia. }
  intros k a j g D Hj. destruct (o_filters o) as [|f fs] eqn:EF; [destruct j; discriminate|]. cbn [partition_state] in P.
  destruct (partition_entries _ _ _ _ Ws P) as [_ E2]. cbn [sts_list] in E2.
  assert (Hi : nth_error (axs ++ [b; cs]) (S (List.length axs)) = Some cs).
  { rewrite nth_error_app2 by lia. replace (S (List.length axs) - List.length axs) with 1 by lia. reflexivity. }
  apply (E2 _ _ _ _ Hi) in D as [_ [(h & X1 & X2) F]]. rewrite <- L2. split.
  - intros M. destruct (Nat.lt_trichotomy j (S (List.length axs))) as [Q|[Q|Q]]; [exfalso; eapply F; eauto|exact Q|].
    exfalso. assert (j < List.length (f :: fs)) by (apply nth_error_Some; congruence). rewrite app_length in Ll. cbn [List.length] in *. lia.
  - intros ->. assert (h = g) by congruence. subst. exact X2.
Qed.
Lemma carried_match o nodes cs cs' k a a' g : carried o nodes cs -> carried o nodes cs' -> dget k cs = Some a -> dget k cs' = Some a' -> In g (o_filters o) ->
  (matches g k a <-> matches g k a').
Proof.
  intros C C' D D' Hg. apply In_nth_error in Hg as [j Hj]. destruct (carried_ok _ _ _ C) as (_ & _ & _ & M). destruct (carried_ok _ _ _ C') as (_ & _ & _ & M').
  rewrite (M k a j g D Hj), (M' k a' j g D' Hj). tauto.
Qed.
Lemma layer_carried o nodes d w r axs b c : layer o nodes d w r axs b c -> carried o nodes c.
Proof. intros [H1 H2 H3 H4 H5 H6 (s & H7 & H8)]. exists w, r, s, axs, b. auto. Qed.

(** the carry State of the layer before goes in *)
Lemma carry_in o nodes d w r axs b ci cs : layer o nodes d w r axs b ci -> carried o nodes cs -> alike ci cs ->
  exists wu, update_state w r (UStates (One cs)) = (wu, Ok tt) /\ layer o nodes d wu r axs b cs.
Proof.
  intros Ly C A. pose proof (layer_carried _ _ _ _ _ _ _ _ Ly) as Ci. destruct (carried_ok _ _ _ C) as (Wc & Pc & Nc & _).
  destruct Ly as [W V N L Nt Df (s & G & P)].
  assert (Ws : wf_state s) by (destruct (get_state_total w r W V) as (s' & E & Q); congruence).
  pose proof (state_plain _ _ _ W G) as Pl. destruct (partition_parts _ _ _ Ws Pl P) as (Wl & Pll & Ll & Dis & Sub & Cov).
  assert (Ici : In ci (axs ++ [b; ci])) by (apply in_app_iff; cbn; auto).
  destruct (update_state_effect w r (UStates (One cs)) [cs] s W V N L G) as (wu & E & UE); [reflexivity|discriminate|constructor; [now apply wf_NoDup|constructor]| |].
  { intros k a La. cbn in La. destruct (dget k cs) as [a'|] eqn:D; [|discriminate]. injection La as ->.
    unfold plain_st in Pc. rewrite Forall_forall in Pc. destruct (Pc _ (dget_In _ _ _ D)) as [P1 P2]. cbn in P1, P2. split; [exact P1|]. split; [exact P2|].
    destruct (alike_get _ _ k a (alike_sym _ _ A) D) as (old & Do & K). exists old, a. split; [now apply (Sub ci)|]. split; [apply same_kind_overwrites; now apply same_kind_sym|].
    destruct (Nc k a D) as (tn & T1 & T2). exists tn. rewrite Nt. auto. }
  exists wu. split; [exact E|]. destruct (ue_state _ _ _ _ _ UE) as (s' & S1 & S2 & S3). destruct (ue_global _ _ _ _ _ UE) as (_ & Q1 & Q2 & Q3).
  assert (V' : r < List.length (w_heap wu)) by (rewrite Q3; exact V).
  constructor; [apply (ue_wf _ _ _ _ _ UE)|exact V'|apply (ue_names _ _ _ _ _ UE)| |congruence|rewrite (ue_def _ _ _ _ _ UE); exact Df|].
  { intros x ob [p Hp] Ho. rewrite (ue_follow _ _ _ _ _ UE) in Hp. assert (Hx : reaches w r x) by (exists p; exact Hp).
    destruct (get_obj w x) as [ox|] eqn:Ex; [|apply follow_valid in Hp as [ob' Hp]; congruence].
    destruct (ue_objs _ _ _ _ _ UE x ox Ex) as [dd Hdd]. assert (ob = set_vars ox dd) by congruence. subst ob. cbn. rewrite Q1. eapply L; eauto. }
  exists s'. split; [exact S1|]. apply Forall_app in Wl as [Wa Wb]. inversion Wb as [|? ? Wb1 Wb2]; subst.
  assert (Ws' : wf_state s') by (destruct (get_state_total wu r (ue_wf _ _ _ _ _ UE) V') as (s2 & E2 & Q); congruence).
  apply (repartition s (o_filters o) (axs ++ [b; ci])); auto.
  - apply Forall_app. split; [exact Wa|]. constructor; [exact Wb1|constructor; [exact Wc|constructor]].
  - apply Forall2_app; [clear; induction axs; constructor; auto|]. constructor; [reflexivity|constructor; [now apply alike_keys|constructor]].
  - intros j x y k a a' g Hx Hy D D' Hg. destruct (Nat.lt_ge_cases j (List.length axs)) as [Hj|Hj].
    + rewrite nth_error_app1 in Hx, Hy by exact Hj. assert (x = y) by congruence. subst y. assert (a' = a) by congruence. subst. tauto.
    + rewrite nth_error_app2 in Hx, Hy by exact Hj. destruct (j - List.length axs) as [|[|q]]; cbn in Hx, Hy.
      * injection Hx as <-. injection Hy as <-. assert (a' = a) by congruence. subst. tauto.
      * injection Hx as <-. injection Hy as <-. exact (carried_match _ _ _ _ _ _ _ _ Ci C D D' Hg).
      * destruct q; discriminate.
  - intros y k a Hy D. apply in_app_iff in Hy as [Hy|[<-|[<-|[]]]].
    + assert (Iy : In y (axs ++ [b; ci])) by (apply in_app_iff; now left). destruct (S3 k a (Sub y k a Iy D)) as (res & R1 & R2). rewrite R1. f_equal. cbn in R2.
      destruct (dget k cs) as [a'|] eqn:D'; [|exact R2]. exfalso. destruct (alike_get _ _ k a' (alike_sym _ _ A) D') as (old & Do & _).
      apply In_nth_error in Hy as [j Hj]. assert (Hj2 : j < List.length axs) by (apply nth_error_Some; congruence).
      assert (j = S (List.length axs)); [|lia]. eapply Dis; [rewrite nth_error_app1; eassumption| |eapply dget_In_keys; eauto|eapply dget_In_keys; exact Do].
      rewrite nth_error_app2 by lia. replace (S (List.length axs) - List.length axs) with 1 by lia. reflexivity.
    + assert (Iy : In b (axs ++ [b; ci])) by (apply in_app_iff; right; now left). destruct (S3 k a (Sub b k a Iy D)) as (res & R1 & R2). rewrite R1. f_equal. cbn in R2.
      destruct (dget k cs) as [a'|] eqn:D'; [|exact R2]. exfalso. destruct (alike_get _ _ k a' (alike_sym _ _ A) D') as (old & Do & _).
      assert (List.length axs = S (List.length axs)); [|lia]. eapply Dis; [rewrite nth_error_app2, Nat.sub_diag by lia; reflexivity| |eapply dget_In_keys; eauto|eapply dget_In_keys; exact Do].
      rewrite nth_error_app2 by lia. replace (S (List.length axs) - List.length axs) with 1 by lia. reflexivity.
    + destruct (alike_get _ _ k a (alike_sym _ _ A) D) as (old & Do & K). destruct (S3 k old (Sub ci k old Ici Do)) as (res & R1 & R2). rewrite R1. f_equal. cbn in R2. rewrite D in R2.
      eapply overwrites_unique; [exact R2|]. apply same_kind_overwrites. now apply same_kind_sym.
Qed.

(** a call on a layer is a call on a module merged from its States *)
Lemma layer_call {A} (f : prog A) o nodes d w r axs b cs wd a s : ok_prog f -> layer o nodes d w r axs b cs ->
  user_fun f w r = (wd, Ok a) -> get_state wd r = Ok s ->
  wf_world wd /\ w_nodes wd = nodes /\ valid wd r /\
  forall wb, wf_world wb -> w_nodes wb = nodes -> call_on wb d (axs ++ [b; cs]) f = Some (a, s).
Proof.
  intros Hf [W V N L Nt Df (s0 & G & P)] U Gd.
  assert (MP : module_partition w r (o_filters o) = Ok (mkPure (Many (axs ++ [b; cs])) d)).
  { unfold module_partition. rewrite Df, G. cbn [rbind]. rewrite P. reflexivity. }
  destruct (inner_run f w r _ _ (w_trace w) (axs ++ [b; cs]) Hf W V N L MP (Permutation_refl _)) as (m & w1 & wd' & w2 & res & I1 & I2 & I3 & I4 & I5 & I6 & I7 & I8 & I9 & I10 & I11).
  assert (wd' = wd /\ res = Ok a) as [-> ->] by (split; congruence).
  split; [exact I4|]. split; [congruence|]. split; [exact I7|]. intros wb Wb Nb.
  assert (CO : call_on w d (axs ++ [b; cs]) f = Some (a, s)).
  { unfold call_on. assert (E : set_trace w (w_trace w) = w) by (destruct w; reflexivity). rewrite E in I1. cbn [p_def] in I1. rewrite I1, I3.
    rewrite set_trace_state in I11 by assumption. rewrite I11, Gd. reflexivity. }
  destruct (graph_exists w r W V) as (d' & Lg & Hg). assert (d' = d) by (pose proof (get_module_def_graph _ _ _ _ W V Hg); congruence). subst d'.
  assert (Ws : wf_state s0) by (destruct (get_state_total w r W V) as (s' & E & Q); congruence).
  destruct (partition_parts _ _ _ Ws (state_plain _ _ _ W G) P) as (_ & Pll & _).
  destruct (call_transfer f w r d Lg w wb (axs ++ [b; cs]) a s Hf W V Hg W Wb) as (m' & w1' & w2' & T1 & T2 & T3 & _); auto; [congruence|].
  unfold call_on. rewrite T1, T2, T3. reflexivity.
Qed.

(** ** the axis name out again *)
Lemma rt_stackable (o : scan_opts) (fx : filt * Z) (a : attr) : plain_attr a ->
  (o_partition o <> None -> (0 <= snd fx)%Z /\ (no_sharding a \/ exists sh, has_sharding a sh /\ Z.to_nat (snd fx) <= List.length sh)) ->
  rt (ff o (snd fx)) (gg o (snd fx)) a.
Proof.
  intros P H. unfold ff, gg. destruct (o_partition o) as [nm|]; [|now apply rt_id]. destruct H as [H0 H1]; [discriminate|].
  apply rt_axis; [exact H0|exact P| |].
  - split; [apply P|]. destruct H1 as [H1|(sh & H1 & _)]; [now left|right; eauto].
  - intros sh' (c0 & -> & N1 & N2). destruct H1 as [H1|(sh & (c1 & E1 & E2 & E3) & H2)].
    + cbn in H1. destruct H1 as [H1|[H1|H1]]; [contradiction|rewrite H1 in N2; discriminate|rewrite H1 in N2; discriminate].
    + injection E1 as <-. rewrite N2 in E3. injection E3 as E3. pose proof (val_sharding_val sh) as V1. pose proof (val_sharding_val sh') as V2. congruence.
Qed.

Lemma state_map_round f g s s' : (forall k a, In (k, a) s -> rt f g a) -> state_map f s = Ok s' ->
  state_map g s' = Ok s /\ keys s' = keys s /\ forall k a', dget k s' = Some a' -> exists a, dget k s = Some a /\ val_of a' = val_of a.
Proof.
  intros HR H. apply state_map_rel in H. assert (G : Forall2 (fun x y : string * attr => fst x = fst y /\ g (snd y) = Ok (snd x) /\ val_of (snd y) = val_of (snd x)) s s').
  { induction H as [|[k a] [k' a'] s s' [H1 H2] H IH]; constructor; [|apply IH; intros; apply (HR k0); now right].
    cbn in *. destruct (HR k a (or_introl eq_refl)) as (a2 & R1 & R2 & R3 & R4 & R5). assert (a2 = a') by congruence. subst a2. split; [exact H1|]. split; [|exact R4].
    specialize (R5 (val_of a')). rewrite with_value_val in R5 by apply same_kind_refl. rewrite R5, R4. f_equal. apply with_value_val, same_kind_refl. }
  split; [apply state_map_rel; clear - G; induction G as [|x y s s' (G1 & G2 & _) G IH]; constructor; auto|]. split.
  - clear - G. unfold keys. induction G as [|x y s s' (G1 & _) G IH]; cbn; [reflexivity|]. now rewrite G1, IH.
  - clear - G. intros k a'. induction G as [|[m a] [m' b] s s' (G1 & _ & G3) G IH]; [discriminate|]. cbn in G1. subst m'. cbn [dget]. destruct (String.eqb_spec k m); [|exact IH].
    intros [= <-]. eauto.
Qed.

Lemma on_axes_round f g axes : forall l l', (forall q fx s k a, nth_error axes q = Some fx -> nth_error l q = Some s -> In (k, a) s -> rt (f (snd fx)) (g (snd fx)) a) ->
  List.length l = List.length axes ->
  on_axes (fun s ax => state_map (f ax) s) axes l = Ok l' ->
  on_axes (fun s ax => state_map (g ax) s) axes l' = Ok l /\
  Forall2 (fun s s' => keys s' = keys s /\ forall k a', dget k s' = Some a' -> exists a, dget k s = Some a /\ val_of a' = val_of a) l l'.
Proof.
  induction axes as [|[q ax] axes IH]; intros [|s l] l' HR Hl H; try discriminate; cbn in H.
  - injection H as <-. split; [reflexivity|constructor].
  - destruct (state_map (f ax) s) as [x|] eqn:E; [|discriminate]. cbn in H. destruct (on_axes (fun s ax => state_map (f ax) s) axes l) as [xs|] eqn:E2; [|discriminate]. cbn in H. injection H as <-.
    destruct (state_map_round (f ax) (g ax) s x) as (R1 & R2 & R3); [intros k a I; apply (HR 0 (q, ax) s k a eq_refl eq_refl I)|exact E|].
    destruct (IH l xs) as [I1 I2]; [intros p fx s0 k a H1 H2 H3; apply (HR (S p) fx s0 k a H1 H2 H3)|cbn in Hl; lia|exact E2|].
    split; [cbn; rewrite R1; cbn; rewrite I1; reflexivity|]. constructor; auto.
Qed.

Lemma on_axes_len f axes : forall l l', List.length l = List.length axes -> on_axes f axes l = Ok l' -> List.length l' = List.length axes.
Proof.
  induction axes as [|[q ax] axes IH]; intros [|s l] l' Hl H; try discriminate; cbn in H; [now injection H as <-|].
  destruct (f s ax) as [x|]; [|discriminate]. cbn in H. destruct (on_axes f axes l) as [xs|] eqn:E2; [|discriminate]. cbn in H. injection H as <-. cbn in *. f_equal. apply (IH l); [lia|exact E2].
Qed.

Lemma enter_leave o l l' : stackable o l -> plain_list l -> List.length l = List.length (o_axes o) -> Forall wf_state l -> leave_axes o l = Ok l' ->
  List.length l' = List.length (o_axes o) /\ enter_axes o l' = Ok l /\
  Forall2 (fun s s' => keys s' = keys s /\ forall k a', dget k s' = Some a' -> exists a, dget k s = Some a /\ val_of a' = val_of a) l l'.
Proof.
  intros HS HP HL HW H. rewrite leave_alt in H by exact HL. pose proof (on_axes_len _ _ _ _ HL H) as L'. split; [exact L'|]. rewrite enter_alt by exact L'.
  apply on_axes_round with (f := ff o); auto. intros q fx s k a Hq Hs I.
  assert (D : dget k s = Some a). { apply In_dget; [|exact I]. apply wf_NoDup. rewrite Forall_forall in HW. apply HW. eapply nth_error_In; eauto. }
  apply rt_stackable; [|apply (HS q s fx k a Hs Hq D)]. unfold plain_list in HP. rewrite Forall_forall in HP. specialize (HP s (nth_error_In _ _ Hs)). rewrite Forall_forall in HP. now apply (HP (k, a)).
Qed.

(** ** one pass is the python loop of [scan] *)
Section Call.
Context (J : arrays) (o : scan_opts) (n : nat) (nodes : list string) (d : mdef) (b : state).
Context (f : option pctx -> pyval -> list pyval -> prog (pyval * list pyval)) (Hf : forall pc c xs, ok_prog (f pc c xs)).
Context (lw : nat -> world) (lr : nat -> nat) (ax : nat -> list state) (c : state).
Context (args : nat -> option pctx * list pyval) (c0 : pyval) (lw' : nat -> world) (ax' : nat -> list state) (cs : nat -> state) (ys : nat -> list pyval) (cc : nat -> pyval).
Context (Hc : carried o nodes c) (HL : forall i, i < n -> exists ci, layer o nodes d (lw i) (lr i) (ax i) b ci /\ alike c ci).
Context (HP : pass o f n b lw lr args c c0 lw' ax' cs ys cc) (HA : forall i, i < n -> alike c (cs i)).

Lemma pass_step i : i < n -> carried o nodes (prev c cs i) ->
  wf_world (lw' i) /\ w_nodes (lw' i) = nodes /\ valid (lw' i) (lr i) /\ carried o nodes (cs i) /\
  exists s, get_state (lw' i) (lr i) = Ok s /\ partition_state s (o_filters o) = Ok (Many (ax' i ++ [b; cs i])) /\
    forall wb, wf_world wb -> w_nodes wb = nodes -> call_on wb d (ax i ++ [b; prev c cs i]) (f (fst (args i)) (prev c0 cc i) (snd (args i))) = Some ((cc i, ys i), s).
Proof.
  intros Hi Ca. destruct (HL i Hi) as (ci & Ly & Al). destruct (HP i Hi) as (wu & s & P1 & P2 & P3 & P4).
  assert (Al2 : alike ci (prev c cs i)). { eapply alike_trans; [apply alike_sym; exact Al|]. destruct i as [|i]; [apply alike_refl|]. apply HA. lia. }
  destruct (carry_in _ _ _ _ _ _ _ _ _ Ly Ca Al2) as (wu' & E & Ly2). assert (wu' = wu) by congruence. subst wu'.
  destruct (layer_call _ _ _ _ _ _ _ _ _ _ _ _ (Hf _ _ _) Ly2 P2 P3) as (Q1 & Q2 & Q3 & Q4).
  split; [exact Q1|]. split; [exact Q2|]. split; [exact Q3|]. split; [exists (lw' i), (lr i), s, (ax' i), b; auto|]. exists s. auto.
Qed.
Lemma pass_carried i : i <= n -> carried o nodes (prev c cs i).
Proof. induction i as [|i IH]; intros Hi; [exact Hc|]. cbn. apply pass_step; [lia|]. apply IH. lia. Qed.

Definition p_layers i k : list step_in := map (fun i => (fst (args i), ax i, snd (args i))) (seq i k).
Definition p_outs i k : list layer_out := map (fun i => (ax' i, ys i)) (seq i k).
Lemma pass_loop wb : wf_world wb -> w_nodes wb = nodes -> forall k i, i + k <= n ->
  loop wb d (o_filters o) f b (prev c cs i) (prev c0 cc i) (p_layers i k) (p_outs i k) (map cs (seq i k)) (prev c0 cc (i + k)).
Proof.
  intros Wb Nb. induction k as [|k IH]; intros i Hi.
  - rewrite Nat.add_0_r. cbn. constructor.
  - destruct (pass_step i) as (_ & _ & _ & _ & s & _ & S2 & S3); [lia|apply pass_carried; lia|]. cbn [p_layers p_outs seq map].
    eapply loop_step; [apply S3; assumption|exact S2|]. specialize (IH (S i)). replace (S i + k) with (i + S k) in IH by lia. apply IH. lia.
Qed.
Lemma last_prev k : last (map cs (seq 0 k)) c = prev c cs k.
Proof. destruct k as [|k]; [reflexivity|]. rewrite seq_S, map_app. cbn. now rewrite last_last. Qed.
End Call.

Lemma Forall2_choose {A B} (R : A -> B -> Prop) l : (forall x, In x l -> exists y, R x y) -> exists l', Forall2 R l l'.
Proof.
  induction l as [|x l IH]; intros H; [exists []; constructor|]. destruct (H x (or_introl eq_refl)) as [y Hy]. destruct IH as [l' Hl]; [intros z Hz; apply H; now right|].
  exists (y :: l'). now constructor.
Qed.
Lemma nth_map_seq {A} (h : nat -> A) n i x : nth_error (map h (seq 0 n)) i = Some x <-> i < n /\ x = h i.
Proof.
  rewrite nth_error_map. destruct (nth_error (seq 0 n) i) as [j|] eqn:E.
  - assert (i < n) by (rewrite <- (seq_length n 0); apply nth_error_Some; congruence).
    pose proof (nth_error_nth _ _ 0 E) as Y. rewrite seq_nth in Y by assumption. cbn in Y. subst j. cbn. split; [intros [= <-]; auto|intros [_ ->]; reflexivity].
  - apply nth_error_None in E. rewrite seq_length in E. split; [discriminate|lia].
Qed.
Lemma in_map_seq {A} (h : nat -> A) n x : In x (map h (seq 0 n)) <-> exists i, i < n /\ x = h i.
Proof. rewrite in_map_iff. split; [intros (i & <- & Hi); apply in_seq in Hi; exists i; split; [lia|reflexivity]|intros (i & Hi & ->); exists i; split; [reflexivity|apply in_seq; lia]]. Qed.
Lemma alike_wf s s' : alike s s' -> wf_state s -> wf_state s'.
Proof. intros A W. unfold wf_state, keys_increasing in *. pose proof (alike_keys _ _ A) as K. unfold keys in K. now rewrite <- K. Qed.
Lemma nth_error_nth_Some {A} (l : list A) i x dflt : nth_error l i = Some x -> nth i l dflt = x.
Proof. intros H. now apply nth_error_nth. Qed.

Theorem scan_stands J o n nodes d b f lw lr ax c args c0 lw' ax' cs ys cc w m t xs ctx pc ss ss' :
  arrays_ok J -> stack_slices J -> (forall pc c xs, ok_prog (f pc c xs)) -> Forall by_class (o_filters o) ->
  o_length o = Some n -> 0 < n -> o_reverse o = false ->
  stands_for J o n nodes d w m ax b c ->
  (forall i, i < n -> exists ci, layer o nodes d (lw i) (lr i) (ax i) b ci /\ alike c ci) ->
  scan_ctx (w_trace w) (o_split o) ctx ss = (Ok pc, ss') -> step_args J o n pc xs args ->
  pass o f n b lw lr args c c0 lw' ax' cs ys cc -> keeps o n d lr ax c lw' ax' cs ys ->
  exists w' ysb,
    scan_apply J o t (fun pc c xs => user_fun (f pc c xs)) w m c0 xs ctx ss = (w', ss', Ok (prev c0 cc n, ysb)) /\
    leaf_stack J (o_out o) (map ys (seq 0 n)) ysb /\ (forall i, i < n -> List.length (ys i) = List.length ysb) /\
    stands_for J o n nodes d w' m ax' b (prev c cs n) /\
    (forall i, i < n -> exists ci, layer o nodes d (lw' i) (lr i) (ax' i) b ci /\ alike (prev c cs n) ci) /\
    w_trace w' = w_trace w /\ (forall p, follow w' m p = follow w m p) /\
    (forall x ob, get_obj w x = Some ob -> ~ reaches w m x -> get_obj w' x = Some ob).
Proof.
  intros HJ HS Hf Hbc Hlen Hn Hrev (axs & Ly & Sl & Lv & Rw) HL Hctx Harg HP HK.
  pose proof (layer_carried _ _ _ _ _ _ _ _ Ly) as Hc. destruct Ly as [W V N L Nt Df (s & G & P)].
  assert (HA : forall i, i < n -> alike c (cs i)) by (intros i Hi; apply (HK i Hi)).
  assert (Ws : wf_state s) by (destruct (get_state_total w m W V) as (s' & E & Q); congruence).
  pose proof (state_plain _ _ _ W G) as Pl. destruct (partition_parts _ _ _ Ws Pl P) as (Wl & Pll & Ll & Dis & Sub & Cov).
  assert (La : List.length axs = List.length (o_axes o)).
  { rewrite app_length in Ll. unfold o_filters in Ll. rewrite app_length, map_length in Ll. cbn in Ll. lia. }
  (* the states of the layers afterwards *)
  assert (Hpart : forall i, i < n -> Forall wf_state (ax' i) /\ plain_list (ax' i) /\ List.length (ax' i) = List.length (o_axes o)).
  { intros i Hi. destruct (pass_step o n nodes d b f Hf lw lr ax c args c0 lw' ax' cs ys cc HL HP HA i Hi) as (Q1 & Q2 & Q3 & Q4 & s1 & Q5 & Q6 & _).
    { apply (pass_carried o n nodes d b f Hf lw lr ax c args c0 lw' ax' cs ys cc Hc HL HP HA). lia. }
    assert (Ws1 : wf_state s1) by (destruct (get_state_total (lw' i) (lr i) Q1 Q3) as (s' & E & Q); congruence).
    destruct (partition_parts _ _ _ Ws1 (state_plain _ _ _ Q1 Q5) Q6) as (R1 & R2 & R3 & _). apply Forall_app in R1 as [R1 _]. apply plain_list_app in R2 as [R2 _].
    split; [exact R1|]. split; [exact R2|]. rewrite app_length in R3. unfold o_filters in R3. rewrite app_length, map_length in R3. cbn in R3. lia. }
  assert (HCl : carried o nodes (prev c cs n)) by (apply (pass_carried o n nodes d b f Hf lw lr ax c args c0 lw' ax' cs ys cc Hc HL HP HA); lia).
  assert (HAl : alike c (prev c cs n)) by (destruct n as [|n']; [lia|]; apply HA; lia).
  (* the stacked ones *)
  assert (FE : exists fin, Forall2 (fun i x => leave_axes o (ax' i) = Ok x /\ Forall2 alike axs x) (seq 0 n) fin).
  { apply Forall2_choose. intros i Hi. apply in_seq in Hi. apply (Lv i); [lia|]. apply HK. lia. }
  destruct FE as [fins FE]. assert (Hfl : List.length fins = n) by (rewrite <- (Forall2_len _ _ _ FE), seq_length; reflexivity).
  assert (FN : forall i x, nth_error fins i = Some x -> i < n /\ leave_axes o (ax' i) = Ok x /\ Forall2 alike axs x).
  { intros i x Hi. destruct (Forall2_nth2 _ _ _ _ _ FE Hi) as (j & Hj & Q). assert (Hlt : i < n) by (rewrite <- Hfl; apply nth_error_Some; congruence).
    pose proof (nth_error_nth _ _ 0 Hj) as Y. rewrite seq_nth in Y by exact Hlt. cbn in Y. subst j. auto. }
  pose proof (pass_loop o n nodes d b f Hf lw lr ax c args c0 lw' ax' cs ys cc Hc HL HP HA w W Nt n 0 (le_n n)) as LP. cbn [prev plus] in LP.
  destruct (leaves_explicit_ok J o f HJ Hf w m d s axs b c W V Df G P t c0 xs ctx pc ss ss' (p_layers ax args 0 n) (p_outs ax' ys 0 n) (map cs (seq 0 n)) (prev c0 cc n) fins N L) as
    (w4 & axsF & ysF & s' & E & A1 & A2 & A3 & A4 & A5 & A6 & A7 & A8 & A9 & A10 & A11 & A12 & A13 & A14 & A15 & A16 & A17).
  { intros st k v axis l Hst D. destruct (get_state_nodes w m s k (ARaw v) W G) as (tn & T1 & T2); [apply (Sub st); [apply in_app_iff; now left|exact D]|]. exists tn. split; [exact T1|].
    now rewrite (Rw st k v axis l Hst D). }
  { intros E. apply (f_equal (@List.length _)) in E. unfold p_layers in E. rewrite map_length, seq_length in E. cbn in E. lia. }
  { exact Hctx. }
  { intros i l Hi. unfold p_layers in *. rewrite map_length, seq_length. apply nth_map_seq in Hi as [Hi ->]. split; [apply (Harg i Hi)|]. split; [apply (Sl i Hi)|apply (Harg i Hi)]. }
  { congruence. }
  { intros q Hq. unfold p_layers. rewrite map_length, seq_length. congruence. }
  { rewrite Hrev. exact LP. }
  { apply Forall2_nth_intro; [unfold p_outs; rewrite map_length, seq_length; congruence|]. intros i x y Hx Hy. apply nth_map_seq in Hx as [Hi ->]. apply FN in Hy as (_ & Hy & _). exact Hy. }
  { intros x y Hx Hy. apply in_map_seq in Hx as (i & Hi & ->). apply in_map_seq in Hy as (j & Hj & ->). cbn. destruct (HK i Hi) as (_ & _ & _ & _ & _ & _ & ->). destruct (HK j Hj) as (_ & _ & _ & _ & _ & _ & ->). reflexivity. }
  { intros x Hx. apply In_nth_error in Hx as [i Hi]. apply FN in Hi. tauto. }
  { intros x Hx. apply in_map_seq in Hx as (i & Hi & ->). now apply HA. }
  { congruence. }
  rewrite Hrev in *.
  assert (YS : map snd (p_outs ax' ys 0 n) = map ys (seq 0 n)) by (unfold p_outs; rewrite map_map; reflexivity). rewrite YS in *.
  rewrite last_prev in *.
  exists w4, ysF. split; [exact E|]. split; [exact A3|]. split. { intros i Hi. apply A4. apply in_map_seq. eauto. }
  (* the new stack *)
  assert (HF : forall q st, nth_error axsF q = Some st -> exists a0 fx, nth_error axs q = Some a0 /\ nth_error (o_axes o) q = Some fx /\ alike a0 st /\ is_stack J (snd fx) (col q fins) st).
  { intros q st Hq. assert (Hlt : q < List.length (o_axes o)) by (rewrite <- A1; apply nth_error_Some; congruence).
    destruct (nth_error (o_axes o) q) as [fx|] eqn:Ef; [|apply nth_error_None in Ef; lia]. destruct (nth_error axs q) as [a0|] eqn:Ea; [|apply nth_error_None in Ea; lia].
    exists a0, fx. split; [reflexivity|]. split; [reflexivity|]. pose proof (A2 q fx st Ef Hq) as St. split; [|exact St]. destruct fins as [|x0 fins']; [cbn in Hfl; lia|].
    destruct (FN 0 x0 eq_refl) as (_ & _ & F0). destruct (Forall2_nth _ _ _ _ _ F0 Ea) as (y & Hy & Ay). eapply alike_trans; [exact Ay|]. destruct St as [St _]. apply St. left.
    now apply nth_error_nth_Some. }
  assert (V4 : m < List.length (w_heap w4)).
  { assert (R : follow w4 m [] = Some m) by (rewrite A12; destruct (get_obj_ex _ _ V) as [ob Ho]; cbn; now rewrite Ho). cbn in R. destruct (get_obj w4 m) eqn:Q; [|discriminate]. eapply get_obj_lt; eauto. }
  assert (Ws' : wf_state s') by (destruct (get_state_total w4 m A14 V4) as (s2 & E2 & Q); congruence).
  apply Forall_app in Wl as [Wa Wb]. assert (Wb1 : wf_state b) by (rewrite Forall_forall in Wb; apply Wb; now left).
  assert (P' : partition_state s' (o_filters o) = Ok (Many (axsF ++ [b; prev c cs n]))).
  { apply (repartition s (o_filters o) (axs ++ [b; c])); auto.
    - apply Forall_app. split; [|constructor; [exact Wb1|constructor; [apply (carried_ok _ _ _ HCl)|constructor]]]. apply Forall_forall. intros st Hst. apply In_nth_error in Hst as [q Hq].
      destruct (HF q st Hq) as (a0 & fx & Q1 & _ & Q3 & _). eapply alike_wf; [exact Q3|]. rewrite Forall_forall in Wa. apply Wa. eapply nth_error_In; eauto.
    - apply Forall2_app; [|constructor; [reflexivity|constructor; [now apply alike_keys|constructor]]]. apply Forall2_nth_intro; [congruence|]. intros q x y Hx Hy.
      destruct (HF q y Hy) as (a0 & fx & Q1 & _ & Q3 & _). assert (a0 = x) by congruence. subst. now apply alike_keys.
    - intros j x y k a a' g Hx Hy D D' Hg. destruct (Nat.lt_ge_cases j (List.length axs)) as [Hj|Hj].
      + rewrite nth_error_app1 in Hx by exact Hj. rewrite nth_error_app1 in Hy by lia. destruct (HF j y Hy) as (a0 & fx & Q1 & _ & Q3 & Q4). assert (a0 = x) by congruence. subst a0.
        rewrite Forall_forall in Hbc. apply (Hbc g Hg). destruct (alike_get _ _ k a Q3 D) as (a2 & D2 & K). assert (a2 = a') by congruence. subst a2.
        destruct a as [v|ca], a' as [v'|ca']; try contradiction.
        * destruct (is_stack_val _ _ _ _ _ _ Q4 D') as (vs & _ & Ev). cbn in Ev. subst v'. symmetry. apply (Rw x k v); [eapply nth_error_In; eauto|exact D].
        * cbn. now destruct K.
      + rewrite nth_error_app2 in Hx by exact Hj. rewrite nth_error_app2 in Hy by lia. rewrite A1, <- La in Hy. destruct (j - List.length axs) as [|[|q]]; cbn in Hx, Hy.
        * injection Hx as <-. injection Hy as <-. assert (a' = a) by congruence. subst. tauto.
        * injection Hx as <-. injection Hy as <-. exact (carried_match _ _ _ _ _ _ _ _ Hc HCl D D' Hg).
        * destruct q; discriminate.
    - intros y k a Hy D. apply in_app_iff in Hy as [Hy|[<-|[<-|[]]]]; [|now apply A9|now apply A8]. apply In_nth_error in Hy as [q Hq]. eapply A7; eauto. }
  split.
  { exists axsF. split; [constructor; auto; [congruence|exists s'; auto]|]. split; [|split].
    - intros i Hi. destruct (nth_error fins i) as [x|] eqn:Ei; [|apply nth_error_None in Ei; lia]. destruct (FN i x Ei) as (_ & F1 & F2). destruct (Hpart i Hi) as (H1 & H2 & H3).
      destruct (enter_leave o (ax' i) x) as (G1 & G2 & G3); auto; [apply (HK i Hi)|]. exists x. split; [|exact G2].
      apply Forall2_nth_intro; [rewrite combine_length; lia|]. intros q [big fx] small Hb Hsm.
      assert (Hq : nth_error axsF q = Some big /\ nth_error (o_axes o) q = Some fx).
      { clear - Hb. revert Hb. generalize (o_axes o). revert q. induction axsF as [|a l IH]; intros [|q] [|y l'] H; cbn in *; try discriminate; [injection H as -> ->; auto|]. now apply IH. }
      destruct Hq as [Hq1 Hq2]. cbn [fst snd]. destruct (HF q big Hq1) as (a0 & fx' & Q1 & Q2 & Q3 & Q4). assert (fx' = fx) by congruence. subst fx'.
      assert (Cx : nth_error (col q fins) i = Some small) by (unfold col; rewrite nth_error_map, Ei; cbn; f_equal; now apply nth_error_nth_Some).
      split. { apply alike_sym. destruct Q4 as [Q4 _]. apply Q4. eapply nth_error_In; eauto. }
      intros k v Hv. destruct Q4 as [_ Q4]. destruct (Q4 k v Hv) as (vs & V1 & V2). destruct (Forall2_nth _ _ _ _ _ V1 Cx) as (y & Y1 & Y2). exists vs, y. rewrite V2.
      split; [|split; [rewrite <- (Forall2_len _ _ _ V1); unfold col; rewrite map_length; exact Hfl|split; assumption]].
      apply HS; [intros ->; inversion V1 as [E0|]; unfold col in E0; apply (f_equal (@List.length _)) in E0; rewrite map_length, Hfl in E0; cbn in E0; lia|].
      apply Forall_forall. intros z Hz. apply In_nth_error in Hz as [p Hp]. destruct (Forall2_nth2 _ _ _ _ _ V1 Hp) as (sm & S1 & (ap & D1 & D2)).
      unfold col in S1. rewrite nth_error_map in S1. destruct (nth_error fins p) as [xp|] eqn:Ep; [|discriminate]. cbn in S1. injection S1 as S1. destruct (FN p xp Ep) as (Hpn & K1 & _).
      destruct (Hpart p Hpn) as (H1' & H2' & H3'). destruct (enter_leave o (ax' p) xp) as (G1' & _ & G3'); auto; [apply (HK p Hpn)|].
      destruct (nth_error xp q) as [sq|] eqn:Eq; [|apply nth_error_None in Eq; assert (q < List.length (o_axes o)) by (apply nth_error_Some; congruence); lia].
      rewrite (nth_error_nth_Some _ _ _ [] Eq) in S1. subst sm. destruct (Forall2_nth2 _ _ _ _ _ G3' Eq) as (s0 & S0 & _ & Vv). destruct (Vv k ap D1) as (a1 & Da & Ev).
      subst z. change (not_module (val_of ap)). rewrite Ev. destruct (HK p Hpn) as (_ & _ & _ & _ & _ & Stk & _). apply (Stk q s0 fx k a1 S0 Hq2 Da).
    - intros i l Hi Al. destruct (Lv i l Hi) as (l' & L1 & L2).
      { destruct (HK i Hi) as (_ & _ & _ & K & _). clear - K Al. revert l Al. induction K as [|x y u v K1 K IH]; intros l Al; inversion Al; subst; constructor; [eapply alike_trans; eauto|auto]. }
      exists l'. split; [exact L1|]. assert (AF : Forall2 alike axsF axs).
      { apply Forall2_nth_intro; [congruence|]. intros q x y Hx Hy. destruct (HF q x Hx) as (a0 & fx & Q1 & _ & Q3 & _). assert (a0 = y) by congruence. subst. now apply alike_sym. }
      clear - AF L2. revert l' L2. induction AF as [|x y u v K1 K IH]; intros l Al; inversion Al; subst; constructor; [eapply alike_trans; eauto|auto].
    - intros st k v axis vs Hst D. apply In_nth_error in Hst as [q Hq]. destruct (HF q st Hq) as (a0 & fx & Q1 & Q2 & Q3 & Q4).
      destruct (alike_get _ _ k (ARaw v) (alike_sym _ _ Q3) D) as (old & Do & K). destruct old as [v0|]; [|contradiction].
      destruct (is_stack_val _ _ _ _ _ _ Q4 D) as (us & _ & Ev). cbn in Ev. subst v. rewrite (Rw a0 k v0 axis vs), (Rw a0 k v0 (snd fx) us); auto; eapply nth_error_In; eauto. }
  split; [|auto].
  intros i Hi. exists (cs i). destruct (pass_step o n nodes d b f Hf lw lr ax c args c0 lw' ax' cs ys cc HL HP HA i Hi) as (Q1 & Q2 & Q3 & Q4 & s1 & Q5 & Q6 & _).
  { apply (pass_carried o n nodes d b f Hf lw lr ax c args c0 lw' ax' cs ys cc Hc HL HP HA). lia. }
  destruct (HK i Hi) as (K1 & K2 & K3 & K4 & K5 & K6 & K7). split; [constructor; auto; exists s1; auto|]. eapply alike_trans; [apply alike_sym; exact HAl|exact K5].
Qed.

(** ** the axis name goes into alike States alike *)
Lemma ff_alike o axis a a' r : same_kind a a' -> ff o axis a = Ok r -> exists r', ff o axis a' = Ok r' /\ same_kind r r'.
Proof.
  intros K H. unfold ff in *. destruct (o_partition o) as [nm|]; [|injection H as <-; eauto]. unfold add_axis1, sharding_of in *.
  destruct a as [v|ca], a' as [v'|ca']; try contradiction; [injection H as <-; exists (ARaw v'); auto|]. destruct ca as [k1 m1 v1], ca' as [k2 m2 v2]. cbn in K. destruct K as [<- <-].
  cbn [c_cls c_meta c_val] in *. assert (T : forall v, same_kind (ACont (mkCont k1 m1 v)) (ACont (mkCont k1 m1 v2))) by (cbn; auto). destruct (smem "Node" k1); cbn [rbind] in *.
  - destruct (dget "sharding" m1) as [[]|] eqn:D; cbn [rbind] in *; try discriminate; try (injection H as <-; eauto).
    destruct (val_sharding l) as [sh|]; [|discriminate]. cbn [rbind] in *. unfold container_replace in *. cbn [rbind c_meta c_cls c_val] in *.
    destruct (forallb _ _); [|discriminate]. unfold container_call, container_init in *. cbn [rbind] in *.
    destruct (init_meta _ _) as [md|]; [|discriminate]. cbn [rbind rmap] in *. injection H as <-; eexists; (split; [reflexivity|]); cbn; auto.
  - injection H as <-. eauto.
Qed.
Lemma state_map_alike f : (forall a a' r, same_kind a a' -> f a = Ok r -> exists r', f a' = Ok r' /\ same_kind r r') ->
  forall s s' t, alike s s' -> state_map f s = Ok t -> exists t', state_map f s' = Ok t' /\ alike t t'.
Proof.
  intros Hf s s' t A. revert t. induction A as [|[k a] [k' a'] s s' [E K] A IH]; intros t H; cbn in *; [injection H as <-; exists []; split; [reflexivity|constructor]|].
  subst k'. destruct (f a) as [b|] eqn:Ea; [|discriminate]. cbn in H. destruct (state_map f s) as [t1|]; [|discriminate]. cbn in H. injection H as <-.
  destruct (Hf _ _ _ K Ea) as (b' & -> & K'). destruct (IH _ eq_refl) as (t' & -> & A'). cbn. exists ((k, b') :: t'). split; [reflexivity|]. constructor; auto.
Qed.
Lemma on_axes_alike f axes : (forall s s' ax t, alike s s' -> f s ax = Ok t -> exists t', f s' ax = Ok t' /\ alike t t') ->
  forall l l' t, Forall2 alike l l' -> on_axes f axes l = Ok t -> exists t', on_axes f axes l' = Ok t' /\ Forall2 alike t t'.
Proof.
  intros Hf. induction axes as [|[q ax] axes IH]; intros l l' t A H; destruct A as [|s s' l l' A0 A]; cbn in *; try (injection H as <-; exists []; split; [reflexivity|constructor]).
  destruct (f s ax) as [b|] eqn:Ea; [|discriminate]. cbn in H. destruct (on_axes f axes l) as [t1|] eqn:E1; [|discriminate]. cbn in H. injection H as <-.
  destruct (Hf _ _ _ _ A0 Ea) as (b' & -> & K'). destruct (IH _ _ _ A E1) as (t' & -> & A'). cbn. exists (b' :: t'). split; [reflexivity|]. constructor; auto.
Qed.
Lemma leave_alike o l1 l2 l1' : List.length l1 = List.length (o_axes o) -> Forall2 alike l1 l2 -> leave_axes o l1 = Ok l1' ->
  exists l2', leave_axes o l2 = Ok l2' /\ Forall2 alike l1' l2'.
Proof.
  intros Hl A H. rewrite leave_alt in H by exact Hl. rewrite leave_alt by (rewrite <- (Forall2_len _ _ _ A); exact Hl).
  eapply on_axes_alike; [|exact A|exact H]. intros s s' ax t As Hs. eapply state_map_alike; [|exact As|exact Hs]. apply ff_alike.
Qed.
Lemma ff_raw o ax a v : ff o ax a = Ok (ARaw v) -> a = ARaw v.
Proof.
  unfold ff. destruct (o_partition o); [|congruence]. unfold add_axis1. destruct (sharding_of a) as [[[c sh]|]|] eqn:E; cbn [rbind]; try discriminate; [|congruence].
  destruct (container_replace _ _ _); discriminate.
Qed.
Lemma leave_raw o : forall l l' q s k v, List.length l = List.length (o_axes o) -> leave_axes o l = Ok l' -> nth_error l' q = Some s -> dget k s = Some (ARaw v) ->
  exists s0, nth_error l q = Some s0 /\ dget k s0 = Some (ARaw v).
Proof.
  intros l l' q s k v Hl H. rewrite leave_alt in H by exact Hl. clear Hl. revert l l' q H. induction (o_axes o) as [|[g ax] axes IH]; intros [|s0 l] l' q H Hq Hk; cbn in H; try (injection H as <-; destruct q; discriminate).
  destruct (state_map (ff o ax) s0) as [x|] eqn:E; [|discriminate]. cbn in H. destruct (on_axes _ axes l) as [xs|] eqn:E2; [|discriminate]. cbn in H. injection H as <-.
  destruct q as [|q]; cbn in *; [|eapply IH; eauto]. injection Hq as <-. exists s0. split; [reflexivity|]. clear - E Hk. revert x E Hk.
  induction s0 as [|[k0 a] s0 IH]; intros x E Hk; cbn in *; [injection E as <-; discriminate|].
  destruct (ff o ax a) as [a'|] eqn:Ea; [|discriminate]. cbn in E. destruct (state_map (ff o ax) s0) as [x0|]; [|discriminate]. cbn in E. injection E as <-. cbn in Hk.
  destruct (String.eqb k k0); [|eauto]. injection Hk as ->. apply ff_raw in Ea. congruence.
Qed.
Lemma all_alike_trans l1 l2 l3 : Forall2 alike l1 l2 -> Forall2 alike l2 l3 -> Forall2 alike l1 l3.
Proof. intros H. revert l3. induction H as [|a b l1 l2 H H1 IH]; intros l3 H3; inversion H3; subst; constructor; [eapply alike_trans; eauto|auto]. Qed.
Lemma all_alike_sym l1 l2 : Forall2 alike l1 l2 -> Forall2 alike l2 l1.
Proof. induction 1; constructor; [now apply alike_sym|auto]. Qed.

(** ** what happens elsewhere does not matter *)
Lemma same_bisim w w' m : wf_world w -> valid w m -> (forall x ob, reaches w m x -> get_obj w x = Some ob -> get_obj w' x = Some ob) ->
  bisim w w' (fun x y => x = y /\ reaches w m x).
Proof.
  intros Hw Hm Hu. constructor.
  - intros x y [-> Hx]. destruct (reaches_valid _ _ _ Hx) as [o Ho]. exists o, o. split; [exact Ho|]. split; [now apply Hu|].
    split; [reflexivity|]. split; [reflexivity|]. intros n. destruct (dget n (m_vars o)) as [a|] eqn:E; [|exact Logic.I].
    destruct (is_submodule a) eqn:Es; [|now apply orel_refl_val]. apply is_sub_inv in Es as [c ->]. cbn.
    split; [reflexivity|]. destruct Hx as [p Hp]. exists (p ++ [n]). rewrite follow_app, Hp. cbn. rewrite Ho, E. 
    pose proof (wfo_refs _ _ (wf_objs _ Hw _ _ Ho) _ _ E) as Hv. destruct (get_obj_ex _ _ Hv) as [oc Hoc]. now rewrite Hoc.
  - intros x y y' [-> _] [-> _]. reflexivity.
  - intros x x' y [-> _] [-> _]. reflexivity.
Qed.
Lemma layer_elsewhere o nodes d w m axs b c w' : layer o nodes d w m axs b c -> wf_world w' -> w_trace w' = w_trace w -> w_nodes w' = w_nodes w ->
  (forall x ob, reaches w m x -> get_obj w x = Some ob -> get_obj w' x = Some ob) -> layer o nodes d w' m axs b c /\ (forall x, reaches w' m x -> reaches w m x).
Proof.
  intros [W V N L Nt Df (s & G & P)] W' T' N' U. pose proof (same_bisim w w' m W V U) as B. assert (R0 : m = m /\ reaches w m m) by (destruct (get_obj_ex w m V) as [o0 Ho0]; split; [reflexivity|eapply reaches_refl; eauto]).
  assert (RR : forall x, reaches w' m x -> reaches w m x).
  { intros x Hx. destruct (bisim_reaches _ _ _ _ _ _ (bisim_sym _ _ _ B) R0 Hx) as (y & _ & [-> Hy]). exact Hy. }
  split; [|exact RR]. constructor; auto.
  - destruct (get_obj_ex w m V) as [ob Hob]. apply U in Hob; [|apply R0]. unfold get_obj in Hob. apply nth_error_Some. congruence.
  - apply (bisim_names w w' _ m m B); [now symmetry|exact R0|exact N].
  - intros x ob Hx Ho. apply RR in Hx. destruct (reaches_valid _ _ _ Hx) as [ob' Hob]. pose proof (U _ _ Hx Hob) as E. rewrite Ho in E. injection E as ->.
    rewrite T'. eapply L; eauto.
  - congruence.
  - rewrite <- (bisim_module_def w w' _ m m W W' B); auto.
  - exists s. split; [|exact P]. rewrite <- (bisim_get_state w w' _ m m W W' B); auto.
Qed.
Theorem stands_elsewhere J o n nodes d w m ax b c w' : stands_for J o n nodes d w m ax b c -> wf_world w' -> w_trace w' = w_trace w -> w_nodes w' = w_nodes w ->
  (forall x ob, reaches w m x -> get_obj w x = Some ob -> get_obj w' x = Some ob) -> stands_for J o n nodes d w' m ax b c.
Proof.
  intros (axs & Ly & Sl & Lv & Rw) W T N U. destruct (layer_elsewhere _ _ _ _ _ _ _ _ _ Ly W T N U) as [Ly' _]. exists axs. auto.
Qed.

(** ** construction *)
Lemma scan_start_ok w cv ov : exists w0, scan_start w cv ov = Ok (List.length (w_heap w), w0) /\
  get_obj w0 (List.length (w_heap w)) = Some (mkMobj Scan_cls (S (w_uuid w)) false (w_trace w) [("module_constructor", ARaw cv); ("options", ARaw ov)]) /\
  w_trace w0 = w_trace w /\ w_nodes w0 = w_nodes w /\ (forall x ob, get_obj w x = Some ob -> get_obj w0 x = Some ob).
Proof.
  unfold scan_start. cbn [new_module]. set (r := List.length (w_heap w)). set (o := mkMobj _ _ _ _ []). set (w1 := mkWorld _ _ _ _).
  assert (G1 : get_obj w1 r = Some o) by (unfold get_obj; cbn; rewrite nth_error_app2 by (unfold r; lia); unfold r; now rewrite Nat.sub_diag).
  rewrite (setattr_ok w1 r "module_constructor" (ARaw cv) o (ARaw cv) G1) by (reflexivity || discriminate). cbn [rbind].
  set (w2 := put_obj w1 r _). set (o2 := set_vars o (dset "module_constructor" (ARaw cv) (m_vars o))).
  assert (G2 : get_obj w2 r = Some o2) by (eapply get_put_same; eauto).
  rewrite (setattr_ok w2 r "options" (ARaw ov) o2 (ARaw ov) G2) by (reflexivity || discriminate). cbn [rbind].
  eexists. split; [reflexivity|]. split; [rewrite (get_put_same _ _ _ _ G2); reflexivity|]. split; [reflexivity|]. split; [reflexivity|].
  intros x ob H. assert (x < r) by (apply get_obj_lt in H; exact H). unfold w2. rewrite !get_put_other by lia. unfold get_obj in *. cbn. rewrite nth_error_app1; auto.
Qed.

Theorem scan_built J o t ctor cv ov w r w0 ctx ss pc ss' n lw lr d st ax b c :
  arrays_ok J -> stack_slices J -> o_length o = Some n -> 0 < n -> (ctx <> None \/ o_axes o <> []) ->
  scan_start w cv ov = Ok (r, w0) ->
  scan_ctx (w_trace w) (o_split o) ctx ss = (Ok pc, ss') ->
  (forall i, i < n -> layer_made o ctor (set_trace w0 t) (option_map (fun pp => lane_keys (snd pp) n (fst pp) i) pc)
                        (lw i) (lr i) d (st i) (ax i) b c) ->
  (forall i, i < n -> live (lw i) (lr i) /\ w_nodes (lw i) = w_nodes w /\ stackable o (ax i)) ->
  get_obj (lw 0) r = get_obj w0 r ->
  (forall i j, i < n -> j < n -> Forall2 alike (ax i) (ax j)) ->
  Forall by_class (o_filters o) ->
  (forall i s k v axis l, i < n -> In s (ax i) -> dget k s = Some (ARaw v) -> cls_of_attr (ARaw (a_stack J axis l)) = cls_of_attr (ARaw v)) ->
  exists m w',
    scan_new J o t ctor cv ov w ctx ss = (w', ss', Ok r) /\
    getattr w' r "scan_module" = Ok (RVal (PyMod m)) /\ ~ reaches w' m r /\
    w_trace w' = w_trace w /\
    stands_for J o n (w_nodes w) d w' m ax b c /\
    (forall i, i < n -> exists ci, layer o (w_nodes w) d (lw i) (lr i) (ax i) b ci /\ alike c ci) /\
    (forall x ob, get_obj (lw 0) x = Some ob -> x <> r -> get_obj w' x = Some ob).
Proof.
  intros HJ HS HL Hn Hcx HW HC HM HE Hr Hal Hbc Hraw.
  destruct (scan_start_ok w cv ov) as (w0' & S1 & S2 & S3 & S4 & S5). rewrite HW in S1. injection S1 as -> <-.
  set (r := List.length (w_heap w)) in *. set (ob0 := mkMobj _ _ _ _ _) in S2. rewrite S2 in Hr.
  destruct (HE 0 Hn) as (L0 & N0 & K0). pose proof (HM 0 Hn) as [M1 M2 M3 M4 M5 M6 M7].
  assert (LA : forall i, i < n -> List.length (ax i) = List.length (o_axes o)).
  { intros i Hi. destruct (HM i Hi) as [Q1 Q2 Q3 Q4 Q5 Q6 Q7]. destruct (get_state_total _ _ Q2 Q3) as (s1 & G & Ws). assert (s1 = st i) by congruence. subst s1.
    destruct (partition_parts _ _ _ Ws (state_plain _ _ _ Q2 Q6) Q7) as (_ & _ & Ll & _). rewrite app_length in Ll. unfold o_filters in Ll. rewrite app_length, map_length in Ll. cbn in Ll. lia. }
  destruct (scan_init_full J o t ctor w0 ctx ss pc ss' n lw lr d st ax b c HJ HS HL Hn Hcx) as (fin & m & w2 & U & SI & MG & RC & PU & SL & KU & EU & (bigs & LB & AB & ST)); auto.
  { now rewrite S3. } { congruence. }
  { intros i s k a Hi Hs Hk. destruct (HE i Hi) as (_ & _ & K). apply In_nth_error in Hs as [q Hq].
    destruct (nth_error (o_axes o) q) as [fx|] eqn:Ef; [|apply nth_error_None in Ef; assert (q < List.length (ax i)) by (apply nth_error_Some; congruence); rewrite LA in *; [lia|exact Hi]].
    exact (proj1 (K q s fx k a Hq Ef Hk)). }
  { intros Hp i q s fx k a Hi Hq Hf I. destruct (HE i Hi) as (_ & _ & K).
    destruct (HM i Hi) as [Q1 Q2 Q3 Q4 Q5 Q6 Q7]. destruct (get_state_total _ _ Q2 Q3) as (s1 & G & Ws). assert (s1 = st i) by congruence. subst s1.
    destruct (partition_parts _ _ _ Ws (state_plain _ _ _ Q2 Q6) Q7) as (Wl & _). rewrite Forall_forall in Wl.
    refine (proj2 (K q s fx k a Hq Hf _) Hp). apply In_dget; [|exact I]. apply wf_NoDup. apply Wl, in_app_iff. left. eapply nth_error_In; eauto. }
  destruct (merge_global _ _ _ _ _ MG) as [T2 N2]. cbn in T2, N2. destruct (rc_wf _ _ _ _ _ _ RC) as (W2 & V2 & NM2).
  assert (G2 : get_obj w2 r = Some ob0) by (apply (rc_kept _ _ _ _ _ _ RC); exact Hr).
  assert (NR : ~ reaches w2 m r) by (intros X; apply (rc_new _ _ _ _ _ _ RC) in X; unfold get_obj in *; cbn in X; congruence).
  pose proof (setattr_ok w2 r "scan_module" (ARaw (PyMod m)) ob0 (ARaw (PyMod m)) G2) as SA. specialize (SA ltac:(cbn; congruence) ltac:(discriminate) eq_refl).
  set (w3 := put_obj _ _ _) in SA. assert (W3 : wf_world w3).
  { eapply setattr_wf; [exact W2| |exact SA]. split; [exact Logic.I|]. intros x [= <-]. exact V2. }
  assert (U3 : forall x ob, x <> r -> get_obj w2 x = Some ob -> get_obj w3 x = Some ob) by (intros x ob Hx Hb; unfold w3; rewrite get_put_other by congruence; exact Hb).
  assert (LY : layer o (w_nodes w) d w2 m fin b c).
  { constructor; auto; [|congruence|rewrite (rc_def _ _ _ _ _ _ RC); exact M5|exists U; split; [apply RC|exact PU]].
    intros x ob Hx Hb. rewrite (rc_trace _ _ _ _ _ _ RC x ob Hx Hb). cbn. congruence. }
  assert (UR : forall x ob, reaches w2 m x -> get_obj w2 x = Some ob -> get_obj w3 x = Some ob) by (intros x ob Hx; apply U3; intros ->; contradiction).
  destruct (layer_elsewhere _ _ _ _ _ _ _ _ w3 LY W3 eq_refl eq_refl UR) as [LY3 R3].
  exists m, w3. split; [unfold scan_new; rewrite HW, SI, SA; reflexivity|]. split; [unfold getattr, w3; rewrite (get_put_same _ _ _ _ G2); reflexivity|].
  split; [intros X; apply NR, R3, X|]. split; [cbn; congruence|]. split; [|split].
  - exists fin. split; [exact LY3|]. split; [exact SL|]. split.
    + intros i l Hi A. assert (AL : Forall2 alike bigs l).
      { eapply all_alike_trans; [|exact A]. eapply all_alike_trans; [apply all_alike_sym; exact AB|]. apply Hal; auto. }
      eapply leave_alike; [|exact AL|exact LB]. rewrite <- (Forall2_len _ _ _ AB). now apply LA.
    + intros s k v axis vs Hs Hk.
      apply In_nth_error in Hs as [q Hq]. destruct (leave_raw o bigs fin q s k v) as (s0 & B1 & B2); auto; [rewrite <- (Forall2_len _ _ _ AB); now apply LA|].
      destruct (Forall2_nth2 _ _ _ _ _ AB B1) as (a0 & A1 & A2). destruct (alike_get _ _ k (ARaw v) (alike_sym _ _ A2) B2) as ([v0|] & D0 & K); [|contradiction].
      destruct (ST q s0 k _ B1 B2) as (axis' & vs' & Ev). cbn in Ev. subst v. rewrite (Hraw 0 a0 k v0 axis vs), (Hraw 0 a0 k v0 axis' vs'); auto; eapply nth_error_In; eauto.
  - intros i Hi. exists c. destruct (HM i Hi) as [Q1 Q2 Q3 Q4 Q5 Q6 Q7]. destruct (HE i Hi) as (E1 & E2 & E3). split; [constructor; auto; exists (st i); auto|apply alike_refl].
  - intros x ob Hx Hne. apply U3; [exact Hne|]. apply (rc_kept _ _ _ _ _ _ RC). exact Hx.
Qed.

(** ** histories *)
Lemma same_follow_reaches w w' m : (forall p, follow w' m p = follow w m p) -> forall x, reaches w' m x <-> reaches w m x.
Proof. intros H x. split; intros [p Hp]; exists p; congruence. Qed.

Theorem scan_history J o n nodes d b r m lr lw ax c ks outs axN cN w :
  arrays_ok J -> stack_slices J -> Forall by_class (o_filters o) -> o_length o = Some n -> 0 < n -> o_reverse o = false ->
  (forall k pc c xs, In k ks -> ok_prog (k_fun k pc c xs)) ->
  getattr w r "scan_module" = Ok (RVal (PyMod m)) -> ~ reaches w m r ->
  stands_for J o n nodes d w m ax b c ->
  (forall i, i < n -> exists ci, layer o nodes d (lw i) (lr i) (ax i) b ci /\ alike c ci) ->
  passes J o n (w_trace w) d b lr lw ax c ks outs axN cN ->
  exists w' outs', calls J o w r ks = (w', Ok outs') /\ Forall2 (out_matches J o) outs outs' /\
    getattr w' r "scan_module" = Ok (RVal (PyMod m)) /\ stands_for J o n nodes d w' m axN b cN /\
    w_trace w' = w_trace w /\ (forall x ob, get_obj w x = Some ob -> ~ reaches w m x -> get_obj w' x = Some ob).
Proof.
  intros HJ HS Hbc HL Hn Hrev Hf Hg Hnr St Ly Ps. remember (w_trace w) as tr eqn:Et. revert w Et Hf Hg Hnr St Ly.
  induction Ps as [lw ax c|lw ax c k pc ss' args lw' ax' cs ys cc ks outs axN cN P1 P2 P3 P4 P5 IH]; intros w Et Hf Hg Hnr St Ly.
  - exists w, []. cbn. repeat split; auto.
  - destruct (scan_stands J o n nodes d b (k_fun k) lw lr ax c args (k_carry k) lw' ax' cs ys cc w m (k_trace k) (k_xs k) (k_ctx k) pc (k_ss k) ss') as
      (w1 & ysb & A1 & A2 & A3 & A4 & A5 & A6 & A7 & A8); auto.
    { intros. apply Hf. now left. } { congruence. }
    pose proof (same_follow_reaches _ _ _ A7) as RR.
    assert (Hg1 : getattr w1 r "scan_module" = Ok (RVal (PyMod m))).
    { unfold getattr in *. destruct (get_obj w r) as [ob|] eqn:E; [|discriminate]. now rewrite (A8 _ _ E Hnr). }
    destruct (IH w1) as (w2 & outs' & B1 & B2 & B3 & B4 & B5 & B6); auto; [congruence|intros; apply Hf; now right|rewrite RR; exact Hnr|].
    exists w2, ((prev (k_carry k) cc n, ysb) :: outs'). cbn [calls]. unfold scan_call. rewrite Hg, A1, B1. split; [reflexivity|].
    split; [constructor; [|exact B2]; split; [reflexivity|]; split; [exact A2|]; intros l Hl; apply in_map_seq in Hl as (i & Hi & ->); auto|].
    split; [exact B3|]. split; [exact B4|]. split; [congruence|]. intros x ob Hx Hnx. apply B6; [apply A8; auto|rewrite RR; exact Hnx].
Qed.

(** ** copies *)
Lemma follow1 w r n m : follow w r [n] = Some m <-> exists ob o', get_obj w r = Some ob /\ dget n (m_vars ob) = Some (ARaw (PyMod m)) /\ get_obj w m = Some o'.
Proof.
  cbn. destruct (get_obj w r) as [ob|]; [|split; [discriminate|intros (? & ? & H & _); discriminate]]. split.
  - destruct (dget n (m_vars ob)) as [[[| | | | |m0|]|]|] eqn:Ed; try discriminate. match goal with |- context [get_obj w ?x] => destruct (get_obj w x) as [o'|] eqn:E; [|discriminate] end. intros [= <-]. exists ob, o'. auto.
  - intros (ob' & o' & [= <-] & -> & ->). reflexivity.
Qed.
Lemma follow1_getattr w r n m : follow w r [n] = Some m -> getattr w r n = Ok (RVal (PyMod m)).
Proof. intros H. apply follow1 in H as (ob & o' & H1 & H2 & _). unfold getattr. now rewrite H1, H2. Qed.

Theorem scan_clone J o n nodes d w r m ax b c :
  wf_world w -> r < List.length (w_heap w) -> names_ok w r -> follow w r ["scan_module"] = Some m -> ~ reaches w m r ->
  stands_for J o n nodes d w m ax b c ->
  exists r' m' w', clone w r = Ok (r', w') /\ follow w' r' ["scan_module"] = Some m' /\ ~ reaches w' m' r' /\
    stands_for J o n nodes d w' m' ax b c /\ stands_for J o n nodes d w' m ax b c /\
    (forall x, reaches w' r' x -> get_obj w x = None) /\ (forall x ob, get_obj w x = Some ob -> get_obj w' x = Some ob).
Proof.
  intros W V N F NR (axs & Ly & Sl & Lv & Rw). destruct (clone_bisim w r W V N) as (dd & L & w' & objs & Hg & Hc & Hm).
  pose proof (mg_bisim _ _ _ _ _ Hm) as B. pose proof (merged_root _ _ _ _ _ _ _ V Hg Hm) as Hroot. pose proof (merged_wf _ _ _ _ _ _ _ W W V Hg Hm) as W'.
  pose proof (merged_faithful _ _ _ _ _ _ _ W V Hg Hm) as FC. set (r' := List.length (w_heap w)) in *.
  assert (Nn : w_nodes w' = w_nodes w) by (rewrite (mg_nodes _ _ _ _ _ Hm); reflexivity).
  assert (Tn : w_trace w' = w_trace w) by (unfold clone, pure_merge in Hc; destruct (module_partition w r []) as [pp|]; [|discriminate]; cbn [rbind] in Hc; apply (merge_global _ _ _ _ _ Hc)).
  pose proof (bisim_follow_iff _ _ _ ["scan_module"] B _ _ Hroot) as FI. rewrite F in FI. destruct (follow w' r' ["scan_module"]) as [m'|] eqn:F'; [|contradiction].
  assert (RM : forall x, reaches w' m' x -> reaches w' r' x). { intros x [p Hp]. exists ("scan_module" :: p). change ("scan_module" :: p) with (["scan_module"] ++ p). now rewrite follow_app, F'. }
  assert (LY : layer o nodes d w' m' axs b c).
  { destruct Ly as [Q1 Q2 Q3 Q4 Q5 Q6 (s & Q7 & Q8)]. constructor; auto.
    - apply follow1 in F' as (ob & o' & _ & _ & G). apply get_obj_lt in G. exact G.
    - apply (bisim_names w w' (copyR L r') m m' B); [now symmetry|exact FI|exact Q3].
    - intros x ob Hx Ho. rewrite Tn. apply (fc_trace _ _ _ _ _ FC x ob (RM x Hx) Ho).
    - congruence.
    - rewrite <- (bisim_module_def w w' (copyR L r') m m' W W' B); auto.
    - exists s. split; [|exact Q8]. rewrite <- (bisim_get_state w w' (copyR L r') m m' W W' B); auto. }
  exists r', m', w'. split; [exact Hc|]. split; [exact F'|]. split.
  { intros X. apply NR. destruct (bisim_reaches _ _ _ _ _ _ (bisim_sym _ _ _ B) FI X) as (y & Hy & Hxy). assert (y = r) by (eapply (bi_inj _ _ _ B); eauto). now subst y. }
  split; [exists axs; auto|]. split.
  { eapply stands_elsewhere; [exists axs; eauto|exact W'|exact Tn|exact Nn|]. intros x ob _ Hx. apply (fc_kept _ _ _ _ _ FC). exact Hx. }
  split; [apply (fc_new _ _ _ _ _ FC)|apply (fc_kept _ _ _ _ _ FC)].
Qed.
