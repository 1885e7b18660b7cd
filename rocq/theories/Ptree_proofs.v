(** Proofs about flattening and serialization of Pytrees. *)
From Coq Require Import Permutation.
From Verif Require Import PyBase PyBaseFacts ValuesM Spec_Eq ValuesFacts Container_proofs PytreeM PtreeM Spec_Ptree.
Local Open Scope string_scope.
Local Open Scope list_scope.

Definition flmap (d : dict ptree) : dict (ptree * result flat) := map (fun kv => (fst kv, (snd kv, flatten (snd kv)))) d.
Lemma dget_flmap n d : dget n (flmap d) = option_map (fun v => (v, flatten v)) (dget n d).
Proof. unfold flmap. apply (dget_map (fun v => (v, flatten v))). Qed.
Lemma flatten_dict d : flatten (TDict d) =
  do g <- gather (fun _ => true) (keys (sort_by_key d)) (flmap d); Ok (fst (fst g), DDict (snd (fst g))).
Proof.
  cbn [flatten]. match goal with |- context [gather _ _ (?f d)] => set (go := f) end.
  assert (E : forall d, go d = flmap d). { intros e. induction e as [|[n v] e IH]; cbn; [reflexivity|]. now rewrite IH. }
  now rewrite E.
Qed.
Lemma flatten_obj k d : flatten (TObj k d) =
  match dget F_SORTED d with
  | Some (TNames names) => do g <- gather is_node_t names (flmap d); Ok (fst (fst g), DObj k (snd (fst g)) (dict_of (snd g)))
  | Some _ => Err OutOfModel
  | None => Err AttributeError
  end.
Proof.
  cbn [flatten]. match goal with |- context [gather _ _ (?f d)] => set (go := f) end.
  assert (E : forall d, go d = flmap d). { intros e. induction e as [|[n v] e IH]; cbn; [reflexivity|]. now rewrite IH. }
  now rewrite E.
Qed.
Fixpoint unflat_list (ds : list (string * tdef)) (ls : list ptree) : result (dict ptree * list ptree) :=
  match ds with
  | [] => Ok ([], ls)
  | (n, d) :: r => do xr <- unflatten d ls; do cr <- unflat_list r (snd xr); Ok ((n, fst xr) :: fst cr, snd cr)
  end.
Lemma unflatten_dict ds ls : unflatten (DDict ds) ls =
  do cr <- unflat_list ds ls; Ok (TDict (dict_of (fst cr)), snd cr).
Proof.
  cbn [unflatten]. match goal with |- context [rbind (?f ds ls) _] => set (go := f) end.
  assert (E : forall ds ls, go ds ls = unflat_list ds ls).
  { induction ds0 as [|[n d] r IH]; intros l; cbn; [reflexivity|]. destruct (unflatten d l); cbn; [|reflexivity]. now rewrite IH. }
  now rewrite E.
Qed.
Lemma unflatten_obj k ds st ls : unflatten (DObj k ds st) ls =
  do cr <- unflat_list ds ls; Ok (TObj k (dupdate (dict_of (fst cr)) st), snd cr).
Proof.
  cbn [unflatten]. match goal with |- context [rbind (?f ds ls) _] => set (go := f) end.
  assert (E : forall ds ls, go ds ls = unflat_list ds ls).
  { induction ds0 as [|[n d] r IH]; intros l; cbn; [reflexivity|]. destruct (unflatten d l); cbn; [|reflexivity]. now rewrite IH. }
  now rewrite E.
Qed.

(** what [gather] collects *)
Inductive gathers (sel : ptree -> bool) (lk : string -> option ptree) :
  list string -> list ptree -> list (string * tdef) -> list (string * ptree) -> Prop :=
| gt_nil : gathers sel lk [] [] [] []
| gt_node n names x l d ls ds st : lk n = Some x -> sel x = true -> flatten x = Ok (l, d) ->
    gathers sel lk names ls ds st -> gathers sel lk (n :: names) (l ++ ls) ((n, d) :: ds) st
| gt_static n names x ls ds st : lk n = Some x -> sel x = false ->
    gathers sel lk names ls ds st -> gathers sel lk (n :: names) ls ds ((n, x) :: st).
Lemma gathers_gather sel d names ls ds st : gathers sel (fun n => dget n d) names ls ds st ->
  gather sel names (flmap d) = Ok (ls, ds, st).
Proof.
  intros G. induction G as [|n names x l t ls ds st K S F G IH|n names x ls ds st K S G IH]; cbn [gather]; [reflexivity| |];
    rewrite dget_flmap, K; cbn [option_map]; rewrite S, IH; cbn [rbind fst snd]; [|reflexivity].
  rewrite F. reflexivity.
Qed.
Lemma gathers_exists sel lk names : 
  (forall n, In n names -> exists x, lk n = Some x /\ (sel x = true -> exists l d, flatten x = Ok (l, d))) ->
  exists ls ds st, gathers sel lk names ls ds st.
Proof.
  induction names as [|n names IH]; intros H; [do 3 eexists; constructor|].
  destruct IH as (ls & ds & st & G); [intros n' I; apply H; now right|].
  destruct (H n (or_introl eq_refl)) as (x & K & F). destruct (sel x) eqn:S.
  - destruct (F eq_refl) as (l & d & E). do 3 eexists. eapply gt_node; eauto.
  - do 3 eexists. eapply gt_static; eauto.
Qed.
Lemma gathers_names sel lk names ls ds st : gathers sel lk names ls ds st -> NoDup names ->
  NoDup (keys ds) /\ NoDup (keys st) /\ (forall n, In n (keys ds) -> ~ In n (keys st)) /\
  (forall n, In n names <-> In n (keys ds) \/ In n (keys st)).
Proof.
  intros G. induction G as [|n names x l t ls ds st K S F G IH|n names x ls ds st K S G IH]; intros ND.
  - cbn. repeat split; try constructor; tauto.
  - apply NoDup_cons_iff in ND as [N1 N2]. destruct (IH N2) as (A & B & C & D). unfold keys in *. cbn [map fst].
    split; [constructor; auto; intros H; apply N1, D; now left|]. split; [exact B|]. split.
    + intros n' [<-|I]; [|now apply C]. intros H. apply N1, D. now right.
    + intros n'. cbn [In]. rewrite D. tauto.
  - apply NoDup_cons_iff in ND as [N1 N2]. destruct (IH N2) as (A & B & C & D). unfold keys in *. cbn [map fst].
    split; [exact A|]. split; [constructor; auto; intros H; apply N1, D; now right|]. split.
    + intros n' I [<-|H]; [apply N1, D; now left|]. exact (C n' I H).
    + intros n'. cbn [In]. rewrite D. tauto.
Qed.
Lemma gathers_st sel lk names ls ds st : gathers sel lk names ls ds st ->
  forall n x, In (n, x) st -> lk n = Some x /\ sel x = false.
Proof.
  intros G. induction G as [|n names x l t ls ds st K S F G IH|n names x ls ds st K S G IH]; intros n' x' I; [contradiction|auto|].
  destruct I as [E|I]; [injection E as <- <-; auto|auto].
Qed.

(** the round trip for one value *)
Definition round (t : ptree) : Prop :=
  exists ls d, flatten t = Ok (ls, d) /\ Forall leaf ls /\
    forall ls' rest, Forall2 same_kind ls ls' ->
    exists t', unflatten d (ls' ++ rest) = Ok (t', rest) /\ flatten t' = Ok (ls', d) /\
      is_node_t t' = is_node_t t /\ is_box t' = is_box t /\ wf_tree t' /\ (ls' = ls -> same_tree t t').

Lemma leaf_flatten x : leaf x -> flatten x = Ok ([x], DLeaf).
Proof. intros [v N|c m y N NS]; cbn [flatten]; [destruct v; congruence|]. rewrite N. unfold cls_eqb. destruct (list_eq_dec _ c _); [contradiction|reflexivity]. Qed.
Lemma leaf_wf x : leaf x -> wf_tree x.
Proof. intros [v N|c m y N]; [constructor|now apply wft_leafbox]. Qed.
Lemma round_static x : is_box x = false -> round (TBox Static_cls [] x).
Proof.
  intros B. exists [], (DStatic x). split; [reflexivity|]. split; [constructor|]. intros ls' rest F.
  inversion F; subst. exists (TBox Static_cls [] x).
  assert (BC : box_call Static_cls [] x = Ok (TBox Static_cls [] x)) by (destruct x; [reflexivity|reflexivity|discriminate|reflexivity|reflexivity]).
  cbn [unflatten]. rewrite BC. cbn [rbind app]. split; [reflexivity|]. split; [reflexivity|]. split; [reflexivity|]. split; [reflexivity|].
  split; [now apply wft_static|]. intros _. constructor.
Qed.
Lemma round_leaf x : leaf x -> round x.
Proof.
  intros L. exists [x], DLeaf. split; [now apply leaf_flatten|]. split; [auto|]. intros ls' rest F.
  inversion F as [|? y ? l' (LY & N & B) F']; subst. inversion F'; subst. exists y. cbn.
  split; [reflexivity|]. split; [now apply leaf_flatten|]. split; [exact N|]. split; [exact B|]. split; [now apply leaf_wf|].
  intros [= ->]. constructor.
Qed.

Lemma gathers_round sel lk names ls ds st : gathers sel lk names ls ds st ->
  (forall x y, is_node_t y = is_node_t x -> sel y = sel x) ->
  (forall n x, In n names -> lk n = Some x -> sel x = true -> round x) ->
  Forall leaf ls /\
  forall ls' rest, Forall2 same_kind ls ls' ->
  exists cs, unflat_list ds (ls' ++ rest) = Ok (cs, rest) /\ keys cs = keys ds /\
    (forall lk', (forall n x', In (n, x') cs -> lk' n = Some x') -> (forall n x, In (n, x) st -> lk' n = Some x) ->
       gathers sel lk' names ls' ds st) /\
    (forall n x', In (n, x') cs -> wf_tree x' /\ exists x, lk n = Some x /\ sel x = true /\ (ls' = ls -> same_tree x x')).
Proof.
  intros G SEL. induction G as [|n names x l t ls ds st K S F G IH|n names x ls ds st K S G IH]; intros R.
  - split; [constructor|]. intros ls' rest F. inversion F; subst. exists []. split; [reflexivity|]. split; [reflexivity|].
    split; [intros; constructor|]. intros n x' [].
  - destruct (R n x (or_introl eq_refl) K S) as (l0 & d0 & F0 & LL & RX). rewrite F in F0. injection F0 as <- <-.
    destruct IH as [LS IH]; [intros n' x' I; apply R; now right|]. split; [now apply Forall_app|].
    intros ls' rest F2. apply Forall2_app_inv_l in F2 as (la & lb & FA & FB & ->). rewrite <- app_assoc.
    destruct (RX la (lb ++ rest) FA) as (t' & U & FL & N & B & W & SM).
    destruct (IH lb rest FB) as (cs & UL & KC & GA & WS).
    exists ((n, t') :: cs). cbn [unflat_list]. rewrite U. cbn [rbind fst snd]. rewrite UL. cbn [rbind fst snd].
    split; [reflexivity|]. split; [unfold keys in *; cbn [map fst]; now rewrite KC|]. split.
    + intros lk' H1 H2. eapply gt_node; [apply H1; now left| |exact FL|].
      * rewrite (SEL x t' N). exact S.
      * apply GA; [intros n' x' I; apply H1; now right|exact H2].
    + assert (LEN : la ++ lb = l ++ ls -> la = l /\ lb = ls).
      { intros E. apply Forall2_length in FA. clear - E FA. revert la E FA. induction l as [|a l IHl]; intros [|b la] E FA; cbn in *; try discriminate; auto.
        injection E as -> E. destruct (IHl la E) as [-> ->]; auto. }
      intros n' x' [E|I].
      * injection E as <- <-. split; [exact W|]. exists x. split; [exact K|]. split; [exact S|]. intros E. apply SM, (LEN E).
      * destruct (WS n' x' I) as (W' & y & Y1 & Y2 & Y3). split; [exact W'|]. exists y. split; [exact Y1|]. split; [exact Y2|].
        intros E. apply Y3, (LEN E).
  - destruct IH as [LS IH]; [intros n' x' I; apply R; now right|]. split; [exact LS|].
    intros ls' rest F2. destruct (IH ls' rest F2) as (cs & UL & KC & GA & WS).
    exists cs. split; [exact UL|]. split; [exact KC|]. split; [|exact WS].
    intros lk' H1 H2. eapply gt_static; [apply H2; now left|exact S|]. apply GA; [exact H1|]. intros n' x' I. apply H2. now right.
Qed.

Lemma names_of_sort (d : dict ptree) : NoDup (keys d) -> NoDup (keys (sort_by_key d)) /\ forall n, In n (keys (sort_by_key d)) <-> In n (keys d).
Proof.
  intros N. split; [now apply NoDup_keys_sort|]. intros n. split; intros I; apply dget_Some_keys in I as [x I].
  - rewrite dget_sort in I by exact N. eapply dget_In_keys; eauto.
  - rewrite <- (dget_sort n d N) in I. eapply dget_In_keys; eauto.
Qed.
Lemma sort_keys_perm (d e : dict ptree) : NoDup (keys d) -> NoDup (keys e) -> (forall n, In n (keys d) <-> In n (keys e)) ->
  keys (sort_by_key d) = keys (sort_by_key e).
Proof.
  intros ND NE H.
  pose (u := fun d : dict ptree => map (fun kv => (fst kv, tt)) d).
  assert (KU : forall d, keys (u d) = keys d) by (intros d0; unfold u, keys; rewrite map_map; reflexivity).
  assert (IU : forall (d : dict ptree) kv, u (insert_by_key kv d) = insert_by_key (fst kv, tt) (u d)).
  { clear. induction d as [|[k v] d IH]; intros kv; cbn; [reflexivity|]. destruct (String.leb (fst kv) k); cbn; [reflexivity|]. f_equal. apply IH. }
  assert (SU : forall d, u (sort_by_key d) = sort_by_key (u d)).
  { induction d0 as [|kv d0 IH]; [reflexivity|]. unfold sort_by_key in *. cbn [fold_right]. rewrite IU, IH. reflexivity. }
  rewrite <- KU, SU. rewrite <- (KU (sort_by_key e)), SU. f_equal. apply sort_perm_eq; [now rewrite KU|].
  apply dget_ext_perm; rewrite ?KU; auto. intros n.
  assert (G : forall d, dget n (u d) = if dmem n d then Some tt else None).
  { intros d0. unfold u. rewrite (dget_map (fun _ => tt)). unfold dmem. destruct (dget n d0); reflexivity. }
  rewrite !G. destruct (dmem n d) eqn:A, (dmem n e) eqn:B; auto.
  - apply dmem_In, H, dmem_In in A. congruence.
  - apply dmem_In, H, dmem_In in B. congruence.
Qed.

Theorem wf_round t : wf_tree t -> round t.
Proof.
  intros W. induction W as [v|c m x WC NB W IH|x NB|c m x N NS|d ND W IH|k d ND SF W IH].
  - destruct (match v with PyNone => true | _ => false end) eqn:E.
    + destruct v; try discriminate. exists [], DNone. split; [reflexivity|]. split; [constructor|]. intros ls' rest F.
      inversion F; subst. exists (TVal PyNone). cbn. repeat split; constructor.
    + apply round_leaf. constructor. intros ->. discriminate.
  - destruct (registered c) eqn:NC.
    2:{ destruct (list_eq_dec string_dec c Static_cls) as [->|NS]; [|apply round_leaf; now constructor].
        destruct WC as (_ & _ & _ & ST & _). cbn in ST. rewrite (ST eq_refl). now apply round_static. }
    destruct IH as (ls & d & F & L & R). exists ls, (DBox c m d). cbn [flatten]. rewrite NC, F. split; [reflexivity|]. split; [exact L|].
    intros ls' rest F2. destruct (R ls' rest F2) as (t' & U & FL & N & B & W' & S). exists (TBox c m t').
    cbn [unflatten]. rewrite U. cbn [rbind fst snd].
    assert (BC : box_call c m t' = Ok (TBox c m t')).
    { unfold box_call. pose proof (init_meta_wf (mkCont c m PyNone) WC) as IM. cbn in IM. rewrite IM. cbn [rbind].
      rewrite NB in B. destruct t'; try discriminate B; reflexivity. }
    rewrite BC. cbn [rbind fst snd flatten]. rewrite NC, FL. cbn [rbind fst snd].
    split; [reflexivity|]. split; [reflexivity|]. split; [reflexivity|]. split; [reflexivity|]. split.
    + apply wft_box; auto. now rewrite B.
    + intros E. constructor; auto.
  - now apply round_static.
  - apply round_leaf. now constructor.
  - destruct (names_of_sort d ND) as [NS IS].
    assert (RD : forall n x, In n (keys (sort_by_key d)) -> dget n d = Some x -> true = true -> round x) by (intros n x _ H _; eauto).
    destruct (gathers_exists (fun _ => true) (fun n => dget n d) (keys (sort_by_key d))) as (ls & ds & st & G).
    { intros n I. apply IS in I. apply dget_Some_keys in I as [x I]. exists x. split; auto. intros _.
      destruct (IH n x I) as (l & t & E & _). eauto. }
    assert (SE : st = []).
    { destruct st as [|[n x] st]; auto. destruct (gathers_st _ _ _ _ _ _ G n x (or_introl eq_refl)) as [_ H]. discriminate. }
    destruct (gathers_names _ _ _ _ _ _ G NS) as (N1 & _ & _ & N4). subst st.
    destruct (gathers_round _ _ _ _ _ _ G (fun _ _ _ => eq_refl) RD) as [LL RR].
    exists ls, (DDict ds). rewrite flatten_dict, (gathers_gather _ _ _ _ _ _ G). cbn [rbind fst snd]. split; [reflexivity|]. split; [exact LL|].
    intros ls' rest F2. destruct (RR ls' rest F2) as (cs & UL & KC & GA & WS).
    assert (NC : NoDup (keys cs)) by now rewrite KC.
    exists (TDict cs). rewrite unflatten_dict, UL. cbn [rbind fst snd]. rewrite (dict_of_nodup cs NC).
    assert (KK : forall n, In n (keys cs) <-> In n (keys d)).
    { intros n. rewrite KC, <- IS, N4. cbn. tauto. }
    split; [reflexivity|]. split.
    { rewrite flatten_dict. rewrite (sort_keys_perm cs d NC ND KK).
      rewrite (gathers_gather _ cs _ ls' ds []); [reflexivity|]. apply GA; [|intros n x []]. intros n x' I. now apply In_dget. }
    split; [reflexivity|]. split; [reflexivity|]. split.
    { constructor; auto. intros n x H. apply dget_In in H. apply (WS n x H). }
    intros E. constructor.
    + intros n. rewrite !dget_None. now rewrite KK.
    + intros n x y GX GY. apply dget_In in GY. destruct (WS n y GY) as (_ & x0 & X0 & _ & S). rewrite GX in X0. injection X0 as <-. auto.
  - destruct (names_of_sort d ND) as [NS IS].
    assert (RD : forall n x, In n (keys (sort_by_key d)) -> dget n d = Some x -> is_node_t x = true -> round x).
    { intros n x _ H NX. apply (IH n x H). intros ->. rewrite SF in H. injection H as <-. discriminate. }
    destruct (gathers_exists is_node_t (fun n => dget n d) (keys (sort_by_key d))) as (ls & ds & st & G).
    { intros n I. apply IS in I. apply dget_Some_keys in I as [x I]. exists x. split; auto. intros NX.
      destruct (RD n x) as (l & t & E & _); [apply IS; eapply dget_In_keys; eauto|auto|auto|eauto]. }
    destruct (gathers_names _ _ _ _ _ _ G NS) as (N1 & N2 & N3 & N4).
    destruct (gathers_round _ _ _ _ _ _ G (fun _ _ E => E) RD) as [LL RR].
    exists ls, (DObj k ds st). rewrite flatten_obj, SF, (gathers_gather _ _ _ _ _ _ G). cbn [rbind fst snd].
    rewrite (dict_of_nodup st N2). split; [reflexivity|]. split; [exact LL|].
    intros ls' rest F2. destruct (RR ls' rest F2) as (cs & UL & KC & GA & WS).
    assert (NC : NoDup (keys cs)) by now rewrite KC.
    exists (TObj k (cs ++ st)). rewrite unflatten_obj, UL. cbn [rbind fst snd]. rewrite (dict_of_nodup cs NC).
    assert (DU : dupdate cs st = cs ++ st).
    { apply dupdate_new; auto. intros n I1 I2. apply (N3 n); auto. now rewrite <- KC. }
    rewrite DU.
    assert (NCS : NoDup (keys (cs ++ st))).
    { rewrite keys_app. apply NoDup_app_intro; auto. intros n I1 I2. apply (N3 n); auto. now rewrite <- KC. }
    assert (KK : forall n, In n (keys (cs ++ st)) <-> In n (keys d)).
    { intros n. rewrite keys_app, in_app_iff, KC, <- IS, N4. tauto. }
    assert (LC : forall n x, In (n, x) cs -> dget n (cs ++ st) = Some x).
    { intros n x I. apply In_dget; auto. apply in_or_app. now left. }
    assert (LS : forall n x, In (n, x) st -> dget n (cs ++ st) = Some x).
    { intros n x I. apply In_dget; auto. apply in_or_app. now right. }
    assert (SF' : dget F_SORTED (cs ++ st) = Some (TNames (keys (sort_by_key d)))).
    { assert (I : In F_SORTED (keys (cs ++ st))) by (apply KK; eapply dget_In_keys; eauto).
      rewrite keys_app in I. apply in_app_or in I as [I|I].
      - apply in_map_iff in I as ([n x] & EN & I). cbn [fst] in EN. subst n. destruct (WS _ _ I) as (_ & y & Y & NY & _).
        rewrite SF in Y. injection Y as <-. discriminate.
      - apply in_map_iff in I as ([n x] & EN & I). cbn [fst] in EN. subst n. rewrite (LS _ _ I).
        destruct (gathers_st _ _ _ _ _ _ G _ _ I) as [Y _]. congruence. }
    split; [reflexivity|]. split.
    { rewrite flatten_obj, SF'. rewrite (gathers_gather _ (cs ++ st) _ ls' ds st); [|apply GA; auto].
      cbn [rbind fst snd]. now rewrite (dict_of_nodup st N2). }
    split; [reflexivity|]. split; [reflexivity|]. split.
    { constructor; auto; [now rewrite (sort_keys_perm _ d NCS ND KK)|]. intros n x H NE. apply dget_In, in_app_or in H as [H|H].
      - apply (WS n x H).
      - destruct (gathers_st _ _ _ _ _ _ G _ _ H) as [Y _]. eauto. }
    intros E. constructor.
    + intros n. rewrite !dget_None. now rewrite KK.
    + intros n x y GX GY NX. apply dget_In, in_app_or in GY as [GY|GY].
      * destruct (WS n y GY) as (_ & x0 & X0 & NX0 & _). congruence.
      * destruct (gathers_st _ _ _ _ _ _ G _ _ GY) as [Y _]. congruence.
    + intros n x y GX GY NX. apply dget_In, in_app_or in GY as [GY|GY].
      * destruct (WS n y GY) as (_ & x0 & X0 & _ & S). rewrite GX in X0. injection X0 as <-. auto.
      * destruct (gathers_st _ _ _ _ _ _ G _ _ GY) as [Y NY]. congruence.
Qed.

(** ** the flattening does not depend on the order of the fields *)
Lemma same_class t u : same_tree t u -> cls_of_tree t = cls_of_tree u.
Proof. intros S. destruct S; reflexivity. Qed.
Lemma same_node t u : same_tree t u -> is_node_t t = is_node_t u.
Proof. intros S. unfold is_node_t. now rewrite (same_class t u S). Qed.
Lemma keys_same (d e : dict ptree) : (forall n, dget n d = None <-> dget n e = None) -> forall n, In n (keys d) <-> In n (keys e).
Proof.
  intros H n. specialize (H n). rewrite !dget_None in H. destruct (in_dec string_dec n (keys d)), (in_dec string_dec n (keys e)); tauto.
Qed.
Lemma gathers_same sel lk lk' names ls ds st : gathers sel lk names ls ds st ->
  (forall n x, In n names -> lk n = Some x -> exists y, lk' n = Some y /\ sel y = sel x /\
     (sel x = true -> flatten y = flatten x) /\ (sel x = false -> y = x)) ->
  gathers sel lk' names ls ds st.
Proof.
  intros G. induction G as [|n names x l t ls ds st K S F G IH|n names x ls ds st K S G IH]; intros H.
  - constructor.
  - destruct (H n x (or_introl eq_refl) K) as (y & Y1 & Y2 & Y3 & _). eapply gt_node; [exact Y1|congruence|rewrite Y3; auto|].
    apply IH. intros n' x' I. apply H. now right.
  - destruct (H n x (or_introl eq_refl) K) as (y & Y1 & Y2 & _ & Y4). rewrite (Y4 S) in Y1. eapply gt_static; [exact Y1|exact S|].
    apply IH. intros n' x' I. apply H. now right.
Qed.
Theorem flatten_same t u : same_tree t u -> wf_tree t -> wf_tree u -> flatten t = flatten u.
Proof.
  intros S. induction S as [t|c m x y NB S IH|d e K S IH|k d e K S1 S IH]; intros WT WU.
  - reflexivity.
  - cbn [flatten]. rewrite NB. inversion WT as [|? ? ? _ _ WX| |? ? ? Q| |]; subst; [|discriminate|congruence].
    inversion WU as [|? ? ? _ _ WY| |? ? ? Q| |]; subst; [|discriminate|congruence]. now rewrite IH.
  - inversion WT as [| | | |? ND WD|]; subst. inversion WU as [| | | |? NE WE|]; subst.
    rewrite !flatten_dict.
    destruct (gathers_exists (fun _ => true) (fun n => dget n d) (keys (sort_by_key d))) as (ls0 & ds & st & G).
    { intros n I. apply (proj2 (names_of_sort d ND)) in I. apply dget_Some_keys in I as [x I]. exists x. split; [exact I|]. intros _.
      destruct (wf_round x (WD n x I)) as (l & t0 & E & _). eauto. }
    rewrite (gathers_gather _ _ _ _ _ _ G). rewrite <- (sort_keys_perm d e ND NE (keys_same d e K)).
    rewrite (gathers_gather _ e _ ls0 ds st); [reflexivity|]. eapply gathers_same; [exact G|].
    intros n x _ GX. cbn beta in GX. destruct (dget n e) as [y|] eqn:GY; [|apply K in GY; congruence]. exists y. split; [reflexivity|]. split; [reflexivity|].
    split; [|discriminate]. intros _. symmetry. eapply IH; eauto.
  - inversion WT as [| | | | |? ? ND SD WD]; subst. inversion WU as [| | | | |? ? NE SE WE]; subst.
    rewrite !flatten_obj, SD, SE.
    destruct (gathers_exists is_node_t (fun n => dget n d) (keys (sort_by_key d))) as (ls0 & ds & st & G).
    { intros n I. apply (proj2 (names_of_sort d ND)) in I. apply dget_Some_keys in I as [x I]. exists x. split; [exact I|]. intros NX.
      destruct (wf_round x) as (l & t0 & E & _); [|eauto]. apply (WD n x I). intros ->. rewrite SD in I. injection I as <-. discriminate. }
    rewrite (gathers_gather _ _ _ _ _ _ G). rewrite <- (sort_keys_perm d e ND NE (keys_same d e K)).
    rewrite (gathers_gather _ e _ ls0 ds st); [reflexivity|]. eapply gathers_same; [exact G|].
    intros n x _ GX. cbn beta in GX. destruct (dget n e) as [y|] eqn:GY; [|apply K in GY; congruence]. exists y. split; [reflexivity|].
    destruct (is_node_t x) eqn:NX.
    + pose proof (S n x y GX GY NX) as SX. rewrite <- (same_node x y SX), NX. split; [reflexivity|]. split; [|discriminate].
      intros _. symmetry.
      assert (NF : n <> F_SORTED) by (intros ->; rewrite SD in GX; injection GX as <-; discriminate). eapply IH; eauto.
    + rewrite <- (S1 n x y GX GY NX). split; [exact NX|]. split; [discriminate|reflexivity].
Qed.

(** ** serialization *)
Fixpoint sd_list (d : dict ptree) : dict ptree :=
  match d with
  | [] => []
  | (n, v) :: r => if is_node_t v then (n, match v with TBox _ _ x => to_sd x | _ => to_sd v end) :: sd_list r else sd_list r
  end.
Lemma to_sd_obj k d : to_sd (TObj k d) = TDict (sd_list d).
Proof. reflexivity. Qed.
Definition sd_map (d : dict ptree) : dict ptree := map (fun kv => (fst kv, to_sd (snd kv))) d.
Lemma to_sd_dict d : to_sd (TDict d) = TDict (sd_map d).
Proof. cbn [to_sd]. f_equal. induction d as [|[n v] d IH]; cbn; [reflexivity|]. now rewrite IH. Qed.
Fixpoint restore_list (d : dict ptree) (st : dict ptree) : result (dict ptree * dict ptree) :=
  match d with
  | [] => Ok ([], st)
  | (n, v) :: r =>
      if is_node_t v then
        match dget n st with
        | None => Err ValueError
        | Some s' => do x <- from_sd v s'; do l <- restore_list r (ddel n st); Ok ((n, x) :: fst l, snd l)
        end
      else restore_list r st
  end.
Lemma from_sd_obj k d st : from_sd (TObj k d) (TDict st) =
  do ur <- restore_list d st; match snd ur with [] => treplace k d (fst ur) | _ => Err ValueError end.
Proof. reflexivity. Qed.
Fixpoint restore_map (d : dict ptree) (st : dict ptree) : result (dict ptree) :=
  match d with
  | [] => Ok []
  | (n, v) :: r => match dget n st with
                   | None => Err KeyError
                   | Some s' => do x <- from_sd v s'; do l <- restore_map r st; Ok ((n, x) :: l)
                   end
  end.
Lemma from_sd_dict d st : from_sd (TDict d) (TDict st) =
  if forallb (fun n => dmem n st) (keys d) then do r <- restore_map d st; Ok (TDict r) else Err ValueError.
Proof.
  cbn [from_sd]. destruct (forallb _ _); [|reflexivity]. match goal with |- rbind (?f d) _ = _ => set (go := f) end.
  assert (E : forall e, go e = restore_map e st).
  { induction e as [|[n v] e IH]; cbn; [reflexivity|]. destruct (dget n st); [|reflexivity]. destruct (from_sd v p); cbn; [|reflexivity]. now rewrite IH. }
  now rewrite E.
Qed.

Lemma no_pytree_sd : forall x, no_pytree x -> to_sd x = x.
Proof.
  intros x N. induction N as [v|d _ IH]; [reflexivity|]. rewrite to_sd_dict. f_equal.
  unfold sd_map. induction d as [|[n v] d IHd]; [reflexivity|]. cbn [map fst snd]. f_equal.
  - f_equal. apply (IH n v). now left.
  - apply IHd. intros n' x' I. apply (IH n' x'). now right.
Qed.
Lemma no_pytree_box x : no_pytree x -> is_box x = false.
Proof. intros N. destruct N; reflexivity. Qed.
Lemma restorable_box x : restorable x -> is_box x = false.
Proof. intros N. destruct N; reflexivity. Qed.
Lemma same_tree_box x y : same_tree x y -> is_box x = is_box y.
Proof. intros S. destruct S; reflexivity. Qed.

(** [u] is what serialization returned for the field value [v] *)
Inductive back : ptree -> ptree -> Prop :=
| back_box c m x : wf_container (mkCont c m PyNone) -> is_box x = false -> back (TBox c m x) x
| back_plain v u : is_box v = false -> same_tree v u -> back v u.
Definition stored (v u : ptree) : ptree := match v with TBox c m _ => TBox c m u | _ => u end.
Lemma back_same v u : is_node_t v = true -> back v u -> same_tree v (stored v u).
Proof.
  intros N B. destruct B as [c m x W NB|v u NB S].
  - constructor.
  - destruct v; try discriminate NB; exact S.
Qed.
Lemma tset_back d n v u : dget n d = Some v -> back v u -> tset d n u = Ok (dset n (stored v u) d).
Proof.
  intros G B. unfold tset. rewrite G. destruct B as [c m x W NB|v u NB S].
  - cbn [stored]. assert (BC : box_call c m x = Ok (TBox c m x)).
    { unfold box_call. pose proof (init_meta_wf (mkCont c m PyNone) W) as IM. cbn in IM. rewrite IM. destruct x; try discriminate NB; reflexivity. }
    rewrite BC. destruct x; try discriminate NB; reflexivity.
  - pose proof (same_tree_box v u S) as BU. rewrite NB in BU. destruct v; try discriminate NB; destruct u; try discriminate BU; reflexivity.
Qed.
Lemma tset_all_back : forall ups d, NoDup (keys ups) ->
  (forall n u, In (n, u) ups -> exists v, dget n d = Some v /\ back v u) ->
  exists d', tset_all ups d = Ok d' /\ keys d' = keys d /\
    (forall n, ~ In n (keys ups) -> dget n d' = dget n d) /\
    (forall n u v, In (n, u) ups -> dget n d = Some v -> dget n d' = Some (stored v u)).
Proof.
  induction ups as [|[n u] ups IH]; intros d ND H; cbn [tset_all].
  - exists d. split; [reflexivity|]. split; [reflexivity|]. split; [reflexivity|]. intros ? ? ? [].
  - unfold keys in ND. cbn [map fst] in ND. apply NoDup_cons_iff in ND as [N1 N2].
    destruct (H n u (or_introl eq_refl)) as (v & G & B). rewrite (tset_back d n v u G B). cbn [rbind].
    assert (NN : forall n' u', In (n', u') ups -> n' <> n).
    { intros n' u' I ->. apply N1. change (In (fst (n, u')) (map fst ups)). now apply in_map. }
    destruct (IH (dset n (stored v u) d) N2) as (d' & E & K & O & S).
    { intros n' u' I. destruct (H n' u' (or_intror I)) as (v' & G' & B'). exists v'. split; auto. rewrite dget_dset_other; eauto. }
    exists d'. split; [exact E|]. split; [|split].
    + rewrite K, keys_dset. apply dget_In_keys in G. now rewrite (proj2 (dmem_In _ _) G).
    + intros n' NI. rewrite O by (intros X; apply NI; now right). apply dget_dset_other. intros ->. apply NI. now left.
    + intros n' u' v' [I|I] G'.
      * injection I as <- <-. rewrite G in G'. injection G' as <-. rewrite O by exact N1. apply dget_dset_same.
      * apply S; auto. rewrite dget_dset_other; eauto.
Qed.

Lemma tmake_back : forall fs ups d, NoDup (keys fs) ->
  (forall n f, In (n, f) fs -> exists v, dget n d = Some v /\ made f v /\
     (forall u, dget n ups = Some u -> back v u)) ->
  exists new, tmake fs ups d = Ok new /\ keys new = keys fs /\
    (forall n f v, In (n, f) fs -> dget n d = Some v ->
       dget n new = Some (match dget n ups with Some u => stored v u | None => v end)).
Proof.
  induction fs as [|[n f] fs IH]; intros ups d ND H; cbn [tmake].
  - exists []. split; [reflexivity|]. split; [reflexivity|]. intros ? ? ? [].
  - unfold keys in ND. cbn [map fst] in ND. apply NoDup_cons_iff in ND as [N1 N2].
    destruct (IH ups d N2) as (new & E & K & S); [intros n' f' I; apply H; now right|].
    destruct (H n f (or_introl eq_refl)) as (v & G & M & B).
    set (a := match dget n ups with Some a => Ok a | None => match dget n d with Some (TBox _ _ x) => Ok x | Some x => Ok x | None => Err AttributeError end end).
    assert (ST : (do a0 <- a; match f with None => match a0 with TBox c m y => box_call c m y | _ => Ok a0 end
                   | Some g => box_call (f_cls g) (f_md g) a0 end) = Ok (match dget n ups with Some u => stored v u | None => v end)).
    { unfold a. clear a E S IH. rewrite G. destruct f as [g|]; cbn [made] in M.
      - destruct M as (m & y & -> & NB & IM). unfold box_call. destruct (dget n ups) as [u|].
        + specialize (B u eq_refl). cbn [stored rbind]. rewrite IM. cbn [rbind].
          inversion B as [? ? ? W NX|? ? Q]; subst; [|discriminate]. destruct u; try discriminate NX; reflexivity.
        + cbn [rbind]. rewrite IM. cbn [rbind]. destruct y; try discriminate NB; reflexivity.
      - destruct (dget n ups) as [u|].
        + specialize (B u eq_refl). cbn [rbind]. inversion B as [c m x W NX|v0 u0 Q SM]; subst; [discriminate M|].
          pose proof (same_tree_box v u SM) as BU. rewrite M in BU. destruct v; try discriminate M; destruct u; try discriminate BU; reflexivity.
        + destruct v; try discriminate M; reflexivity. }
    destruct a as [a0|]; [|discriminate ST]. cbn [rbind] in ST |- *. rewrite ST. cbn [rbind]. rewrite E. cbn [rbind].
    eexists. split; [reflexivity|]. split; [unfold keys in *; cbn [map fst]; now rewrite K|].
    intros n' f' v' [I|I] G'.
    + injection I as <- <-. cbn [dget]. rewrite String.eqb_refl. rewrite G in G'; injection G' as <-; reflexivity.
    + cbn [dget]. assert (NE : String.eqb n' n = false).
      { apply String.eqb_neq. intros ->. apply N1. change (In (fst (n, f')) (map fst fs)). now apply in_map. }
      rewrite NE. eapply S; eauto.
Qed.

Lemma restore_list_back : forall d, NoDup (keys d) ->
  (forall n v, In (n, v) d -> is_node_t v = true ->
     exists u, from_sd v (match v with TBox _ _ x => to_sd x | _ => to_sd v end) = Ok u /\ back v u) ->
  exists ups, restore_list d (sd_list d) = Ok (ups, []) /\ NoDup (keys ups) /\
    (forall n u, In (n, u) ups -> exists v, dget n d = Some v /\ is_node_t v = true /\ back v u) /\
    (forall n v, dget n d = Some v -> is_node_t v = true -> exists u, In (n, u) ups).
Proof.
  induction d as [|[n v] d IH]; intros ND H; cbn [restore_list sd_list].
  - exists []. split; [reflexivity|]. split; [constructor|]. split; [intros ? ? []|discriminate].
  - unfold keys in ND. cbn [map fst] in ND. apply NoDup_cons_iff in ND as [N1 N2].
    destruct IH as (ups & E & NU & S1 & S2); [exact N2|intros n' v' I; apply (H n' v'); now right|].
    assert (NN : forall n' u', In (n', u') ups -> n' <> n).
    { intros n' u' I ->. destruct (S1 _ _ I) as (v' & G & _). apply N1. eapply dget_In_keys; eauto. }
    destruct (is_node_t v) eqn:NV.
    + destruct (H n v (or_introl eq_refl) NV) as (u & FU & B). cbn [dget]. rewrite String.eqb_refl, FU. cbn [rbind ddel]. rewrite String.eqb_refl, E.
      cbn [rbind fst snd]. exists ((n, u) :: ups). split; [reflexivity|]. split.
      { unfold keys. cbn [map fst]. constructor; auto. intros I. apply in_map_iff in I as ([n' u'] & EQ & I). cbn [fst] in EQ. subst. eapply NN; eauto. }
      split.
      * intros n' u' [I|I].
        -- injection I as <- <-. exists v. cbn [dget]. rewrite String.eqb_refl. auto.
        -- destruct (S1 _ _ I) as (v' & G & R). exists v'. cbn [dget]. rewrite (proj2 (String.eqb_neq n' n) (NN _ _ I)). auto.
      * intros n' v' G NV'. cbn [dget] in G. destruct (String.eqb n' n) eqn:Q.
        -- apply String.eqb_eq in Q. subst n'. exists u. now left.
        -- destruct (S2 _ _ G NV') as [u' I]. exists u'. now right.
    + rewrite E. exists ups. split; [reflexivity|]. split; [exact NU|]. split.
      * intros n' u' I. destruct (S1 _ _ I) as (v' & G & R). exists v'. cbn [dget]. rewrite (proj2 (String.eqb_neq n' n) (NN _ _ I)). auto.
      * intros n' v' G NV'. cbn [dget] in G. destruct (String.eqb n' n) eqn:Q; [injection G as <-; congruence|]. eauto.
Qed.

Theorem from_to_sd t : restorable t -> exists t', from_sd t (to_sd t) = Ok t' /\ same_tree t t'.
Proof.
  intros R. induction R as [v|d ND R IH|k d ND SF BX R IH DC].
  - exists (TVal v). split; [reflexivity|constructor].
  - rewrite to_sd_dict, from_sd_dict.
    assert (FB : forallb (fun n => dmem n (sd_map d)) (keys d) = true).
    { apply forallb_forall. intros n I. apply dmem_In. unfold sd_map, keys. rewrite map_map. exact I. }
    rewrite FB.
    assert (G : forall e, (forall n x, In (n, x) e -> In (n, x) d) -> exists r, restore_map e (sd_map d) = Ok r /\ keys r = keys e /\
                 forall n x, dget n e = Some x -> exists y, dget n r = Some y /\ same_tree x y).
    { induction e as [|[n v] e IHe]; intros SUB; cbn [restore_map].
      - exists []. split; [reflexivity|]. split; [reflexivity|]. discriminate.
      - destruct IHe as (r & E & K & S); [intros n' x' I; apply SUB; now right|].
        assert (GV : dget n d = Some v) by (apply In_dget; auto; apply SUB; now left).
        unfold sd_map. rewrite (dget_map to_sd), GV. cbn [option_map].
        destruct (IH n v GV) as (u & FU & SU). rewrite FU. cbn [rbind]. fold (sd_map d). rewrite E. cbn [rbind].
        exists ((n, u) :: r). split; [reflexivity|]. split; [unfold keys in *; cbn [map fst]; now rewrite K|].
        intros n' x' G'. cbn [dget] in *. destruct (String.eqb n' n); [injection G' as <-; eauto|eauto]. }
    destruct (G d) as (r & E & K & S); [auto|]. rewrite E. cbn [rbind]. exists (TDict r). split; [reflexivity|].
    constructor.
    + intros n. rewrite !dget_None. now rewrite K.
    + intros n x y GX GY. destruct (S n x GX) as (y' & GY' & SY). congruence.
  - rewrite to_sd_obj, from_sd_obj.
    destruct (restore_list_back d ND) as (ups & E & NU & S1 & S2).
    { intros n v I NV. apply In_dget in I; auto. destruct v as [v|l|c m x|e|k' e]; try discriminate NV.
      - exists (TVal v). split; [reflexivity|]. apply back_plain; [reflexivity|constructor].
      - destruct (BX n c m x I NV) as [W NP]. exists x. cbn [from_sd]. rewrite (no_pytree_sd x NP). split; [reflexivity|].
        apply back_box; auto. now apply no_pytree_box.
      - destruct (IH n (TObj k' e) I NV eq_refl) as (u & FU & SU). exists u. split; [exact FU|]. now apply back_plain. }
    rewrite E. cbn [rbind fst snd]. unfold treplace. destruct (k_fields k) as [fs|] eqn:KF.
    + destruct (DC fs eq_refl) as (NF & NSF & KD & MD).
      assert (FB : forallb (fun n => smem n (keys fs)) (keys ups) = true).
      { apply forallb_forall. intros n I. apply smem_In. apply in_map_iff in I as ([n' u] & <- & I).
        destruct (S1 _ _ I) as (v & G & NV & _). cbn [fst]. pose proof (dget_In_keys _ _ _ G) as IK. apply KD in IK as [->|IK]; auto.
        rewrite SF in G. injection G as <-. discriminate. }
      rewrite FB.
      destruct (tmake_back fs ups d NF) as (new & EN & KN & SN).
      { intros n f I. destruct (MD n f I) as (v & G & M). exists v. split; [exact G|]. split; [exact M|].
        intros u GU. apply dget_In in GU. destruct (S1 _ _ GU) as (v' & G' & _ & B). congruence. }
      rewrite EN. cbn [rbind]. eexists. split; [reflexivity|].
      assert (KO : forall n, In n (keys ((F_SORTED, TNames []) :: new)) <-> In n (keys d)).
      { intros n. rewrite KD. unfold keys in *. cbn [map fst In]. rewrite KN. intuition congruence. }
      assert (NO : NoDup (keys ((F_SORTED, TNames []) :: new))).
      { unfold keys in *. cbn [map fst]. rewrite KN. now constructor. }
      rewrite (sort_keys_perm _ d NO ND KO).
      assert (GN : forall n, n <> F_SORTED -> forall v, dget n d = Some v ->
                    dget n new = Some (match dget n ups with Some u => stored v u | None => v end)).
      { intros n NE v G. pose proof (dget_In_keys _ _ _ G) as IK. apply KD in IK as [Q|IK]; [contradiction|].
        apply in_map_iff in IK as ([n' f] & EQ & IK). cbn [fst] in EQ. subst n'. eapply SN; eauto. }
      constructor.
      * intros n. rewrite !dget_None. rewrite <- (KO n). unfold keys. cbn [map fst]. reflexivity.
      * intros n x y GX GY NX. cbn [dget] in GY. destruct (String.eqb n F_SORTED) eqn:Q.
        -- apply String.eqb_eq in Q. subst n. congruence.
        -- apply String.eqb_neq in Q. rewrite (GN n Q x GX) in GY. destruct (dget n ups) as [u|] eqn:GU; [|congruence].
           apply dget_In in GU. destruct (S1 _ _ GU) as (v' & G' & NV & _). congruence.
      * intros n x y GX GY NX. cbn [dget] in GY. destruct (String.eqb n F_SORTED) eqn:Q.
        -- apply String.eqb_eq in Q. subst n. rewrite SF in GX. injection GX as <-. discriminate.
        -- apply String.eqb_neq in Q. rewrite (GN n Q x GX) in GY. destruct (dget n ups) as [u|] eqn:GU.
           ++ injection GY as <-. apply dget_In in GU. destruct (S1 _ _ GU) as (v' & G' & NV & B). rewrite GX in G'. injection G' as <-.
              now apply back_same.
           ++ injection GY as <-. constructor.
    + destruct (tset_all_back ups d NU) as (d' & ED & KD & O & S).
      { intros n u I. destruct (S1 _ _ I) as (v & G & _ & B). eauto. }
      rewrite ED. cbn [rbind]. eexists. split; [reflexivity|]. constructor.
      * intros n. rewrite !dget_None. now rewrite KD.
      * intros n x y GX GY NX. rewrite O in GY; [congruence|]. intros I. apply in_map_iff in I as ([n' u] & EQ & I). cbn [fst] in EQ. subst n'.
        destruct (S1 _ _ I) as (v' & G' & NV & _). congruence.
      * intros n x y GX GY NX. destruct (S2 n x GX NX) as (u & I). rewrite (S n u x I GX) in GY. injection GY as <-.
        destruct (S1 _ _ I) as (v' & G' & NV & B). rewrite GX in G'. injection G' as <-. now apply back_same.
Qed.

(** errors *)
Lemma restore_list_ok : forall d st ups rest, NoDup (keys d) -> NoDup (keys st) -> restore_list d st = Ok (ups, rest) ->
  (forall n v, dget n d = Some v -> is_node_t v = true -> In n (keys st)) /\
  (forall n, In n (keys rest) <-> In n (keys st) /\ ~ exists v, dget n d = Some v /\ is_node_t v = true).
Proof.
  induction d as [|[n v] d IH]; intros st ups rest ND NS E; cbn [restore_list] in E.
  - injection E as <- <-. split; [discriminate|]. intros n. cbn. split; [intros I; split; auto; intros (v & H & _); discriminate|tauto].
  - unfold keys in ND. cbn [map fst] in ND. apply NoDup_cons_iff in ND as [N1 N2].
    assert (GD : dget n d = None) by now apply dget_None.
    destruct (is_node_t v) eqn:NV.
    + destruct (dget n st) as [s|] eqn:G; [|discriminate]. destruct (from_sd v s) as [x|]; [|discriminate]. cbn [rbind] in E.
      destruct (restore_list d (ddel n st)) as [[ups' rest']|] eqn:R; [|discriminate]. cbn [rbind fst snd] in E. injection E as <- <-.
      destruct (IH (ddel n st) ups' rest' N2 (NoDup_keys_ddel n st NS) R) as [A B].
      assert (KD : forall k, In k (keys (ddel n st)) <-> In k (keys st) /\ k <> n).
      { intros k. split.
        - intros H. split; [eapply keys_ddel_incl; eauto|]. intros ->. apply dget_Some_keys in H as [y H]. rewrite dget_ddel_same in H; auto. discriminate.
        - intros [H NE]. apply dget_Some_keys in H as [y H]. eapply dget_In_keys. rewrite dget_ddel_other; eauto. }
      split.
      * intros n' v' G' NV'. cbn [dget] in G'. destruct (String.eqb n' n) eqn:Q.
        -- apply String.eqb_eq in Q. subst. eapply dget_In_keys; eauto.
        -- apply (KD n'). eauto.
      * intros n'. rewrite B, KD. cbn [dget]. destruct (String.eqb n' n) eqn:Q.
        -- apply String.eqb_eq in Q. subst n'. split; [tauto|]. intros [_ X]. exfalso. apply X. eauto.
        -- apply String.eqb_neq in Q. tauto.
    + destruct (IH st ups rest N2 NS E) as [A B]. split.
      * intros n' v' G' NV'. cbn [dget] in G'. destruct (String.eqb n' n) eqn:Q; [injection G' as <-; congruence|eauto].
      * intros n'. rewrite B. cbn [dget]. destruct (String.eqb n' n) eqn:Q; [|reflexivity].
        apply String.eqb_eq in Q. subst n'. rewrite GD. split; intros [I X]; (split; [exact I|]); intros (v' & Y & Z); [congruence|discriminate].
Qed.
Lemma restore_list_err : forall d st, NoDup (keys d) ->
  (forall n v s, dget n d = Some v -> is_node_t v = true -> dget n st = Some s -> exists x, from_sd v s = Ok x) ->
  (exists r, restore_list d st = Ok r) \/ restore_list d st = Err ValueError.
Proof.
  induction d as [|[n v] d IH]; intros st ND H; cbn [restore_list]; [left; eauto|].
  unfold keys in ND. cbn [map fst] in ND. apply NoDup_cons_iff in ND as [N1 N2].
  assert (H' : forall n' v' s, dget n' d = Some v' -> is_node_t v' = true -> dget n' st = Some s -> exists x, from_sd v' s = Ok x).
  { intros n' v' s G. apply (H n' v' s). cbn [dget]. destruct (String.eqb n' n) eqn:Q; [|exact G].
    apply String.eqb_eq in Q. subst. exfalso. apply N1. eapply dget_In_keys; eauto. }
  destruct (is_node_t v) eqn:NV; [|now apply IH].
  destruct (dget n st) as [s|] eqn:G; [|now right].
  destruct (H n v s) as [x E]; auto. { cbn [dget]. now rewrite String.eqb_refl. }
  rewrite E. cbn [rbind]. destruct (IH (ddel n st) N2) as [[r R]|R].
  - intros n' v' s' G1 NV' G2. apply (H' n' v' s'); auto. rewrite dget_ddel_other in G2; auto.
    intros ->. apply N1. eapply dget_In_keys; eauto.
  - rewrite R. left. cbn. eauto.
  - rewrite R. now right.
Qed.
Theorem from_sd_mismatch k d st : NoDup (keys d) -> NoDup (keys st) ->
  (exists n, (exists v, dget n d = Some v /\ is_node_t v = true) /\ ~ In n (keys st)) \/
  (exists n, In n (keys st) /\ ~ exists v, dget n d = Some v /\ is_node_t v = true) ->
  (forall t', from_sd (TObj k d) (TDict st) <> Ok t') /\
  ((forall n v s, dget n d = Some v -> is_node_t v = true -> dget n st = Some s -> exists x, from_sd v s = Ok x) ->
   from_sd (TObj k d) (TDict st) = Err ValueError).
Proof.
  intros ND NS BAD. rewrite from_sd_obj.
  assert (C : forall r, restore_list d st = Ok r -> snd r <> []).
  { intros [ups rest] E. destruct (restore_list_ok d st ups rest ND NS E) as [A B]. cbn [snd]. intros ->.
    destruct BAD as [(n & (v & G & NV) & NI)|(n & I & X)].
    - apply NI. eauto.
    - apply (proj2 (B n)). auto. }
  split.
  - intros t' E. destruct (restore_list d st) as [r|] eqn:R; [|discriminate]. cbn [rbind] in E. specialize (C r eq_refl).
    destruct (snd r); [contradiction|discriminate].
  - intros H. destruct (restore_list_err d st ND H) as [[r R]|R]; rewrite R; [|reflexivity]. cbn [rbind]. specialize (C r R).
    destruct (snd r); [contradiction|reflexivity].
Qed.

(** ** a field that was deleted *)
Lemma gather_missing d0 d n names : (forall m, m <> n -> dget m d = dget m d0) -> dget n d = None -> In n names ->
  (forall m x, In m names -> m <> n -> dget m d0 = Some x -> is_node_t x = true -> exists l t, flatten x = Ok (l, t)) ->
  (forall m, In m names -> m <> n -> exists x, dget m d0 = Some x) ->
  gather is_node_t names (flmap d) = Err KeyError.
Proof.
  intros E N. induction names as [|m names IH]; intros I F G; [contradiction|]. cbn [gather]. rewrite dget_flmap.
  destruct (string_dec m n) as [->|NE]; [now rewrite N|]. rewrite (E m NE).
  destruct (G m (or_introl eq_refl) NE) as [x X]. rewrite X. cbn [option_map].
  assert (IH' : gather is_node_t names (flmap d) = Err KeyError).
  { apply IH; [destruct I as [I|I]; [contradiction|exact I]|intros m' x' J; apply F; now right|intros m' J; apply G; now right]. }
  rewrite IH'. destruct (is_node_t x) eqn:NX; [|reflexivity].
  destruct (F m x (or_introl eq_refl) NE X NX) as (l & t & ->). reflexivity.
Qed.
Theorem flatten_deleted k d n : wf_tree (TObj k d) -> In n (keys d) ->
  flatten (TObj k (ddel n d)) = Err (if String.eqb n F_SORTED then AttributeError else KeyError).
Proof.
  intros W I. inversion W as [| | | | |? ? ND SF WD]; subst. rewrite flatten_obj. destruct (String.eqb n F_SORTED) eqn:Q.
  - apply String.eqb_eq in Q. subst. now rewrite dget_ddel_same.
  - apply String.eqb_neq in Q. rewrite dget_ddel_other, SF by congruence.
    destruct (names_of_sort d ND) as [_ IS].
    rewrite (gather_missing d _ n); [reflexivity| | | | |].
    + intros m NE. now apply dget_ddel_other.
    + now apply dget_ddel_same.
    + now apply IS.
    + intros m x _ _ GX NX. destruct (wf_round x) as (l & t & E & _); [|eauto]. apply (WD m x GX).
      intros ->. rewrite SF in GX. injection GX as <-. discriminate.
    + intros m J _. apply IS in J. now apply dget_Some_keys in J.
Qed.

(** ** too few leaves *)
Lemma tdef_rect' (P : tdef -> Prop) : P DLeaf -> P DNone -> (forall c m d, P d -> P (DBox c m d)) -> (forall x, P (DStatic x)) ->
  (forall ds, Forall (fun nd => P (snd nd)) ds -> P (DDict ds)) -> (forall k ds st, Forall (fun nd => P (snd nd)) ds -> P (DObj k ds st)) -> forall d, P d.
Proof.
  intros H1 H2 H3 H3' H4 H5. fix IH 1. intros [| |c m d|x|ds|k ds st]; [exact H1|exact H2|apply H3, IH|apply H3'|apply H4|apply H5]; induction ds as [|[n e] t It]; constructor; auto; apply IH.
Qed.
Fixpoint n_leaves (d : tdef) : nat :=
  match d with
  | DLeaf => 1
  | DNone | DStatic _ => 0
  | DBox _ _ d => n_leaves d
  | DDict ds | DObj _ ds _ => list_sum (map (fun nd => n_leaves (snd nd)) ds)
  end.
Definition unflatten_all : list (string * tdef) -> list ptree -> result (dict ptree * list ptree) :=
  fix go ds ls := match ds with
                  | [] => Ok ([], ls)
                  | (n, d) :: r => do xr <- unflatten d ls; do cr <- go r (snd xr); Ok ((n, fst xr) :: fst cr, snd cr)
                  end.
Definition takes {A} (n : nat) (f : list ptree -> result (A * list ptree)) : Prop :=
  forall ls x r, f ls = Ok (x, r) -> List.length ls = n + List.length r /\
    forall ls', (exists x' r', f ls' = Ok (x', r') /\ List.length ls' = n + List.length r') \/ f ls' = Err ValueError.
Lemma unflatten_takes : forall d, takes (n_leaves d) (unflatten d).
Proof.
  assert (G : forall ds, Forall (fun nd => takes (n_leaves (snd nd)) (unflatten (snd nd))) ds -> takes (list_sum (map (fun nd => n_leaves (snd nd)) ds)) (unflatten_all ds)).
  { intros ds H. induction H as [|[n d] ds Hd _ IH]; intros ls x r E.
    - injection E as <- <-. split; [reflexivity|]. intros ls'. left. exists [], ls'. auto.
    - cbn [unflatten_all] in E. fold unflatten_all in E. destruct (unflatten d ls) as [[y r1]|] eqn:E1; [|discriminate]. cbn [rbind fst snd] in E.
      destruct (unflatten_all ds r1) as [[c r2]|] eqn:E2; [|discriminate]. cbn [rbind fst snd] in E. injection E as <- <-.
      cbn [snd] in Hd. destruct (Hd _ _ _ E1) as [L1 T1], (IH _ _ _ E2) as [L2 T2]. change (list_sum (map (fun nd => n_leaves (snd nd)) ((n, d) :: ds))) with (n_leaves d + list_sum (map (fun nd => n_leaves (snd nd)) ds)). split; [lia|]. intros ls'. cbn [unflatten_all]. fold unflatten_all.
      destruct (T1 ls') as [(x' & r' & -> & L')| ->]; [|right; reflexivity]. cbn [rbind fst snd].
      destruct (T2 r') as [(x'' & r'' & -> & L'')| ->]; [|right; reflexivity]. left. cbn [rbind fst snd]. do 2 eexists. split; [reflexivity|]. lia. }
  intros d. induction d as [| |c m d IH|y|ds IH|k ds st IH] using tdef_rect'; intros ls x r E.
  - destruct ls as [|y ls]; [discriminate|]. injection E as <- <-. split; [reflexivity|]. intros [|y' ls']; [right; reflexivity|left]. exists y', ls'. auto.
  - injection E as <- <-. split; [reflexivity|]. intros ls'. left. exists (TVal PyNone), ls'. auto.
  - cbn [unflatten] in E. destruct (unflatten d ls) as [[y r1]|] eqn:E1; [|discriminate]. cbn [rbind fst snd] in E. destruct (box_call c m y) as [b|] eqn:Eb; [|discriminate].
    cbn [rbind] in E. injection E as <- <-. destruct (IH _ _ _ E1) as [L1 T1]. split; [exact L1|]. intros ls'. cbn [unflatten n_leaves].
    destruct (T1 ls') as [(x' & r' & -> & L')| ->]; [|right; reflexivity]. cbn [rbind fst snd]. unfold box_call in *. destruct (init_meta c m) as [m'|]; [|discriminate]. cbn [rbind].
    destruct x'; cbn [rbind]; eauto. destruct (_ && _)%bool; cbn [rbind]; eauto.
  - cbn [unflatten] in *. destruct (box_call Static_cls [] y) as [b|] eqn:Eb; [|discriminate]. cbn [rbind] in *. injection E as <- <-.
    split; [reflexivity|]. intros ls'. left. exists b, ls'. auto.
  - cbn [unflatten] in *. fold unflatten_all in *. destruct (unflatten_all ds ls) as [[y r1]|] eqn:E1; [|discriminate]. cbn [rbind fst snd] in E. injection E as <- <-.
    destruct (G ds IH _ _ _ E1) as [L1 T1]. split; [exact L1|]. intros ls'. destruct (T1 ls') as [(x' & r' & -> & L')| ->]; [|right; reflexivity]. cbn [rbind fst snd]. eauto.
  - cbn [unflatten] in *. fold unflatten_all in *. destruct (unflatten_all ds ls) as [[y r1]|] eqn:E1; [|discriminate]. cbn [rbind fst snd] in E. injection E as <- <-.
    destruct (G ds IH _ _ _ E1) as [L1 T1]. split; [exact L1|]. intros ls'. destruct (T1 ls') as [(x' & r' & -> & L')| ->]; [|right; reflexivity]. cbn [rbind fst snd]. eauto.
Qed.
Lemma unflatten_too_few d ls t ls' : unflatten d ls = Ok (t, []) -> List.length ls' < List.length ls -> unflatten d ls' = Err ValueError.
Proof.
  intros U L. destruct (unflatten_takes d _ _ _ U) as [L1 T]. destruct (T ls') as [(x & r & _ & E)|E]; [|exact E]. cbn in L1. lia.
Qed.
