(** Proofs about containers: replace, copy, equality, construction. *)
From Verif Require Import PyBase PyBaseFacts ValuesM Spec_Eq ValuesFacts Spec_Container.
Local Open Scope string_scope.
Local Open Scope list_scope.

Lemma keys_dupdate_known (kw m : dict pyval) : (forall k, In k (keys kw) -> In k (keys m)) ->
  keys (dupdate m kw) = keys m.
Proof.
  revert m. induction kw as [|[k v] kw IH]; intros m H; [reflexivity|]. rewrite dupdate_cons. cbn [fst snd].
  assert (K : keys (dset k v m) = keys m).
  { rewrite keys_dset. assert (D : dmem k m = true) by (apply dmem_In; apply H; now left). now rewrite D. }
  rewrite IH; [exact K|]. intros k' I. rewrite K. apply H. now right.
Qed.
Lemma dict_ext {A} (d e : dict A) : NoDup (keys d) -> keys d = keys e -> (forall k, dget k d = dget k e) -> d = e.
Proof.
  revert e. induction d as [|[k v] d IH]; intros [|[k' v'] e] ND K H; try discriminate; [reflexivity|].
  assert (K1 : k = k') by (injection K; auto). assert (K2 : keys d = keys e) by (injection K; auto). clear K. subst k'.
  assert (E := H k). cbn [dget] in E. rewrite String.eqb_refl in E. assert (v = v') by congruence. subst v'. f_equal.
  apply IH; [now inversion ND|exact K2|]. intros j. specialize (H j). cbn [dget] in H.
  destruct (String.eqb j k) eqn:Q; [|exact H]. apply String.eqb_eq in Q. subst j.
  assert (N : ~ In k (keys d)) by now inversion ND. assert (X : dget k d = None) by now apply dget_None.
  assert (Y : dget k e = None). { apply dget_None. rewrite <- K2. exact N. }
  congruence.
Qed.
Lemma dget_dupdate_nodup {A} k (kw m : dict A) : NoDup (keys kw) ->
  dget k (dupdate m kw) = match dget k kw with Some v => Some v | None => dget k m end.
Proof.
  revert m. induction kw as [|[k' v] kw IH]; intros m ND; [reflexivity|]. rewrite dupdate_cons. cbn [fst snd].
  inversion ND as [|? ? N ND']; subst. rewrite IH by exact ND'. cbn [dget]. destruct (String.eqb_spec k k') as [->|NE].
  - assert (X : dget k' kw = None) by now apply dget_None. rewrite X. apply dget_dset_same.
  - destruct (dget k kw); [reflexivity|]. now apply dget_dset_other.
Qed.

Lemma known_keys (kw m : dict pyval) : forallb (fun k => dmem k m) (keys kw) = true <->
  forall k, In k (keys kw) -> In k (keys m).
Proof. rewrite forallb_forall. split; intros H k IN; apply dmem_In; now apply H. Qed.

Lemma wf_dupdate c kw v : wf_container c -> (forall k, In k (keys kw) -> In k (keys (c_meta c))) ->
  wf_container (mkCont (c_cls c) (dupdate (c_meta c) kw) v).
Proof.
  intros (ND & NV & IC & ST & VA) K. pose proof (keys_dupdate_known kw (c_meta c) K) as E.
  unfold wf_container. cbn [c_cls c_meta]. rewrite E. repeat split; auto.
  - intros S. rewrite (ST S) in *. destruct kw as [|[k x] kw]; [reflexivity|]. exfalso. apply (K k). now left.
  - intros S V. destruct (VA S V) as (s & t & M). rewrite M in E at 2. cbn [keys map fst] in E.
    destruct (dupdate (c_meta c) kw) as [|[k s'] t']; [discriminate|]. cbn [keys map fst] in E. injection E as -> _. eauto.
Qed.

Lemma replace_eq c value kw : wf_container c -> (forall d, value = Some (ACont d) -> wf_container d) ->
  (replace_ok c value kw ->
     container_replace c value kw =
       Ok (mkCont (c_cls c) (dupdate (c_meta c) kw)
             (match value with None => c_val c | Some (ARaw v) => v | Some (ACont d) => c_val d end))) /\
  (~ replace_ok c value kw -> container_replace c value kw = Err ValueError).
Proof.
  intros W WD. unfold container_replace, replace_ok.
  assert (V : match value with None => Ok (c_val c) | Some (ARaw v) => Ok v
              | Some (ACont d) => if is_equivalent c d then Ok (c_val d) else Err ValueError end =
            (if match value with Some (ACont d) => is_equivalent c d | _ => true end
             then Ok (match value with None => c_val c | Some (ARaw v) => v | Some (ACont d) => c_val d end) else Err ValueError)).
  { destruct value as [[v|d]|]; reflexivity. }
  rewrite V. clear V.
  assert (Q : match value with Some (ACont d) => is_equivalent c d | _ => true end = true <->
             forall d, value = Some (ACont d) -> c_cls c = c_cls d /\ same_meta (c_meta c) (c_meta d)).
  { destruct value as [[v|d]|]; try (split; [intros _ d' H; discriminate|reflexivity]).
    rewrite (is_equivalent_spec c d W (WD d eq_refl)). split.
    - intros H d' [= <-]. exact H.
    - intros H. now apply H. }
  split.
  - intros [K E]. apply Q in E. rewrite E. cbn [rbind]. pose proof K as K'. apply known_keys in K'. rewrite K'.
    exact (container_call_wf (mkCont (c_cls c) (dupdate (c_meta c) kw) (c_val c)) _ (wf_dupdate c kw (c_val c) W K)).
  - intros N. destruct (match value with Some (ACont d) => is_equivalent c d | _ => true end) eqn:E; [|reflexivity].
    cbn [rbind]. destruct (forallb (fun k => dmem k (c_meta c)) (keys kw)) eqn:K; [|reflexivity].
    exfalso. apply N. split; [now apply known_keys|]. now apply Q.
Qed.
Theorem replace_spec c value kw : wf_container c -> (forall d, value = Some (ACont d) -> wf_container d) ->
  NoDup (keys kw) -> replace_ok c value kw ->
  exists d, container_replace c value kw = Ok d /\ wf_container d /\
    c_cls d = c_cls c /\ keys (c_meta d) = keys (c_meta c) /\
    (forall k, dget k (c_meta d) = match dget k kw with Some v => Some v | None => dget k (c_meta c) end) /\
    c_val d = match value with None => c_val c | Some (ARaw v) => v | Some (ACont e) => c_val e end.
Proof.
  intros W WD ND OK. eexists. split; [apply (replace_eq c value kw W WD); exact OK|].
  destruct OK as [K _]. split; [now apply wf_dupdate|]. cbn [c_cls c_meta c_val].
  split; [reflexivity|]. split; [now apply keys_dupdate_known|]. split; [|reflexivity].
  intros k. now apply dget_dupdate_nodup.
Qed.
Theorem replace_twice c v1 kw1 d v2 kw2 : wf_container c -> (forall e, v1 = Some (ACont e) -> wf_container e) ->
  NoDup (keys kw1) -> NoDup (keys kw2) ->
  container_replace c v1 kw1 = Ok d ->
  container_replace d (option_map ARaw v2) kw2 =
  container_replace c (match v2 with Some v => Some (ARaw v) | None => Some (ARaw (c_val d)) end) (dupdate kw1 kw2).
Proof.
  intros W WD N1 N2 R.
  assert (OK : replace_ok c v1 kw1).
  { destruct (replace_eq c v1 kw1 W WD) as [_ H].
    destruct (match v1 with Some (ACont e) => is_equivalent c e | _ => true end) eqn:E.
    - destruct (forallb (fun k => dmem k (c_meta c)) (keys kw1)) eqn:K.
      + split; [now apply known_keys|]. intros e ->. apply is_equivalent_spec; auto.
      + exfalso. unfold container_replace in R. rewrite K in R. destruct v1 as [[v|e]|]; cbn in R; [discriminate| |discriminate].
        rewrite E in R. discriminate.
    - destruct v1 as [[v|e]|]; try discriminate. unfold container_replace in R. rewrite E in R. discriminate. }
  destruct (replace_spec c v1 kw1 W WD N1 OK) as (d' & R' & WD' & C & K & G & V). rewrite R in R'. injection R' as <-.
  assert (KK : forall k, In k (keys (dupdate kw1 kw2)) <-> In k (keys kw2) \/ In k (keys kw1)) by (intros; apply In_keys_dupdate).
  set (val := match v2 with Some v => Some (ARaw v) | None => Some (ARaw (c_val d)) end).
  assert (RAW : forall e, val <> Some (ACont e)) by (unfold val; destruct v2; discriminate).
  destruct (replace_eq d (option_map ARaw v2) kw2 WD') as [A1 A2].
  { intros e E. destruct v2; discriminate. }
  destruct (replace_eq c val (dupdate kw1 kw2) W) as [B1 B2].
  { intros e E. now apply RAW in E. }
  destruct (forallb (fun k => dmem k (c_meta d)) (keys kw2)) eqn:F.
  - pose proof (proj1 (known_keys kw2 (c_meta d)) F) as F'. clear F. rename F' into F. rewrite A1, B1.
    + f_equal. rewrite C. f_equal.
      * apply dict_ext.
        -- apply NoDup_keys_dupdate. rewrite K. apply W.
        -- rewrite !keys_dupdate_known; auto. intros k I. apply KK in I as [I|I]; [rewrite <- K; auto|now apply OK].
        -- intros k. rewrite (dget_dupdate_nodup k kw2 (c_meta d) N2), G.
           rewrite (dget_dupdate_nodup k _ (c_meta c) (NoDup_keys_dupdate kw2 kw1 N1)), (dget_dupdate_nodup k kw2 kw1 N2).
           destruct (dget k kw2); reflexivity.
      * destruct v2; reflexivity.
    + split; [|intros e E; now apply RAW in E]. intros k I. apply KK in I as [I|I]; [rewrite <- K; auto|now apply OK].
    + split; [exact F|intros e E; destruct v2; discriminate].
  - rewrite A2, B2; [reflexivity| |].
    + intros [X _]. apply Bool.not_true_iff_false in F. apply F. apply known_keys. intros k I. rewrite K. apply X. apply KK. now left.
    + intros [X _]. apply Bool.not_true_iff_false in F. apply F. now apply known_keys.
Qed.
Lemma replace_same c : wf_container c ->
  container_replace c None [] = Ok c /\ container_replace c (Some (ARaw (c_val c))) [] = Ok c /\
  container_replace c (Some (ACont c)) [] = Ok c /\ container_copy c = Ok c.
Proof.
  intros W. rewrite !replace_value by exact W. rewrite is_equivalent_refl by exact W.
  assert (E : mkCont (c_cls c) (c_meta c) (c_val c) = c) by now destruct c. rewrite E.
  split; [|split; [reflexivity|split; [reflexivity|now apply container_copy_id]]].
  unfold container_replace. cbn [rbind keys map forallb]. change (dupdate (c_meta c) []) with (c_meta c). rewrite container_call_wf by exact W. now rewrite E.
Qed.

(** ** equality *)
Theorem cont_eqb_spec c d : wf_container c -> wf_container d -> (cont_eqb c d = true <-> same_container c d).
Proof.
  intros [Wc _] [Wd _]. unfold cont_eqb, same_container.
  rewrite !andb_true_iff, cls_eqb_eq, pyval_eqb_eq, (dict_eqb_spec _ _ Wd Wc).
  split; [intros [[A B] C]|intros (A & B & C)]; repeat split; auto using py_eq_sym, same_meta_sym.
Qed.

(** ** construction *)
Lemma init_meta_full c md m : NoDup (keys md) -> smem "Static" c = false -> init_meta c md = Ok m ->
  NoDup (keys m) /\ forall k, dget k m = full_meta c md k.
Proof.
  intros ND S. unfold init_meta, full_meta. rewrite S. destruct (smem "Variable" c) eqn:V; cbn [andb].
  - destruct (dget "sharding" md) as [s|] eqn:D; intros [= <-].
    + split.
      * cbn [keys map fst]. constructor; [|now apply NoDup_keys_ddel]. apply dget_None. now apply dget_ddel_same.
      * intros k. cbn [dget]. destruct (String.eqb_spec k "sharding") as [->|NE]; [now rewrite D|]. now apply dget_ddel_other.
    + split; [cbn [keys map fst]; constructor; [now apply dget_None|exact ND]|].
      intros k. cbn [dget]. destruct (String.eqb_spec k "sharding") as [->|NE]; [now rewrite D|reflexivity].
  - intros [= <-]. auto.
Qed.
Theorem construct_from_container x c md : wf_container x -> NoDup (keys md) -> smem "Static" c = false ->
  ((c_cls x = c /\ forall k, opt_eq (full_meta c md k) (dget k (c_meta x))) ->
     exists obj, container_call c (CCont x) md = Ok obj /\ cont_eqb obj x = true /\
       c_cls obj = c /\ c_val obj = c_val x /\ (forall k, dget k (c_meta obj) = full_meta c md k)) /\
  (~ (c_cls x = c /\ forall k, opt_eq (full_meta c md k) (dget k (c_meta x))) -> container_call c (CCont x) md = Err ValueError).
Proof.
  intros W ND S. cbn [container_call]. unfold container_init.
  assert (M : exists m, init_meta c md = Ok m).
  { unfold init_meta. rewrite S. destruct (smem "Variable" c); [destruct (dget "sharding" md)|]; eauto. }
  destruct M as [m M]. rewrite M. cbn [rbind]. destruct (init_meta_full c md m ND S M) as [NM G].
  assert (E : is_equivalent x (mkCont c m (c_val x)) = true <-> c_cls x = c /\ forall k, opt_eq (full_meta c md k) (dget k (c_meta x))).
  { unfold is_equivalent. cbn [c_cls c_meta]. rewrite andb_true_iff, cls_eqb_eq, (dict_eqb_spec _ _ (proj1 W) NM).
    split; intros [A B]; split; auto; intros k; rewrite ?G; specialize (B k); rewrite ?G in B; auto using opt_eq_sym. }
  split.
  - intros H. apply E in H as H'. rewrite H'. eexists. split; [reflexivity|].
    cbn [c_cls c_meta c_val]. split; [|auto]. unfold cont_eqb. destruct H as [A B]. cbn [c_cls c_meta c_val].
    rewrite !andb_true_iff, cls_eqb_eq, pyval_eqb_eq, (dict_eqb_spec _ _ (proj1 W) NM). repeat split; auto; [|constructor].
    intros k. rewrite G. apply opt_eq_sym, B.
  - intros H. destruct (is_equivalent x (mkCont c m (c_val x))) eqn:Q; [|reflexivity]. exfalso. apply H. now apply E.
Qed.
Theorem construct_static x c md : wf_container x -> smem "Static" c = true ->
  container_call c (CCont x) md =
    match md with
    | [] => if cls_eqb (c_cls x) c then Ok (mkCont c [] (c_val x)) else Err ValueError
    | _ => Err TypeError
    end.
Proof.
  intros (ND & NV & IC & ST & VA) S. cbn [container_call]. unfold container_init, init_meta. rewrite S. destruct md as [|p md]; [|reflexivity]. cbn [rbind].
  unfold is_equivalent. cbn [c_cls c_meta]. destruct (cls_eqb (c_cls x) c) eqn:E; [|reflexivity]. apply cls_eqb_eq in E. subst c.
  now rewrite (ST S).
Qed.
(** construction always gives a well formed container, except Static from metadata *)
Theorem construct_wf c arg md obj : In "Container" c -> NoDup (keys md) -> ~ In "value" (keys md) ->
  (forall v extra, arg = CMeta v extra -> smem "Static" c = false) ->
  container_call c arg md = Ok obj -> wf_container obj.
Proof.
  intros IC ND NV NS R.
  assert (M : forall m, init_meta c md = Ok m -> NoDup (keys m) /\ ~ In "value" (keys m) /\
      (smem "Static" c = true -> m = []) /\
      (smem "Static" c = false -> smem "Variable" c = true -> exists s t, m = ("sharding", s) :: t)).
  { intros m M. unfold init_meta in M. destruct (smem "Static" c) eqn:S.
    - destruct md; [|discriminate]. injection M as <-. split; [constructor|]. split; [intros []|]. split; [reflexivity|discriminate].
    - destruct (init_meta_full c md m ND S) as [NM G]. { unfold init_meta. now rewrite S. }
      split; [exact NM|]. split.
      + intros I. apply dget_Some_keys in I as [v I]. rewrite G in I. unfold full_meta in I.
        rewrite Bool.andb_false_r in I. apply dget_In_keys in I. contradiction.
      + split; [discriminate|]. intros _ V. rewrite V in M. destruct (dget "sharding" md); injection M as <-; eauto. }
  assert (I1 : forall v obj, container_init c (inl v) md = Ok obj -> wf_container obj).
  { intros v o H. unfold container_init in H. destruct (init_meta c md) as [m|]; [|discriminate]. cbn [rbind] in H. injection H as <-.
    destruct (M m eq_refl) as (A & B & C & D). split; [exact A|]. split; [exact B|]. split; [exact IC|]. split; [exact C|exact D]. }
  destruct arg as [v|x|v extra]; cbn [container_call] in R.
  - eapply I1; eauto.
  - destruct (container_init c (inl (c_val x)) md) as [o|] eqn:E; [|discriminate]. cbn [rbind] in R.
    destruct (is_equivalent x o); [|discriminate]. injection R as <-. eapply I1; eauto.
  - unfold container_init in R. destruct (init_meta c md) as [m|] eqn:E; [|discriminate]. cbn [rbind] in R. injection R as <-.
    destruct (M m eq_refl) as (A & B & C & D). specialize (NS v extra eq_refl).
    assert (NU : NoDup (keys (dupdate m extra))) by now apply NoDup_keys_dupdate.
    split; [now apply NoDup_keys_ddel|]. split; [apply dget_None; now apply dget_ddel_same|]. split; [exact IC|].
    cbn [c_cls c_meta]. split; [congruence|]. intros S V. destruct (D S V) as (s & t & ->).
    assert (H : forall (ex : dict pyval) (s : pyval) (t : dict pyval), exists s' t', dupdate (("sharding", s) :: t) ex = ("sharding", s') :: t').
    { intros ex. induction ex as [|[k x] ex IH]; intros s0 t0; [cbn; eauto|]. rewrite dupdate_cons. cbn [fst snd dset].
      destruct (String.eqb k "sharding"); apply IH. }
    destruct (H extra s t) as (s' & t' & ->). cbn [ddel]. change (String.eqb "value" "sharding") with false. cbn iota. eauto.
Qed.
