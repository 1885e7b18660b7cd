(** TrainLoop_proofs: the training loops of the examples do what training on the model
    itself does. *)
From Coq Require Import Permutation Lia.
From Verif Require Import PyBase PyBaseFacts ValuesM Spec_Eq ValuesFacts FiltersM StateM Spec_State State_proofs ModuleM PureM Spec_Module Spec_Prog
  Graph_facts Dfs_proofs Build_proofs Bisim_proofs Skel_proofs RoundTrip_proofs Clone_proofs Update_proofs Write_proofs
  Laws_proofs Prog_proofs TransformM Transform_proofs History_proofs Leaf_proofs Scan_proofs Container_proofs ScanDeco_proofs Spec_Functional Functional_proofs
  GradFunM Spec_GradFun GradFun_proofs JitCacheM TrainLoopM Spec_TrainLoop.
Local Open Scope string_scope.
Local Open Scope list_scope.

Notation alike := (Forall2 (fun x y : string * attr => fst x = fst y /\ same_shape (snd x) (snd y))).
Lemma alike_keys s s1 : alike s s1 -> keys s1 = keys s.
Proof. induction 1 as [|[k a] [k' b] s s1 [E _] _ IH]; [reflexivity|]. cbn in *. subst. now f_equal. Qed.
Lemma alike_get s s1 : alike s s1 -> forall k a, dget k s = Some a -> exists b, dget k s1 = Some b /\ same_shape a b.
Proof.
  induction 1 as [|[k' a'] [k'' b'] s s1 [E P] _ IH]; intros k a; [discriminate|]. cbn in *. subst k''.
  destruct (String.eqb k k'); [intros [= <-]; eauto|apply IH].
Qed.
Lemma alike_back s s1 : alike s s1 -> forall k b, dget k s1 = Some b -> exists a, dget k s = Some a /\ same_shape a b.
Proof.
  induction 1 as [|[k' a'] [k'' b'] s s1 [E P] _ IH]; intros k b; [discriminate|]. cbn in *. subst k''.
  destruct (String.eqb k k'); [intros [= <-]; eauto|apply IH].
Qed.
Lemma alike_of s s1 : NoDup (keys s) -> keys s1 = keys s -> (forall k a b, dget k s = Some a -> dget k s1 = Some b -> same_shape a b) -> alike s s1.
Proof.
  revert s1. induction s as [|[k a] s IH]; intros [|[k' b] s1] ND K H; try discriminate; [constructor|]. injection K as -> K. inversion ND as [|? ? N1 N2]; subst.
  constructor; cbn.
  - split; [reflexivity|]. apply (H k); cbn; rewrite String.eqb_refl; reflexivity.
  - apply IH; auto. intros j x y Hx Hy. apply (H j); cbn; (destruct (String.eqb_spec j k) as [->|]; [|assumption]); exfalso; apply N1;
      (destruct (in_dec string_dec k (keys s)) as [I|N]; [exact I|apply dget_None in N; congruence]).
Qed.
Lemma shape_overwrites a b : same_shape a b -> overwrites a b b.
Proof.
  destruct a as [v|c], b as [v'|c']; cbn; try tauto. intros [H1 H2]. rewrite H1, H2. split; [reflexivity|]. split; [apply same_meta_refl|].
  destruct c' as [x y z]. cbn in *. now subst.
Qed.

(** two modules with the same parts *)
Record like (w : world) (r : nat) (v : world) (m : nat) : Prop := {
  lk_wf : wf_world w; lk_valid : valid w r; lk_names : names_ok w r; lk_live : live w r;
  lk_wf' : wf_world v; lk_valid' : valid v m; lk_names' : names_ok v m; lk_live' : live v m;
  lk_nodes : w_nodes v = w_nodes w;
  lk_def : get_module_def v m = get_module_def w r; lk_state : get_state v m = get_state w r
}.
Lemma like_refl w r : wf_world w -> valid w r -> names_ok w r -> live w r -> like w r w r.
Proof. intros. constructor; auto. Qed.
Lemma like_partition w r v m fs : like w r v m -> module_partition v m fs = module_partition w r fs.
Proof. intros H. unfold module_partition. now rewrite (lk_def _ _ _ _ H), (lk_state _ _ _ _ H). Qed.
Lemma like_filter w r v m f fs : like w r v m -> module_filter v m f fs = module_filter w r f fs.
Proof. intros H. unfold module_filter. now rewrite (lk_state _ _ _ _ H). Qed.

(** writing values of the same shape into node attributes *)
Definition fits (v : world) (s d : state) : Prop :=
  NoDup (keys d) /\ forall k b, dget k d = Some b -> exists a, dget k s = Some a /\ same_shape a b /\ plain_attr b /\ node_value v b.
Lemma adopt v m s d : wf_world v -> valid v m -> names_ok v m -> live v m -> get_state v m = Ok s -> fits v s d ->
  exists v', update_state v m (UStates (One d)) = (v', Ok tt) /\ wf_world v' /\ valid v' m /\ names_ok v' m /\ live v' m /\
    get_state v' m = Ok (on_values (over d) s) /\ get_module_def v' m = get_module_def v m /\ w_trace v' = w_trace v /\ w_nodes v' = w_nodes v /\
    (forall x o, get_obj v x = Some o -> ~ reaches v m x -> get_obj v' x = Some o) /\ (forall q, follow v' m q = follow v m q).
Proof.
  intros W V N L Gs [ND P]. assert (Ws : wf_state s). { destruct (get_state_total v m W V) as (s' & E & H). congruence. }
  destruct (update_state_effect v m (UStates (One d)) [d] s W V N L Gs eq_refl) as (v' & E & F).
  { discriminate. }
  { constructor; [exact ND|constructor]. }
  { intros k b Eb. cbn [latest] in Eb. destruct (P k b Eb) as (a & Ea & S & [P1 P2] & P3). split; [exact P1|]. split; [exact P2|].
    exists a, b. split; [exact Ea|]. split; [now apply shape_overwrites|exact P3]. }
  exists v'. destruct (ue_global _ _ _ _ _ F) as (Q1 & Q2 & Q3 & Q4). split; [exact E|]. split; [apply F|]. split; [unfold valid; rewrite Q4; exact V|].
  split; [apply F|]. split; [eapply effect_live; eauto|]. split.
  { destruct (ue_state _ _ _ _ _ F) as (s' & G' & K' & Vs). rewrite G'. f_equal. apply dict_ext.
    - rewrite K'. now apply wf_NoDup.
    - now rewrite on_keys.
    - intros k. rewrite on_dget. destruct (dget k s) as [a|] eqn:Ea.
      + destruct (Vs k a Ea) as (res & R1 & R2). cbn [latest] in R2. rewrite R1. cbn [option_map]. f_equal. unfold over.
        destruct (dget k d) as [b|] eqn:Eb; [|exact R2]. destruct (P k b Eb) as (a' & Ea' & S & _). assert (a' = a) by congruence. subst a'.
        eapply overwrites_unique; [exact R2|now apply shape_overwrites].
      + cbn. apply dget_None. rewrite K'. now apply dget_None. }
  split; [apply F|]. split; [exact Q2|]. split; [exact Q3|]. split.
  - intros x o Ho Hx. rewrite (ue_frame _ _ _ _ _ F x Hx). exact Ho.
  - apply F.
Qed.

(** what a step leaves alone *)
Definition apart (v : world) (m : nat) (v' : world) : Prop :=
  w_trace v' = w_trace v /\ (forall x o, get_obj v x = Some o -> ~ reaches v m x -> get_obj v' x = Some o) /\ (forall q, follow v' m q = follow v m q).
Lemma apart_refl v m : apart v m v.
Proof. repeat split; auto. Qed.
Lemma apart_trans v1 v2 v3 m : apart v1 m v2 -> apart v2 m v3 -> apart v1 m v3.
Proof.
  intros (A1 & A2 & A3) (B1 & B2 & B3). split; [congruence|]. split; [|intros q; now rewrite B3].
  intros x o Ho Hx. apply B2; [now apply A2|]. intros [q Hq]. apply Hx. exists q. now rewrite <- A3.
Qed.

Lemma like_adopt w r v m s d : like w r v m -> get_state w r = Ok s -> fits w s d ->
  exists w' v', update_state w r (UStates (One d)) = (w', Ok tt) /\ update_state v m (UStates (One d)) = (v', Ok tt) /\
    like w' r v' m /\ apart w r w' /\ apart v m v' /\ w_nodes w' = w_nodes w /\ get_state w' r = Ok (on_values (over d) s) /\ get_module_def w' r = get_module_def w r.
Proof.
  intros [W V N L W' V' N' L' Nn Ed Es] Gs F.
  assert (F' : fits v s d). { destruct F as [F1 F2]. split; [exact F1|]. intros k b Hb. destruct (F2 k b Hb) as (a & H1 & H2 & H3 & H4). exists a. repeat split; auto; try apply H3. unfold node_value in *. now rewrite Nn. }
  destruct (adopt w r s d W V N L Gs F) as (w2 & E & A1 & A2 & A3 & A4 & A5 & A6 & A7 & A8 & A9 & A10).
  rewrite Gs in Es. destruct (adopt v m s d W' V' N' L' Es F') as (v2 & E' & B1 & B2 & B3 & B4 & B5 & B6 & B7 & B8 & B9 & B10).
  exists w2, v2. split; [exact E|]. split; [exact E'|]. split; [constructor; auto; congruence|]. repeat split; auto.
Qed.

(** the Params before and after a steady forward pass *)
Lemma filter_sub s wrt pred : wf_state s -> to_predicate wrt = Ok pred -> state_filter s wrt [] = Ok (One (filter (fun ka => pred (fst ka) (snd ka)) s)).
Proof.
  intros Hs Hp. destruct (split_state s [wrt]) as [l'|e] eqn:E2.
  2:{ unfold split_state in E2. cbn [ellipsis_misplaced rmapM] in E2. rewrite Hp in E2. destruct (is_ellipsis wrt); cbn in E2; discriminate. }
  destruct (split_state_ok s _ l' Hs E2) as (ps & P2 & _ & L2). cbn in P2. rewrite Hp in P2. cbn in P2. injection P2 as <-. cbn in L2.
  unfold state_filter. rewrite E2. cbn [rbind]. rewrite L2. cbn [removelast]. unfold pack. f_equal. f_equal.
  rewrite mk_state_id by (now apply sub_of_wf). unfold sub_of. apply filter_ext. intros [k a]. cbn. destruct (pred k a); reflexivity.
Qed.
Lemma shape_isinstance a b t : same_shape a b -> (exists c, a = ACont c) \/ (exists c, b = ACont c) -> isinstance b t = isinstance a t.
Proof. destruct a as [v|c], b as [v'|c']; cbn; try tauto; [intros _ [[c H]|[c H]]; discriminate|]. intros [H1 _] _. unfold isinstance. cbn. now rewrite H1. Qed.

Notation params_of := (filter (fun ka : string * attr => isinstance (snd ka) "Param")).
Definition chosen (p : string -> attr -> bool) (s : state) : state := filter (fun ka => p (fst ka) (snd ka)) s.
Definition by_class (p : string -> attr -> bool) : Prop := forall k c d, c_cls d = c_cls c -> c_meta d = c_meta c -> p k (ACont d) = p k (ACont c).
Lemma param_structural : structural (FType "Param").
Proof. eexists. split; [reflexivity|]. intros k c d E _. unfold isinstance. cbn. now rewrite E. Qed.
Lemma shape_chosen p k a b : by_class p -> same_shape a b -> (exists c, a = ACont c) \/ (exists c, b = ACont c) -> p k b = p k a.
Proof. intros B. destruct a as [v|c], b as [v'|c']; cbn; try tauto; [intros _ [[c H]|[c H]]; discriminate|]. intros [H1 H2] _. now apply B. Qed.
Lemma variables_cons p k a s : NoDup (keys ((k, a) :: s)) -> variables (chosen p ((k, a) :: s)) ->
  (p k a = true -> exists c, a = ACont c) /\ variables (chosen p s).
Proof.
  intros ND H. inversion ND as [|? ? N1 N2]; subst. unfold chosen in *. cbn in H. destruct (p k a) eqn:E.
  - split; [intros _; apply (H k); cbn; now rewrite String.eqb_refl|]. intros j b Hb. apply (H j). cbn. destruct (String.eqb_spec j k) as [->|]; [|exact Hb].
    exfalso. apply N1. apply dget_In in Hb. apply filter_In in Hb as [Hb _]. now apply (in_map fst) in Hb.
  - split; [discriminate|exact H].
Qed.
Lemma alike_params p s s1 : by_class p -> alike s s1 -> NoDup (keys s) -> variables (chosen p s) -> variables (chosen p s1) -> alike (chosen p s) (chosen p s1).
Proof.
  intros B A. assert (K := alike_keys _ _ A). revert K. induction A as [|[k a] [k' b] s s1 [E S] A IH]; intros K ND V V1; [constructor|].
  cbn [fst snd] in E, S. subst k'. assert (ND1 : NoDup (keys ((k, b) :: s1))) by (rewrite K; exact ND).
  apply variables_cons in V as [Va V]; [|exact ND]. apply variables_cons in V1 as [Vb V1]; [|exact ND1]. injection K as K.
  inversion ND as [|? ? N1 N2]; subst. specialize (IH K N2 V V1). unfold chosen. cbn [filter fst snd]. fold (chosen p s) (chosen p s1).
  assert (EQ : p k b = p k a).
  { destruct (p k a) eqn:Ea.
    - rewrite (shape_chosen p k a b B S); [exact Ea|]. left. now apply Va.
    - destruct (p k b) eqn:Eb; [|reflexivity]. pose proof (shape_chosen p k a b B S (or_intror (Vb eq_refl))). congruence. }
  rewrite EQ. destruct (p k a); [|exact IH]. constructor; [split; [reflexivity|exact S]|exact IH].
Qed.

(** [tree_map] of the new parameters with the derivatives at the old ones *)
Lemma tree_map2_moved sgd G before after : alike before after -> NoDup (keys before) -> variables before ->
  (forall k a, dget k before = Some a -> plain_attr a) ->
  tree_map2 sgd after (grad_tree G before) = Ok (moved sgd G before after).
Proof.
  intros A ND V P.
  assert (H : forall pre b0 a0, before = pre ++ b0 -> alike b0 a0 ->
     tree_map2 sgd a0 (grad_tree G b0) = Ok (map (fun ka => (fst ka, with_value (snd ka) (sgd (value (snd ka)) (match dget (fst ka) before with Some a => G (fst ka) a | None => PyNone end)))) a0)).
  { intros pre b0 a0 Eq A0. revert pre Eq. induction A0 as [|[k a] [k' b] b0 a0 [E S] A0 IH]; intros pre Eq; [reflexivity|]. cbn [fst snd] in E, S. subst k'.
    assert (Dk : dget k before = Some a). { apply In_dget; [exact ND|]. rewrite Eq. apply in_or_app. right. now left. }
    cbn [tree_map2 grad_tree map fst snd]. rewrite String.eqb_refl, Dk. cbn [andb].
    destruct (V k a Dk) as [c ->]. destruct b as [x|c']; [destruct S|]. destruct S as [S1 S2]. cbn [with_value].
    assert (KE : attr_key_eqb (fun _ _ => true) (ACont c') (ACont (mkCont (c_cls c) (c_meta c) (G k (ACont c)))) = true).
    { unfold attr_key_eqb. cbn [c_cls c_meta]. rewrite S1, S2, cls_eqb_refl, dict_eqb_refl; [reflexivity|]. destruct (P k _ Dk) as [P1 _]. apply P1. }
    rewrite KE. specialize (IH (pre ++ [(k, ACont c)])). rewrite <- app_assoc in IH. fold (grad_tree G b0). rewrite (IH Eq). cbn [rbind]. reflexivity. }
  exact (H [] before after eq_refl A).
Qed.
(** one pass of [sgd_body] *)
Lemma alike_trans a b c : alike a b -> alike b c -> alike a c.
Proof.
  intros H. revert c. induction H as [|x y a b [E S] H IH]; intros c H2; inversion H2 as [|? z ? c' [E2 S2] H3]; subst; [constructor|]. constructor; [|now apply IH].
  split; [congruence|]. destruct (snd x), (snd y), (snd z); cbn in *; try tauto. destruct S, S2. split; congruence.
Qed.
Lemma alike_over w s d : fits w s d -> NoDup (keys s) -> alike s (on_values (over d) s).
Proof.
  intros [_ F] ND. apply alike_of; [exact ND|apply on_keys|]. intros k a b Ha Hb. rewrite on_dget, Ha in Hb. cbn in Hb. injection Hb as <-. unfold over.
  destruct (dget k d) as [b|] eqn:E; [|destruct a; cbn; auto]. destruct (F k b E) as (a' & Ha' & S & _). congruence.
Qed.
Lemma moved_keys sgd G before after : keys (moved sgd G before after) = keys after.
Proof. unfold keys, moved. rewrite map_map. reflexivity. Qed.
Lemma moved_get sgd G before after k b : dget k (moved sgd G before after) = Some b -> exists a x, dget k after = Some a /\ b = with_value a x.
Proof.
  unfold moved. revert k b. induction after as [|[j a] after IH]; intros k b; cbn; [discriminate|].
  destruct (String.eqb_spec k j) as [->|]; [intros [= <-]; eauto|apply IH].
Qed.
Lemma filter_get s (p : string -> attr -> bool) k a : NoDup (keys s) -> dget k (filter (fun ka => p (fst ka) (snd ka)) s) = Some a <-> dget k s = Some a /\ p k a = true.
Proof.
  intros ND. split.
  - intros H. apply dget_In in H. apply filter_In in H as [H1 H2]. split; [now apply In_dget|exact H2].
  - intros [H1 H2]. apply In_dget; [|apply filter_In; split; [now apply dget_In|exact H2]].
    clear H1. induction s as [|[j b] s IH]; cbn; [constructor|]. inversion ND as [|? ? N1 N2]; subst. destruct (p j b); [|now apply IH].
    cbn. constructor; [|now apply IH]. intros I. apply N1. apply in_map_iff in I as ([x y] & <- & I). apply filter_In in I as [I _]. now apply (in_map fst) in I.
Qed.
Lemma moved_fits p w r s sgd G before : wf_world w -> get_state w r = Ok s -> wf_state s -> variables (chosen p s) ->
  fits w s (moved sgd G before (chosen p s)).
Proof.
  intros W Gs Ws V. assert (ND := wf_NoDup _ Ws). split.
  - rewrite moved_keys. unfold chosen. clear -ND. induction s as [|[j b] s IH]; cbn; [constructor|]. inversion ND as [|? ? N1 N2]; subst. destruct (p j b); [|now apply IH].
    cbn. constructor; [|now apply IH]. intros I. apply N1. apply in_map_iff in I as ([x y] & <- & I). apply filter_In in I as [I _]. now apply (in_map fst) in I.
  - intros k b Hb. apply moved_get in Hb as (a & x & Ha & ->). destruct (V k a Ha) as [c ->].
    assert (Hs : dget k s = Some (ACont c)). { apply (filter_get s p k _ ND) in Ha as [Ha _]. exact Ha. }
    exists (ACont c). split; [exact Hs|]. split; [cbn; auto|].
    assert (P : plain_attr (ACont c)) by (apply (get_state_plain w r s W Gs k); now apply dget_In). destruct P as [P1 P2].
    split; [split; [exact P1|exact P2]|]. destruct (get_state_nodes w r s k _ W Gs Hs) as (t & T1 & T2). exists t. split; [exact T1|exact T2].
Qed.

Lemma unchanged_like w r v m v2 : like w r v m -> wf_world v2 -> all_unchanged v v2 -> w_nodes v2 = w_nodes v -> w_trace v2 = w_trace v -> like w r v2 m.
Proof.
  intros [W V N L W' V' N' L' Nn Ed Es] W2 U Nv Tv. destruct (unchanged_state v v2 m W' W2 V' U Nv) as [S2 D2]. constructor; auto.
  - destruct (get_obj_ex _ _ V') as [o Ho]. apply U in Ho. eapply get_obj_lt; eauto.
  - eapply unchanged_names; [exact W'|exact V'|exact U|exact Nv|exact N'].
  - intros x o Hx Ho. apply (unchanged_reaches v v2) in Hx; auto. rewrite (unchanged_get v v2 m x U Hx) in Ho. rewrite Tv. now apply (L' x).
  - congruence.
  - congruence.
  - congruence.
Qed.
Lemma unchanged_apart v v2 m : wf_world v -> valid v m -> all_unchanged v v2 -> w_trace v2 = w_trace v -> apart v m v2.
Proof. intros W V U T. split; [exact T|]. split; [intros x o Ho _; now apply U|]. intros q. now apply unchanged_follow. Qed.

Lemma run_live (f : prog pyval) w r w1 out : ok_prog f -> wf_world w -> valid w r -> names_ok w r -> live w r -> run f w [r] = (w1, out) ->
  wf_world w1 /\ valid w1 r /\ live w1 r /\ w_nodes w1 = w_nodes w.
Proof.
  intros Hf W V N L E. destruct (get_state_total w r W V) as (s & Gs & _). destruct (get_module_def_total w r W V) as (d & Gd).
  assert (H : holds w w r w (mkPure (One s) d)). { constructor; auto; [intros x o Ho; exact Ho|]. split; [exact Gd|exact Gs]. }
  destruct (run_parts f w w r w _ (0, 0) Hf H) as (w1' & res & v1 & v2 & E1 & _ & _ & W2 & V2 & L2 & N2 & _). rewrite E in E1. injection E1 as <- <-. auto.
Qed.

Lemma step_like wrt D sgd (f : prog pyval) w r diff w1 out params w2 v m t :
  structural wrt -> differentiates D -> In "jax.Array" (w_nodes w) ->
  ok_prog f -> module_filter w r wrt [] = Ok (One diff) -> variables diff ->
  run f w [r] = (w1, Ok out) -> steady w w1 r ->
  module_filter w1 r wrt [] = Ok (One params) -> variables params ->
  update_state w1 r (UStates (One (moved sgd (D (loss_with false f w r) diff) diff params))) = (w2, Ok tt) ->
  like w r v m ->
  exists v', sgd_body wrt t D sgd (user_fun f) v m = (v', Ok tt) /\ like w2 r v' m /\ apart v m v' /\ w_nodes w2 = w_nodes w /\ steady w w2 r /\
    (forall s1, get_state w1 r = Ok s1 -> get_state w2 r = Ok (on_values (over (moved sgd (D (loss_with false f w r) diff) diff params)) s1)).
Proof.
  intros HS HD J Hf Hdiff Vd Hrun (Sn & Sd & Ss) Hpar Vp Hup LK.
  pose proof LK as [W V N L W' V' N' L' Nn Ed Es]. destruct HS as (pred & Hpred & Bp).
  destruct (grad_call_fn_open D f v m wrt _ t true false W' V' Hpred) as (diff' & nondiff & p & P1 & P2 & P3 & E0).
  rewrite (like_filter _ _ _ _ _ _ LK), Hdiff in P3. injection P3 as <-. rewrite (like_partition _ _ _ _ _ LK) in P1.
  unfold sgd_body. rewrite E0. clear E0.
  assert (H : holds v w r v p). { constructor; auto; [intros x o Ho; exact Ho|]. eapply partition_parts; eauto. }
  destruct (run_parts f v w r v p t Hf H) as (w1' & res & v1 & v2 & E1 & Hm & E2 & W2 & V2 & L2 & N2 & Wv2 & Nv2 & U & S2 & D2).
  rewrite Hrun in E1. injection E1 as <- <-.
  destruct (get_state_total w1 r W2 V2) as (s1 & Gs1 & Ws1). destruct (get_state_total w r W V) as (s & Gs & Ws).
  assert (A : alike s s1) by (apply Ss; auto).
  assert (G3 : get_state (set_trace v2 (w_trace v)) (List.length (w_heap v)) = Ok s1).
  { rewrite set_trace_state; [congruence|exact Wv2|]. rewrite Gs1 in S2. eapply get_state_valid; exact S2. }
  unfold grad_call. rewrite ?Hpred. cbn [rbind]. rewrite (like_partition _ _ _ _ _ LK), P1, P2.
  unfold pure_merge in Hm. rewrite P2 in Hm. cbn [sts_list] in Hm. rewrite Hm. unfold user_fun at 1. rewrite E2. cbv zeta. rewrite G3.
  assert (LK3 : like w r (set_trace v2 (w_trace v)) m).
  { eapply unchanged_like; [exact LK| | | |]; [now apply set_trace_wf|exact U|cbn; congruence|reflexivity]. }
  assert (F : fits w s s1).
  { split; [now apply wf_NoDup|]. intros k b Hb. destruct (alike_back _ _ A k b Hb) as (a & Ha & S). exists a. split; [exact Ha|]. split; [exact S|].
    split; [apply (get_state_plain w1 r s1 W2 Gs1 k); now apply dget_In|]. destruct (get_state_nodes w1 r s1 k b W2 Gs1 Hb) as (ty & T1 & T2). exists ty. split; [now rewrite <- N2|exact T2]. }
  destruct (like_adopt w r _ m s s1 LK3 Gs F) as (w1x & v4 & _ & U4 & LK4 & _ & A4 & Nx & G4 & D4). rewrite U4.
  rewrite over_same in G4 by (try apply wf_NoDup; auto; eapply alike_keys; eauto).
  assert (LK1 : like w1 r v4 m).
  { pose proof (lk_def _ _ _ _ LK4) as Q1. pose proof (lk_state _ _ _ _ LK4) as Q2. pose proof (lk_nodes _ _ _ _ LK4) as Q3. constructor; auto; try apply LK4; congruence. }
  rewrite (like_filter _ _ _ _ _ _ LK1), Hpar. cbn [rbind one_state].
  assert (Ediff : diff = chosen pred s). { unfold module_filter in Hdiff. rewrite Gs in Hdiff. cbn [rbind] in Hdiff. rewrite (filter_sub s wrt _ Ws Hpred) in Hdiff. now injection Hdiff as <-. }
  assert (Epar : params = chosen pred s1). { unfold module_filter in Hpar. rewrite Gs1 in Hpar. cbn [rbind] in Hpar. rewrite (filter_sub s1 wrt _ Ws1 Hpred) in Hpar. now injection Hpar as <-. }
  assert (NDd : NoDup (keys diff)).
  { destruct (parts_two w r _ p W V P1) as (? & ? & ? & _ & _ & Q & Q1 & _). rewrite P2 in Q. injection Q as <- <-. now apply wf_NoDup. }
  assert (Ad : alike diff params). { subst diff params. apply alike_params; auto. now apply wf_NoDup. }
  rewrite tree_map2_moved; auto.
  2:{ intros k a Ha. subst diff. apply (filter_get s pred) in Ha as [Ha _]; [|now apply wf_NoDup]. apply (get_state_plain w r s W Gs k). now apply dget_In. }
  assert (EM : moved sgd (D (grad_fn true false t (user_fun f) v nondiff (p_def p)) diff) diff params = moved sgd (D (loss_with false f w r) diff) diff params).
  { unfold moved. apply map_ext. intros [k a]. cbn [fst snd]. do 3 f_equal. destruct (dget k diff) as [b|]; [|reflexivity].
    exact (grad_op_loss D f w r _ p diff nondiff v t true false HD Hf W V N L J P1 P2 W' Nn k b). }
  rewrite EM.
  assert (FM : fits w1 s1 (moved sgd (D (loss_with false f w r) diff) diff params)). { rewrite Epar. apply (moved_fits pred w1 r); auto. now rewrite <- Epar. }
  destruct (like_adopt w1 r v4 m s1 _ LK1 Gs1 FM) as (w2' & v5 & U5 & U6 & LK5 & _ & A5 & Nx5 & G5 & D5). rewrite Hup in U5. injection U5 as <-.
  exists v5. split; [exact U6|]. split; [exact LK5|]. split.
  { eapply apart_trans; [|exact A5]. eapply apart_trans; [|exact A4]. apply unchanged_apart; auto. }
  split; [congruence|]. split.
  - split; [apply LK5|]. split; [congruence|]. intros a b Ha Hb. rewrite Gs in Ha. injection Ha as <-. rewrite G5 in Hb. injection Hb as <-.
    eapply alike_trans; [exact A|]. eapply alike_over; [exact FM|now apply wf_NoDup].
  - intros s1' E. rewrite Gs1 in E. injection E as <-. exact G5.
Qed.

(** ** The three loops *)
Lemma trained_weaken D sgd wrt (Q1 Q2 : world -> world -> Prop) r w l w' : (forall a b, Q1 a b -> Q2 a b) -> trained D sgd wrt Q1 r w l w' -> trained D sgd wrt Q2 r w l w'.
Proof. intros H T. induction T; [constructor|]. econstructor; eauto. Qed.

Lemma parts_like p w r v t : wf_world w -> valid w r -> names_ok w r -> live w r -> parts_of p w r -> wf_world v -> w_nodes v = w_nodes w ->
  exists v1, pure_merge (set_trace v t) p = Ok (List.length (w_heap v), v1) /\ like w r v1 (List.length (w_heap v)) /\ all_unchanged v v1 /\ w_trace v1 = t /\ w_nodes v1 = w_nodes v /\
    (forall x, reaches v1 (List.length (w_heap v)) x -> get_obj v x = None).
Proof.
  intros W V N L Hp Wv Nv. destruct (parts_merge p w r (set_trace v t) W V N Hp) as (Ls & v1 & objs & Hg & Hm & HM).
  pose proof (merged_faithful _ _ _ _ _ _ _ W V Hg HM) as F. change (List.length (w_heap (set_trace v t))) with (List.length (w_heap v)) in *.
  exists v1. split; [exact Hm|]. assert (Wt : wf_world (set_trace v t)) by (now apply set_trace_wf). destruct (fc_wf _ _ _ _ _ F Wt) as [W1 V1].
  assert (T1 : w_trace v1 = t /\ w_nodes v1 = w_nodes v). { split; [exact (mg_trace _ _ _ _ _ HM)|exact (mg_nodes _ _ _ _ _ HM)]. } destruct T1 as [T1 Q1].
  split.
  - constructor; auto.
    + apply (fc_names _ _ _ _ _ F); auto.
    + intros x o Hx Ho. rewrite T1. exact (fc_trace _ _ _ _ _ F x o Hx Ho).
    + congruence.
    + now apply (fc_def _ _ _ _ _ F).
    + now apply (fc_state _ _ _ _ _ F).
  - split; [intros x o Ho; apply (fc_kept _ _ _ _ _ F); exact Ho|]. split; [exact T1|]. split; [exact Q1|]. exact (fc_new _ _ _ _ _ F).
Qed.

(** ** 04: parts in, parts out *)
Lemma pure_step_ok wrt D sgd (f : prog pyval) w r diff w1 out params w2 v0 v p t1 t2 :
  structural wrt -> differentiates D -> In "jax.Array" (w_nodes w) ->
  ok_prog f -> module_filter w r wrt [] = Ok (One diff) -> variables diff ->
  run f w [r] = (w1, Ok out) -> steady w w1 r ->
  module_filter w1 r wrt [] = Ok (One params) -> variables params ->
  update_state w1 r (UStates (One (moved sgd (D (loss_with false f w r) diff) diff params))) = (w2, Ok tt) ->
  holds v0 w r v p ->
  exists v' p', pure_step wrt t1 t2 D sgd (user_fun f) v p = (v', Ok p') /\ holds v0 w2 r v' p' /\ w_nodes w2 = w_nodes w.
Proof.
  intros HS HD J Hf Hdiff Vd Hrun Hst Hpar Vp Hup [W V N L Wv Nv Tv Ov Pv].
  destruct (parts_like p w r v t1 W V N L Pv Wv Nv) as (v1 & Hm & LK & U1 & T1 & N1 & R1).
  destruct (step_like wrt D sgd f w r diff w1 out params w2 v1 _ t2 HS HD J Hf Hdiff Vd Hrun Hst Hpar Vp Hup LK) as (v2 & Eb & LK2 & (A1 & A2 & A3) & Nw & _).
  unfold pure_step. rewrite Hm, Eb. pose proof LK2 as [W2 V2 NN2 L2 Wv2 Vv2 NNv2 Lv2 Nv2 Ed2 Es2].
  destruct (partition_ok_iff_state w2 r [] W2 V2) as (d & s & Hd & Hs & Ws & E).
  exists (set_trace v2 (w_trace v)), (mkPure (One s) d). split.
  { rewrite (like_partition _ _ _ _ _ LK2), E. reflexivity. }
  split; [|exact Nw]. constructor; auto.
  - now apply set_trace_wf.
  - intros x o Ho. apply Ov in Ho. assert (Hx : ~ reaches v1 (List.length (w_heap v)) x) by (intros Hx; apply R1 in Hx; congruence). apply U1 in Ho. exact (A2 x o Ho Hx).
  - split; [exact Hd|exact Hs].
Qed.
Lemma pure_loop_ok wrt D sgd r l : structural wrt -> differentiates D -> forall w w' v0 v p t1 t2, In "jax.Array" (w_nodes w) -> trained D sgd wrt anything r w l w' -> holds v0 w r v p ->
  exists v' p', pure_loop wrt t1 t2 D sgd (map user_fun l) v p = (v', Ok p') /\ holds v0 w' r v' p'.
Proof.
  intros HS HD w w' v0 v p t1 t2 J T. revert v p J. induction T as [w|w f diff w1 out params w2 l w3 Hf Hdiff Vd Hrun Hst _ Hpar Vp Hup T IH]; intros v p J H.
  - exists v, p. auto.
  - destruct (pure_step_ok wrt D sgd f w r diff w1 out params w2 v0 v p t1 t2 HS HD J Hf Hdiff Vd Hrun Hst Hpar Vp Hup H) as (v1 & p1 & E & H1 & Nw).
    cbn [map pure_loop]. rewrite E. apply IH; [now rewrite Nw|exact H1].
Qed.

(** ** 02: nnx.jit around nnx.grad *)
Lemma lifted_step_ok wrt D sgd (f : prog pyval) w r diff w1 out params w2 v m t1 t2 :
  structural wrt -> differentiates D -> In "jax.Array" (w_nodes w) ->
  ok_prog f -> module_filter w r wrt [] = Ok (One diff) -> variables diff ->
  run f w [r] = (w1, Ok out) -> steady w w1 r ->
  module_filter w1 r wrt [] = Ok (One params) -> variables params ->
  update_state w1 r (UStates (One (moved sgd (D (loss_with false f w r) diff) diff params))) = (w2, Ok tt) ->
  like w r v m ->
  exists v', jit_call true t1 (sgd_body wrt t2 D sgd (user_fun f)) v m = (v', Ok tt) /\ like w2 r v' m /\ apart v m v' /\ w_nodes w2 = w_nodes w.
Proof.
  intros HS HD J Hf Hdiff Vd Hrun Hst Hpar Vp Hup LK0. pose proof LK0 as [W V N L Wv Vv NNv Lv Nv Ed Es].
  destruct (partition_ok_iff_state w r [] W V) as (d & s & Hd & Hs & Ws & E). cbn [partition_state rmap] in E.
  assert (Pv : parts_of (mkPure (One s) d) w r) by (split; [exact Hd|exact Hs]).
  destruct (parts_like _ w r v t1 W V N L Pv Wv Nv) as (v1 & Hm & LK & U1 & T1 & N1 & R1).
  destruct (step_like wrt D sgd f w r diff w1 out params w2 v1 _ t2 HS HD J Hf Hdiff Vd Hrun Hst Hpar Vp Hup LK) as (v2 & Eb & LK2 & (A1 & A2 & A3) & Nw & (S1 & S2 & S3) & _).
  pose proof LK2 as [W2 V2 NN2 L2 Wv2 Vv2 NNv2 Lv2 Nv2 Ed2 Es2]. destruct (get_state_total w2 r W2 V2) as (s2 & Gs2 & Ws2).
  unfold jit_call. rewrite (like_partition _ _ _ _ _ LK0). unfold module_partition at 1. rewrite Hd, Hs. cbn [rbind partition_state].
  unfold jitted_fn. rewrite Hm, Eb. cbv zeta. rewrite set_trace_state, Es2, Gs2 by assumption.
  assert (U : all_unchanged v (set_trace v2 (w_trace v))).
  { intros x o Ho. assert (Hx : ~ reaches v1 (List.length (w_heap v)) x) by (intros Hx; apply R1 in Hx; congruence). apply U1 in Ho. exact (A2 x o Ho Hx). }
  assert (LK3 : like w r (set_trace v2 (w_trace v)) m). { eapply unchanged_like; [exact LK0| | | |]; [now apply set_trace_wf|exact U|cbn; congruence|reflexivity]. }
  assert (A : alike s s2) by (now apply S3).
  assert (F : fits w s s2).
  { split; [now apply wf_NoDup|]. intros k b Hb. destruct (alike_back _ _ A k b Hb) as (a & Ha & Sh). exists a. split; [exact Ha|]. split; [exact Sh|].
    split; [apply (get_state_plain w2 r s2 W2 Gs2 k); now apply dget_In|]. destruct (get_state_nodes w2 r s2 k b W2 Gs2 Hb) as (ty & Q1 & Q2). exists ty. split; [now rewrite <- Nw|exact Q2]. }
  destruct (like_adopt w r _ m s s2 LK3 Hs F) as (wx & v4 & _ & U4 & LK4 & _ & A4 & Nx & G4 & D4). rewrite U4.
  rewrite over_same in G4 by (try apply wf_NoDup; auto; eapply alike_keys; eauto).
  exists v4. split; [reflexivity|]. split.
  { pose proof (lk_def _ _ _ _ LK4) as Q1. pose proof (lk_state _ _ _ _ LK4) as Q2. pose proof (lk_nodes _ _ _ _ LK4) as Q3. constructor; auto; try apply LK4; congruence. }
  split; [|exact Nw]. eapply apart_trans; [|exact A4]. apply unchanged_apart; auto.
Qed.
Lemma lifted_loop_ok wrt D sgd r l : structural wrt -> differentiates D -> forall w w' v m t1 t2, In "jax.Array" (w_nodes w) -> trained D sgd wrt anything r w l w' -> like w r v m ->
  exists v', lifted_loop wrt t1 t2 D sgd (map user_fun l) v m = (v', Ok tt) /\ like w' r v' m /\ apart v m v'.
Proof.
  intros HS HD w w' v m t1 t2 J T. revert v J. induction T as [w|w f diff w1 out params w2 l w3 Hf Hdiff Vd Hrun Hst _ Hpar Vp Hup T IH]; intros v J H.
  - exists v. split; [reflexivity|]. split; [exact H|apply apart_refl].
  - destruct (lifted_step_ok wrt D sgd f w r diff w1 out params w2 v m t1 t2 HS HD J Hf Hdiff Vd Hrun Hst Hpar Vp Hup H) as (v1 & E & H1 & A1 & Nw).
    cbn [map lifted_loop]. rewrite E. destruct (IH v1) as (v2 & E2 & H2 & A2); [now rewrite Nw|exact H1|]. exists v2. split; [exact E2|]. split; [exact H2|].
    eapply apart_trans; eauto.
Qed.

(** equal parts, equal modules *)
Lemma like_look w r v m p : like w r v m -> look v m p = look w r p.
Proof.
  intros [W V N L Wv Vv NNv Lv Nv Ed Es]. destruct (partition_ok_iff_state w r [] W V) as (d & s & Hd & Hs & Ws & _).
  assert (P1 : parts_of (mkPure (One s) d) w r) by (split; [exact Hd|exact Hs]).
  assert (P2 : parts_of (mkPure (One s) d) v m) by (split; cbn; congruence).
  destruct (parts_merge _ w r w W V N P1) as (L1 & w1 & o1 & G1 & M1 & F1). destruct (parts_merge _ v m w Wv Vv NNv P2) as (L2 & w2 & o2 & G2 & M2 & F2).
  rewrite M1 in M2. injection M2 as <-. pose proof (merged_faithful _ _ _ _ _ _ _ W V G1 F1) as Q1. pose proof (merged_faithful _ _ _ _ _ _ _ Wv Vv G2 F2) as Q2.
  rewrite <- (fc_look _ _ _ _ _ Q1). symmetry. apply (fc_look _ _ _ _ _ Q2).
Qed.
Lemma like_alias w r v m p q : like w r v m -> (follow v m p = follow v m q <-> follow w r p = follow w r q).
Proof.
  intros [W V N L Wv Vv NNv Lv Nv Ed Es]. destruct (partition_ok_iff_state w r [] W V) as (d & s & Hd & Hs & Ws & _).
  assert (P1 : parts_of (mkPure (One s) d) w r) by (split; [exact Hd|exact Hs]).
  assert (P2 : parts_of (mkPure (One s) d) v m) by (split; cbn; congruence).
  destruct (parts_merge _ w r w W V N P1) as (L1 & w1 & o1 & G1 & M1 & F1). destruct (parts_merge _ v m w Wv Vv NNv P2) as (L2 & w2 & o2 & G2 & M2 & F2).
  rewrite M1 in M2. injection M2 as <-. pose proof (merged_faithful _ _ _ _ _ _ _ W V G1 F1) as Q1. pose proof (merged_faithful _ _ _ _ _ _ _ Wv Vv G2 F2) as Q2.
  rewrite <- (fc_alias _ _ _ _ _ Q1). symmetry. apply (fc_alias _ _ _ _ _ Q2).
Qed.

(** ** 01: Params and buffers *)
Notation others_of := (filter (fun ka : string * attr => negb (isinstance (snd ka) "Param"))).
Lemma filter_state (p : string -> attr -> bool) s : wf_state s -> wf_state (filter (fun ka => p (fst ka) (snd ka)) s).
Proof.
  intros H. pose proof (sub_of_wf [p] 0 s H) as Q. unfold sub_of in Q. erewrite filter_ext; [exact Q|]. intros [k a]. cbn. destruct (p k a); reflexivity.
Qed.
Lemma param_parts w r : wf_world w -> valid w r ->
  exists s d, get_state w r = Ok s /\ wf_state s /\ get_module_def w r = Ok d /\
    module_partition w r [FType "Param"; FEllipsis] = Ok (mkPure (Many [params_of s; others_of s]) d).
Proof.
  intros W V. destruct (grad_parts w r (FType "Param") _ W V eq_refl) as (diff & nondiff & p & H1 & H2 & _).
  destruct (parts_two w r _ p W V H1) as (s & diff' & nondiff' & Gs & Ws & Es & W1 & W2 & D1 & D2). rewrite H2 in Es. injection Es as <- <-.
  destruct (partition_ok_iff_state w r [FType "Param"; FEllipsis] W V) as (d & s' & Hd & Hs & _ & E). rewrite Gs in Hs. injection Hs as <-.
  exists s, d. split; [exact Gs|]. split; [exact Ws|]. split; [exact Hd|].
  assert (ND := wf_NoDup _ Ws).
  assert (X : diff = params_of s /\ nondiff = others_of s).
  { split; apply state_ext; auto.
    - exact (filter_state (fun _ a => isinstance a "Param") s Ws).
    - intros k. destruct (dget k diff) as [a|] eqn:Ea.
      + symmetry. apply (filter_get s (fun _ a => isinstance a "Param") k a ND). now apply D1.
      + destruct (dget k (params_of s)) as [a|] eqn:Eb; [|reflexivity]. apply (filter_get s (fun _ a => isinstance a "Param") k a ND) in Eb. apply D1 in Eb. congruence.
    - exact (filter_state (fun _ a => negb (isinstance a "Param")) s Ws).
    - intros k. destruct (dget k nondiff) as [a|] eqn:Ea.
      + symmetry. apply (filter_get s (fun _ a => negb (isinstance a "Param")) k a ND). apply D2 in Ea as [Q1 Q2]. rewrite Q2. auto.
      + destruct (dget k (others_of s)) as [a|] eqn:Eb; [|reflexivity]. apply (filter_get s (fun _ a => negb (isinstance a "Param")) k a ND) in Eb as [Q1 Q2].
        apply negb_true_iff in Q2. assert (dget k nondiff = Some a) by (apply D2; auto). congruence. }
  destruct X as [-> ->]. change (module_partition w r [FType "Param"; FEllipsis] = Ok p) in H1. rewrite H1. f_equal. rewrite H1 in E.
  destruct p as [x y]. cbn in H2. subst x. destruct (partition_state s [FType "Param"; FEllipsis]) as [z|]; [|discriminate]. cbn in E. injection E as -> ->. reflexivity.
Qed.

Lemma over_params w s d : wf_state s -> fits w s d -> variables (params_of s) -> keys d = keys (params_of s) ->
  params_of (on_values (over d) s) = d /\ others_of (on_values (over d) s) = others_of s.
Proof.
  intros Ws [ND F] V K.
  assert (G : forall s0, (forall k a, In (k, a) s0 -> dget k s = Some a) ->
     map fst (params_of (on_values (over d) s0)) = map fst (params_of s0) /\ others_of (on_values (over d) s0) = others_of s0 /\
     (forall k b, In (k, b) (params_of (on_values (over d) s0)) -> dget k d = Some b)).
  { induction s0 as [|[k a] s0 IH]; intros H; [repeat split; contradiction|]. destruct IH as (I1 & I2 & I3); [intros j b Hj; apply H; now right|].
    assert (Ha : dget k s = Some a) by (apply H; now left). cbn [on_values map filter fst snd]. change (map (fun ka => (fst ka, over d (fst ka) (snd ka))) s0) with (on_values (over d) s0).
    destruct (dget k d) as [b|] eqn:Eb.
    - assert (Ip : dget k (params_of s) = Some a).
      { destruct (dget k (params_of s)) as [a'|] eqn:Ea'; [apply (filter_get s (fun _ a => isinstance a "Param")) in Ea' as [Q _]; [congruence|now apply wf_NoDup]|].
        apply dget_None in Ea'. rewrite <- K in Ea'. apply dget_None in Ea'. congruence. }
      destruct (F k b Eb) as (a' & Ha' & Sh & _). assert (a' = a) by congruence. subst a'. assert (IS : isinstance b "Param" = isinstance a "Param") by (apply shape_isinstance; [exact Sh|left; apply (V k a Ip)]).
      apply (filter_get s (fun _ a => isinstance a "Param")) in Ip as [_ Ip]; [|now apply wf_NoDup]. assert (EO : over d k a = b) by (unfold over; now rewrite Eb).
      cbn [fst snd]. rewrite EO, IS, Ip. cbn [negb map fst]. split; [now rewrite I1|]. split; [exact I2|]. intros j c [[= <- <-]|Hj]; [exact Eb|now apply I3].
    - assert (Ip : isinstance a "Param" = false).
      { destruct (isinstance a "Param") eqn:Ei; [|reflexivity]. assert (Q : dget k (params_of s) = Some a) by (apply (filter_get s (fun _ a => isinstance a "Param")); [now apply wf_NoDup|auto]).
        apply dget_In_keys in Q. rewrite <- K in Q. apply dget_None in Eb. contradiction. }
      assert (EO : over d k a = a) by (unfold over; now rewrite Eb). cbn [fst snd]. rewrite EO, Ip. cbn [negb]. split; [exact I1|]. split; [now rewrite I2|exact I3]. }
  destruct (G s) as (G1 & G2 & G3); [intros k a Hk; apply In_dget; [now apply wf_NoDup|exact Hk]|]. split; [|exact G2].
  apply dict_ext.
  - change (NoDup (map fst (params_of (on_values (over d) s)))). rewrite G1. change (NoDup (keys (params_of s))). rewrite <- K. exact ND.
  - change (map fst (params_of (on_values (over d) s)) = keys d). rewrite G1. now symmetry.
  - intros k. destruct (dget k (params_of (on_values (over d) s))) as [b|] eqn:Eb; [symmetry; apply G3; now apply dget_In|].
    symmetry. apply dget_None. rewrite K. apply dget_None in Eb. unfold keys in *. rewrite <- G1. exact Eb.
Qed.

(** one forward pass on the parts *)
Lemma loss_fn_ok (f : prog pyval) w r v a b d t w1 out : ok_prog f -> wf_world w -> valid w r -> names_ok w r -> live w r -> wf_world v -> w_nodes v = w_nodes w ->
  parts_of (mkPure (Many [a; b]) d) w r -> run f w [r] = (w1, out) ->
  exists v', all_unchanged v v' /\ wf_world v' /\ w_nodes v' = w_nodes v /\ w_trace v' = w_trace v /\
    loss_fn t (user_fun f) d b v a =
      (v', match out with
           | Err e => Err e
           | Ok y => do s1 <- get_state w1 r; Ok (y, filter (fun ka => isinstance (snd ka) "jax.Array" || isinstance (snd ka) "numpy.ndarray") s1)
           end).
Proof.
  intros Hf W V N L Wv Nv P E. assert (H : holds v w r v (mkPure (Many [a; b]) d)). { constructor; auto. intros x o Ho; exact Ho. }
  destruct (run_parts f v w r v _ t Hf H) as (w1' & res & v1 & v2 & E1 & Hm & E2 & W2 & V2 & L2 & N2 & Wv2 & Nv2 & U & S2 & D2).
  rewrite E in E1. injection E1 as <- <-. exists (set_trace v2 (w_trace v)). split; [exact U|]. split; [now apply set_trace_wf|]. split; [cbn; congruence|]. split; [reflexivity|].
  unfold loss_fn, mdef_apply. unfold pure_merge in Hm. cbn [p_def p_states sts_list] in Hm. rewrite Hm. unfold user_fun. rewrite E2. destruct out as [y|e]; [|reflexivity].
  destruct (get_state_total w1 r W2 V2) as (s1 & Gs1 & Ws1). destruct (get_module_def_total w1 r W2 V2) as (d1 & Gd1).
  unfold module_partition. rewrite D2, S2, Gs1, Gd1. cbn [rbind partition_state p_states one_state].
  rewrite (filter_sub s1 buffers_filter _ Ws1 eq_refl). cbn [rbind one_state]. f_equal. f_equal. f_equal. apply filter_ext. intros [k x]. cbn. now rewrite orb_false_r.
Qed.

Lemma functional_step_ok D sgd (f : prog pyval) w r diff w1 out params w2 v a b d t :
  differentiates D -> In "jax.Array" (w_nodes w) ->
  ok_prog f -> module_filter w r (FType "Param") [] = Ok (One diff) -> variables diff ->
  run f w [r] = (w1, Ok out) -> steady w w1 r -> params_alone r w w1 ->
  module_filter w1 r (FType "Param") [] = Ok (One params) -> variables params ->
  update_state w1 r (UStates (One (moved sgd (D (loss_with false f w r) diff) diff params))) = (w2, Ok tt) ->
  wf_world w -> valid w r -> names_ok w r -> live w r -> wf_world v -> w_nodes v = w_nodes w ->
  module_partition w r [FType "Param"; FEllipsis] = Ok (mkPure (Many [a; b]) d) ->
  exists v' a' b', functional_step t D sgd d (user_fun f) v a b = (v', Ok (a', b')) /\
    module_partition w2 r [FType "Param"; FEllipsis] = Ok (mkPure (Many [a'; b']) d) /\
    wf_world w2 /\ valid w2 r /\ names_ok w2 r /\ live w2 r /\ w_nodes w2 = w_nodes w /\
    all_unchanged v v' /\ wf_world v' /\ w_nodes v' = w_nodes v /\ w_trace v' = w_trace v.
Proof.
  intros HD J Hf Hdiff Vd Hrun Hst [Q1 Q2] Hpar Vp Hup W V N L Wv Nv Hp.
  destruct (step_like (FType "Param") D sgd f w r diff w1 out params w2 w r (0, 0) param_structural HD J Hf Hdiff Vd Hrun Hst Hpar Vp Hup (like_refl w r W V N L)) as (wy & _ & LK2 & _ & Nw & (St1 & St2 & St3) & G2).
  destruct (run_live f w r w1 _ Hf W V N L Hrun) as (W1 & V1 & L1 & N1).
  destruct (param_parts w r W V) as (s & d' & Gs & Ws & Gd & Ep). rewrite Hp in Ep. injection Ep as -> -> <-.
  destruct (get_state_total w1 r W1 V1) as (s1 & Gs1 & Ws1).
  assert (Ediff : diff = params_of s). { unfold module_filter in Hdiff. rewrite Gs in Hdiff. cbn [rbind] in Hdiff. rewrite (filter_sub s (FType "Param") _ Ws eq_refl) in Hdiff. now injection Hdiff as <-. }
  assert (Epar : params = params_of s1). { unfold module_filter in Hpar. rewrite Gs1 in Hpar. cbn [rbind] in Hpar. rewrite (filter_sub s1 (FType "Param") _ Ws1 eq_refl) in Hpar. now injection Hpar as <-. }
  assert (Eq : params = diff) by congruence.
  assert (P1 : module_partition w r [FPred (fun _ x => isinstance x "Param"); FEllipsis] = Ok (mkPure (Many [params_of s; others_of s]) d)) by exact Hp.
  assert (PA := partition_parts _ w r _ W V P1). rewrite <- Ediff in *.
  destruct (loss_fn_ok f w r v diff (others_of s) d t w1 (Ok out) Hf W V N L Wv Nv PA Hrun) as (v' & U & Wv' & Nv' & Tv' & El).
  rewrite Gs1 in El. cbn [rbind] in El. unfold functional_step. rewrite El.
  assert (EG : forall k x, D (fun d0 => match snd (loss_fn t (user_fun f) d (others_of s) v d0) with Ok (y, _) => Some y | Err _ => None end) diff k x = D (loss_with false f w r) diff k x).
  { apply HD. intros d0 Pt. destruct (point_update w r _ _ diff (others_of s) d0 W V N L J P1 eq_refl Pt) as (wp & Eu & Wp & Vp' & Np & Lp & Nwp & PAp). cbn [p_def] in PAp.
    unfold loss_with. rewrite Eu. destruct (run f wp [r]) as [wq res] eqn:Er.
    destruct (loss_fn_ok f wp r v d0 (others_of s) d t wq res Hf Wp Vp' Np Lp Wv (eq_trans Nv (eq_sym Nwp)) PAp Er) as (vz & _ & _ & _ & _ & Ez). rewrite Ez. cbn [snd].
    destruct res as [y|e]; [|reflexivity]. destruct (run_live f wp r wq _ Hf Wp Vp' Np Lp Er) as (Wq & Vq & _). destruct (get_state_total wq r Wq Vq) as (sq & Gq & _). rewrite Gq. reflexivity. }
  rewrite (grad_tree_ext _ _ diff EG).
  assert (ND : NoDup (keys diff)). { rewrite Ediff. apply wf_NoDup. exact (filter_state (fun _ x => isinstance x "Param") s Ws). }
  rewrite (tree_map2_moved sgd _ diff diff); auto.
  2:{ clear -ND. induction diff as [|[k x] l IH]; [constructor|]. inversion ND as [|? ? _ N2]; subst. constructor; [split; [reflexivity|destruct x; cbn; auto]|now apply IH]. }
  2:{ intros k x Hx. rewrite Ediff in Hx. apply (filter_get s (fun _ x => isinstance x "Param")) in Hx as [Hx _]; [|now apply wf_NoDup]. apply (get_state_plain w r s W Gs k). now apply dget_In. }
  cbn [rbind]. pose proof LK2 as [Wr2 Vr2 Nr2 Lr2 _ _ _ _ _ _ _].
  destruct (param_parts w2 r Wr2 Vr2) as (s2 & d2 & Gs2 & Ws2 & Gd2 & Ep2).
  pose proof (G2 s1 Gs1) as G2'. rewrite Gs2 in G2'. injection G2' as E2.
  assert (FM : fits w1 s1 (moved sgd (D (loss_with false f w r) diff) diff params)). { rewrite Epar. apply (moved_fits (fun _ x => isinstance x "Param") w1 r); auto. rewrite Epar in Vp. exact Vp. }
  destruct (over_params w1 s1 _ Ws1 FM) as [O1 O2]; [now rewrite <- Epar|rewrite moved_keys; now rewrite Epar|]. rewrite <- E2 in O1, O2.
  eexists v', _, _. split; [reflexivity|]. split.
  { rewrite Ep2. destruct Hst as (_ & Hd & _). assert (d2 = d) by congruence. subst d2. rewrite O1, O2, Eq. do 3 f_equal. f_equal. f_equal.
    apply filter_ext_in. intros [k x] Hx. cbn. rewrite (Q2 s1 k x Gs1); [now rewrite negb_involutive|]. apply In_dget; [now apply wf_NoDup|exact Hx]. }
  do 8 (split; [assumption|]). assumption.
Qed.
Lemma functional_loop_ok D sgd r l : differentiates D -> forall w w' v a b d t, In "jax.Array" (w_nodes w) -> trained D sgd (FType "Param") (params_alone r) r w l w' ->
  wf_world w -> valid w r -> names_ok w r -> live w r -> wf_world v -> w_nodes v = w_nodes w ->
  module_partition w r [FType "Param"; FEllipsis] = Ok (mkPure (Many [a; b]) d) ->
  exists v' a' b', functional_loop t D sgd d (map user_fun l) v a b = (v', Ok (a', b')) /\
    module_partition w' r [FType "Param"; FEllipsis] = Ok (mkPure (Many [a'; b']) d) /\ all_unchanged v v' /\ w_trace v' = w_trace v.
Proof.
  intros HD w w' v a b d t J T. revert v a b J. induction T as [w|w f diff w1 out params w2 l w3 Hf Hdiff Vd Hrun Hst HQ Hpar Vp Hup T IH]; intros v a b J W V N L Wv Nv Hp.
  - exists v, a, b. repeat split; auto. intros x o Ho. exact Ho.
  - destruct (functional_step_ok D sgd f w r diff w1 out params w2 v a b d t HD J Hf Hdiff Vd Hrun Hst HQ Hpar Vp Hup W V N L Wv Nv Hp)
      as (v1 & a1 & b1 & E & P1 & W2 & V2 & N2 & L2 & Nw & U1 & Wv1 & Nv1 & T1).
    cbn [map functional_loop]. rewrite E. destruct (IH v1 a1 b1) as (v2 & a2 & b2 & E2 & P2 & U2 & T2); auto; [now rewrite Nw|congruence|].
    exists v2, a2, b2. split; [exact E2|]. split; [exact P2|]. split; [intros x o Ho; apply U2, U1, Ho|congruence].
Qed.
