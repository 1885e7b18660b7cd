(** Train_proofs: about TrainState. *)
From Coq Require Import Lia.
From Verif Require Import PyBase PyBaseFacts ValuesM Spec_Eq ValuesFacts PytreeM Spec_Pytree Pytree_proofs PtreeM Ptree_proofs StateM ModuleM TrainM Spec_Train.
Local Open Scope string_scope.
Local Open Scope list_scope.

(** A plain class whose [__init__] assigns new fields. *)
Lemma new_plain k args h init : k_fields k = None -> NoDup (keys args) ->
  (forall n a, In (n, a) args -> user_name n /\ wf_attr a) ->
  (forall h1, nth_error h1 (List.length h) = Some (mkPobj k [(F_SORTED, FNames [F_SORTED]); (F_MUTABLE, FAttr (ARaw (PyBool true))); (F_INIT, FAttr (ARaw (PyBool true)))]) ->
     init h1 = set_all (List.length h) args h1) ->
  let al := map (fun kv : string * attr => (fst kv, FAttr (snd kv))) args in
  pnew k init h = (h ++ [mkPobj k ((F_SORTED, FNames (sorted_names ((F_SORTED, FNames []) :: al))) :: al)], Ok tt).
Proof.
  intros KF ND AR IN al. unfold pnew. set (r := List.length h).
  set (h0 := (h ++ [mkPobj k [(F_SORTED, FNames [F_SORTED])]])%list).
  assert (H0 : nth_error h0 r = Some (mkPobj k [(F_SORTED, FNames [F_SORTED])])).
  { unfold h0, r. rewrite nth_error_app2 by lia. now rewrite Nat.sub_diag. }
  unfold with_marker. rewrite H0. cbn [p_vars].
  match goal with |- context [nth_error (set_pvars h0 r ?x) r] => set (d1 := x) end.
  rewrite (set_pvars_same h0 r d1 _ H0). cbn [p_vars p_class]. rewrite set_pvars_set.
  match goal with |- context [init (set_pvars h0 r ?x)] => set (d2 := x) end.
  rewrite IN by (exact (set_pvars_same h0 r d2 _ H0)). fold r.
  rewrite (set_all_open r args (set_pvars h0 r d2) (mkPobj k d2)); cbn [p_vars].
  2: { exact (set_pvars_same h0 r d2 _ H0). }
  2: { vm_compute. tauto. }
  2: { exact ND. }
  2: { intros n v I. destruct (AR n v I) as [U W]. split; [exact W|].
       destruct (user_name_not n U) as (U1 & U2 & U3). change (keys d2) with [F_SORTED; F_MUTABLE; F_INIT].
       intros [H|[H|[H|[]]]]; congruence. }
  rewrite set_pvars_set. fold al.
  rewrite (set_pvars_same h0 r _ _ H0). cbn [p_vars p_class].
  change (dmem F_INIT (d2 ++ al)) with true. cbn iota. rewrite set_pvars_set. rewrite (set_pvars_same h0 r _ _ H0). cbn [p_vars p_class].
  change (ddel F_INIT (d2 ++ al)) with ((F_SORTED, FNames [F_SORTED]) :: (F_MUTABLE, FAttr (ARaw (PyBool true))) :: al).
  match goal with |- context [dmem F_MUTABLE ?x] => change (dmem F_MUTABLE x) with true end. cbn iota.
  rewrite set_pvars_set. rewrite (set_pvars_same h0 r _ _ H0). cbn [p_vars p_class].
  match goal with |- context [ddel F_MUTABLE ?x] => change (ddel F_MUTABLE x) with ((F_SORTED, FNames [F_SORTED]) :: al) end.
  rewrite KF. cbn [wrap_fields]. rewrite set_pvars_set.
  f_equal. unfold set_pvars. rewrite H0. unfold h0, r. rewrite list_set_app_r by lia. rewrite Nat.sub_diag.
  cbn [list_set]. do 3 f_equal. cbn [dset]. change (String.eqb F_SORTED F_SORTED) with true. cbn iota. f_equal. f_equal. f_equal.
  unfold sorted_names. apply sort_keys_ext. reflexivity.
Qed.

Section New.
Variable tx_init : pyval -> pyval -> result pyval.
Variable asarray : pyval -> result pyval.

Definition tnode (v : pyval) : container := mkCont TreeNode_cls [] v.
Lemma tnode_wf v : wf_container (tnode v).
Proof.
  split; [constructor|]. split; [intros []|]. split; [cbn; tauto|]. split; [intros; reflexivity|]. cbn. discriminate.
Qed.
Lemma tree_node_eq v : tree_node v = Ok (ACont (tnode v)).
Proof. reflexivity. Qed.

Lemma psetattr_new h r o n v : nth_error h r = Some o -> In F_INIT (keys (p_vars o)) -> ~ In n (keys (p_vars o)) -> wf_attr v ->
  psetattr h r n v = (set_pvars h r (p_vars o ++ [(n, FAttr v)]), Ok tt).
Proof.
  intros O I N W. pose proof (set_all_open r [(n, v)] h o O I) as H. cbn [set_all] in H.
  assert (E : match psetattr h r n v with (h1, Ok _) => (h1, Ok tt) | (h1, Err e) => (h1, Err e) end
              = (set_pvars h r (p_vars o ++ [(n, FAttr v)]), Ok tt)).
  { apply H. constructor; [intros []|constructor]. intros k' v' [E|[]]. injection E as <- <-. auto. }
  destruct (psetattr h r n v) as [h1 [[]|e]]; [exact E|discriminate].
Qed.

Lemma train_init_set_all h r mdef params tx step kw s0 n0 o :
  nth_error h r = Some o -> In F_INIT (keys (p_vars o)) ->
  (forall n, In n ["moduledef"; "params"; "tx"; "opt_state"; "step"] -> ~ In n (keys (p_vars o))) ->
  tx_init tx params = Ok s0 -> asarray step = Ok n0 ->
  train_init tx_init asarray r mdef params tx step kw h =
  set_all r (("moduledef", ARaw mdef) :: ("params", ACont (tnode params)) :: ("tx", ARaw tx) ::
             ("opt_state", ACont (tnode s0)) :: ("step", ACont (tnode n0)) :: kw) h.
Proof.
  intros O I NK T A. unfold train_init. rewrite !tree_node_eq. cbn [heval set_all].
  rewrite (psetattr_new h r o "moduledef" _ O I) by (cbn; auto; apply NK; cbn; auto). cbn [hbind].
  pose proof (set_pvars_same h r (p_vars o ++ [("moduledef", FAttr (ARaw mdef))]) o O) as O1.
  assert (NW : forall n, ~ In n (keys (p_vars o)) -> ~ In n ["moduledef"] -> ~ In n (keys (p_vars o ++ [("moduledef", FAttr (ARaw mdef))]))).
  { intros n H1 H2 H. rewrite keys_app in H. apply in_app_or in H as [H|H]; auto. }
  rewrite (psetattr_new _ r _ "params" _ O1); cbn [p_vars]; try exact (tnode_wf params).
  2: { rewrite keys_app. apply in_or_app. auto. }
  2: { apply NW; [apply NK; cbn; auto|]. intros [H|[]]. discriminate. }
  rewrite set_pvars_set. cbn [hbind].
  pose proof (set_pvars_same h r ((p_vars o ++ [("moduledef", FAttr (ARaw mdef))]) ++ [("params", FAttr (ACont (tnode params)))]) o O) as O2.
  set (d2 := (p_vars o ++ [("moduledef", FAttr (ARaw mdef))]) ++ [("params", FAttr (ACont (tnode params)))]) in *.
  assert (K2 : keys d2 = keys (p_vars o) ++ ["moduledef"; "params"]).
  { unfold d2. rewrite !keys_app. cbn. now rewrite <- app_assoc. }
  assert (I2 : In F_INIT (keys d2)) by (rewrite K2; apply in_or_app; auto).
  rewrite (psetattr_new _ r _ "tx" _ O2); cbn [p_vars]; try exact Logic.I; try exact I2.
  2: { rewrite K2. intros H. apply in_app_or in H as [H|[H|[H|[]]]]; try discriminate. revert H. apply NK. cbn; tauto. }
  rewrite set_pvars_set. cbn [hbind]. set (d3 := d2 ++ [("tx", FAttr (ARaw tx))]) in *.
  pose proof (set_pvars_same h r d3 o O) as O3.
  assert (RP : pread (set_pvars h r d3) r "params" = Ok params).
  { unfold pread, pgetattr. rewrite O3. cbn [p_vars]. unfold d3, d2. rewrite !dget_app.
    rewrite (proj2 (dget_None "params" (p_vars o))) by (apply NK; cbn; auto). reflexivity. }
  rewrite RP. cbn [heval]. rewrite T. cbn [heval]. rewrite tree_node_eq. cbn [heval].
  assert (K3 : keys d3 = keys (p_vars o) ++ ["moduledef"; "params"; "tx"]).
  { unfold d3. rewrite keys_app, K2. cbn. now rewrite <- app_assoc. }
  rewrite (psetattr_new _ r _ "opt_state" _ O3); cbn [p_vars]; try exact (tnode_wf s0).
  2: { rewrite K3. apply in_or_app; auto. }
  2: { rewrite K3. intros H. apply in_app_or in H as [H|[H|[H|[H|[]]]]]; try discriminate. revert H. apply NK. cbn; tauto. }
  rewrite set_pvars_set. cbn [hbind]. rewrite A. cbn [heval hbind]. rewrite tree_node_eq. cbn [heval].
  set (d4 := d3 ++ [("opt_state", FAttr (ACont (tnode s0)))]) in *.
  pose proof (set_pvars_same h r d4 o O) as O4.
  assert (K4 : keys d4 = keys (p_vars o) ++ ["moduledef"; "params"; "tx"; "opt_state"]).
  { unfold d4. rewrite keys_app, K3. cbn. now rewrite <- app_assoc. }
  rewrite (psetattr_new _ r _ "step" _ O4); cbn [p_vars]; try exact (tnode_wf n0).
  2: { rewrite K4. apply in_or_app; auto. }
  2: { rewrite K4. intros H. apply in_app_or in H as [H|[H|[H|[H|[H|[]]]]]]; try discriminate. revert H. apply NK. cbn; tauto. }
  reflexivity.
Qed.

Theorem train_new_ok h mdef params tx step kw s0 n0 :
  tx_init tx params = Ok s0 -> asarray step = Ok n0 -> NoDup (keys kw) ->
  (forall n a, In (n, a) kw -> user_name n /\ wf_attr a /\ ~ In n ["self"; "moduledef"; "params"; "tx"; "opt_state"; "step"]) ->
  exists o, train_new tx_init asarray h mdef params tx step kw = (h ++ [o], Ok tt) /\
    train_obj o mdef params tx s0 n0 /\
    keys (p_vars o) = F_SORTED :: "moduledef" :: "params" :: "tx" :: "opt_state" :: "step" :: keys kw /\
    (forall n a, dget n kw = Some a -> dget n (p_vars o) = Some (FAttr a)).
Proof.
  intros T A ND KW. unfold train_new.
  assert (EX : existsb (fun n => dmem n kw) train_params = false).
  { apply not_true_iff_false. intros H. apply existsb_exists in H as (n & I & H). apply dmem_In in H.
    apply in_map_iff in H as ([n' a] & <- & H). destruct (KW n' a H) as (_ & _ & N). apply N. cbn [fst] in I.
    unfold train_params in I. cbn in I |- *. tauto. }
  rewrite EX. clear EX.
  set (args := ("moduledef", ARaw mdef) :: ("params", ACont (tnode params)) :: ("tx", ARaw tx) ::
             ("opt_state", ACont (tnode s0)) :: ("step", ACont (tnode n0)) :: kw).
  assert (KR : forall n, In n (keys kw) -> ~ In n ["moduledef"; "params"; "tx"; "opt_state"; "step"]).
  { intros n I. apply in_map_iff in I as ([n' a] & <- & I). destruct (KW n' a I) as (_ & _ & N). intros J. apply N. now right. }
  assert (NDA : NoDup (keys args)).
  { cbn [keys args map fst]. fold (keys kw).
    repeat (constructor; [cbn [In]; intros H; repeat (destruct H as [H|H]; [discriminate|]); exact (KR _ H ltac:(cbn; tauto))|]). exact ND. }
  assert (AR : forall n a, In (n, a) args -> user_name n /\ wf_attr a).
  { intros n a I. unfold args in I. cbn [In] in I.
    repeat (destruct I as [I|I]; [injection I as <- <-; split; [reflexivity|try exact Logic.I; apply tnode_wf]|]).
    destruct (KW n a I) as (U & W & _). auto. }
  rewrite (new_plain TrainState_cls args h _ eq_refl NDA AR).
  2: { intros h1 H1. unfold args. eapply train_init_set_all; eauto.
       - cbn; tauto.
       - intros n I. cbn [p_vars keys map fst]. cbn in I. intros J. cbn in J.
         repeat (destruct I as [I|I]; [subst n; repeat (destruct J as [J|J]; [discriminate|]); exact J|]). exact I. }
  set (al := map (fun kv : string * attr => (fst kv, FAttr (snd kv))) args).
  eexists. split; [reflexivity|]. cbn [p_vars p_class].
  assert (KAL : keys al = keys args) by (unfold al, keys; rewrite map_map; reflexivity).
  assert (NS : ~ In F_SORTED (keys args)).
  { intros I. apply in_map_iff in I as ([n a] & E & I). cbn [fst] in E. subst n. destruct (AR _ _ I) as [U _].
    destruct (user_name_not _ U) as (_ & _ & X). now apply X. }
  assert (GS : forall n, n <> F_SORTED -> forall l, dget n ((F_SORTED, FNames l) :: al) = option_map FAttr (dget n args)).
  { intros n NE l. cbn [dget]. apply String.eqb_neq in NE. rewrite NE. unfold al. apply dget_map. }
  split; [|split].
  - split; [reflexivity|]. split; [|split; [|split; [|split; [|split; [|split; [|split; [|split]]]]]]].
    + split; cbn [p_vars].
      * cbn [keys map fst]. fold (keys al). rewrite KAL. constructor; auto.
      * intros k f G. destruct (string_dec k F_SORTED) as [->|NE].
        { cbn [dget] in G. change (String.eqb F_SORTED F_SORTED) with true in G. injection G as <-. exact Logic.I. }
        rewrite GS in G by exact NE. destruct (dget k args) as [a|] eqn:E; [|discriminate]. injection G as <-.
        apply dget_In in E. exact (proj2 (AR _ _ E)).
    + unfold sealed. cbn [p_vars keys map fst]. fold (keys al). rewrite KAL.
      split; (intros [H|H]; [discriminate|]); apply in_map_iff in H as ([n a] & E & I); cbn [fst] in E; subst n;
        destruct (AR _ _ I) as [U _]; destruct (user_name_not _ U) as (X & Y & _); congruence.
    + unfold fields_sorted. cbn [p_vars dget]. change (String.eqb F_SORTED F_SORTED) with true. cbn iota. unfold sorted_names.
      do 2 f_equal. apply sort_keys_ext. reflexivity.
    + intros n l G. cbn [p_vars] in G. destruct (string_dec n F_SORTED) as [E|NE]; [exact E|]. rewrite GS in G by exact NE.
      destruct (dget n args); discriminate.
    + reflexivity.
    + reflexivity.
    + exists (tnode params). repeat split.
    + exists (tnode s0). repeat split.
    + exists (tnode n0). repeat split.
  - cbn [keys map fst]. fold (keys al). rewrite KAL. reflexivity.
  - intros n a G. assert (IN : In n (keys kw)) by (eapply dget_In_keys; eauto).
    rewrite GS.
    + pose proof (KR n IN) as NR. unfold args. cbn [dget].
      repeat match goal with |- context [String.eqb n ?s] => destruct (String.eqb_spec n s); [subst n; exfalso; apply NR; cbn; tauto|] end.
      now rewrite G.
    + intros ->. apply NS. unfold args. cbn [keys map fst]. fold (keys kw). cbn. tauto.
Qed.
End New.

Section Train.
Variable tx_update : pyval -> pyval -> pyval -> pyval -> result (pyval * pyval).
Variable apply_updates : pyval -> pyval -> result pyval.
Variable add_one : pyval -> result pyval.

Lemma pread_raw h r o n v : nth_error h r = Some o -> dget n (p_vars o) = Some (FAttr (ARaw v)) -> pread h r n = Ok v.
Proof. intros O G. unfold pread, pgetattr. now rewrite O, G. Qed.
Lemma pread_node h r o n v : nth_error h r = Some o -> holds_node o n v -> pread h r n = Ok v.
Proof. intros O (c & G & _ & _ & E). unfold pread, pgetattr. rewrite O, G. cbn. now rewrite E. Qed.
Lemma pread_holds h r o n v : nth_error h r = Some o -> holds o n v -> pread h r n = Ok v.
Proof. intros O [G|(c & G & E)]; unfold pread, pgetattr; rewrite O, G; cbn; congruence. Qed.

Lemma existsb_none kw l : (forall n, In n l -> ~ In n (keys kw)) -> existsb (fun n => @dmem attr n kw) l = false.
Proof.
  intros H. apply not_true_iff_false. intros E. apply existsb_exists in E as (n & I & E). apply dmem_In in E. exact (H n I E).
Qed.

(** keyword arguments a call accepts *)
Definition good_kw (o : pobj) (kw : dict attr) : Prop :=
  NoDup (keys kw) /\ forall k v, In (k, v) kw -> wf_attr v /\ user_name k /\ ~ In k reserved /\
                                exists old new, dget k (p_vars o) = Some old /\ stores old v new.

Theorem step_ok h r o mdef params tx opt step g kw u opt' params' step' :
  nth_error h r = Some o -> train_obj o mdef params tx opt step -> good_kw o kw ->
  tx_update tx g opt params = Ok (u, opt') -> apply_updates params u = Ok params' -> add_one step = Ok step' ->
  exists o', apply_gradients tx_update apply_updates add_one h r g kw = (h ++ [o'], Ok tt) /\
    train_obj o' mdef params' tx opt' step' /\ keys (p_vars o') = keys (p_vars o) /\
    (forall n, ~ In n (keys kw) -> ~ In n ["params"; "opt_state"; "step"] -> dget n (p_vars o') = dget n (p_vars o)) /\
    (forall k v, dget k kw = Some v -> exists old new, dget k (p_vars o) = Some old /\ stores old v new /\
                                                      dget k (p_vars o') = Some new).
Proof.
  intros O (PC & WF & SE & FS & ON & MD & TX & HP & HO & HS) [ND KW] TU AU AO.
  assert (NR : forall n, In n reserved -> ~ In n (keys kw)).
  { intros n I J. apply in_map_iff in J as ([n' a] & <- & J). exact (proj1 (proj2 (proj2 (KW n' a J))) I). }
  assert (US : ~ In F_SORTED (keys kw)).
  { intros J. apply in_map_iff in J as ([n' a] & E & J). cbn [fst] in E. subst n'. destruct (KW _ a J) as (_ & U & _). now vm_compute in U. }
  unfold apply_gradients.
  rewrite existsb_none by (intros n I; apply NR; cbn in I |- *; tauto).
  rewrite (pread_raw h r o "tx" tx O TX), (pread_node h r o "opt_state" opt O HO), (pread_node h r o "params" params O HP).
  cbn [heval]. rewrite TU. cbn [heval fst snd]. rewrite AU. cbn [heval]. rewrite (pread_node h r o "step" step O HS). cbn [heval].
  rewrite AO. cbn [heval].
  rewrite existsb_none by (intros n I; apply NR; cbn in I |- *; tauto).
  set (kws := ("params", ARaw params') :: ("opt_state", ARaw opt') :: ("step", ARaw step') :: kw).
  assert (NDK : NoDup (keys kws)).
  { unfold kws. cbn [keys map fst]. fold (keys kw).
    repeat (constructor; [cbn [In]; intros H; repeat (destruct H as [H|H]; [discriminate|]); revert H; apply NR; cbn; tauto|]). exact ND. }
  assert (ST : forall k v, In (k, v) kws -> wf_attr v /\ exists old new, dget k (p_vars o) = Some old /\ stores old v new).
  { intros k v I. unfold kws in I. cbn [In] in I.
    destruct I as [I|[I|[I|I]]].
    - injection I as <- <-. split; [exact Logic.I|]. destruct HP as (c & G & _). exists (FAttr (ACont c)). eexists. split; [exact G|]. reflexivity.
    - injection I as <- <-. split; [exact Logic.I|]. destruct HO as (c & G & _). exists (FAttr (ACont c)). eexists. split; [exact G|]. reflexivity.
    - injection I as <- <-. split; [exact Logic.I|]. destruct HS as (c & G & _). exists (FAttr (ACont c)). eexists. split; [exact G|]. reflexivity.
    - destruct (KW k v I) as (W & _ & _ & X). auto. }
  assert (FK : k_fields (p_class o) = None) by (rewrite PC; reflexivity).
  destruct (replace_plain h r o kws O FK WF (proj2 SE) NDK ST) as (o' & E & PC' & K' & FR & GV).
  exists o'. split; [exact E|].
  assert (NEW : forall n v', In n ["params"; "opt_state"; "step"] -> dget n kws = Some (ARaw v') -> (exists v, holds_node o n v) -> holds_node o' n v').
  { intros n v' _ D (v & c & G & C1 & C2 & _). destruct (GV n _ D) as (old & new & G1 & S & G2). rewrite G in G1. injection G1 as <-.
    cbn [stores] in S. subst new. eexists. split; [exact G2|]. cbn. auto. }
  assert (OLD : forall n, ~ In n (keys kw) -> ~ In n ["params"; "opt_state"; "step"] -> dget n (p_vars o') = dget n (p_vars o)).
  { intros n N1 N2. apply FR. unfold kws. cbn [keys map fst]. fold (keys kw). cbn [In]. cbn [In] in N2. tauto. }
  assert (KWV : forall k v, dget k kw = Some v -> dget k kws = Some v).
  { intros k v G. assert (I : In k (keys kw)) by (eapply dget_In_keys; eauto). unfold kws. cbn [dget].
    repeat match goal with |- context [String.eqb k ?s] => destruct (String.eqb_spec k s) as [Q|_]; [subst k; exfalso; revert I; apply NR; cbn; tauto|] end. exact G. }
  split; [|split; [exact K'|split; [exact OLD|intros k v G; apply GV, KWV, G]]].
  assert (WF' : wf_fields o').
  { split; [rewrite K'; exact (proj1 WF)|]. intros k f G. destruct (in_dec string_dec k (keys kws)) as [I|NI].
    - apply in_map_iff in I as ([k' v] & Q & I). cbn [fst] in Q. subst k'.
      destruct (GV k v (In_dget k v kws NDK I)) as (old & new & G1 & S & G2). rewrite G in G2. injection G2 as ->.
      eapply stores_wf; [|exact (proj1 (ST k v I))|exact S]. exact (proj2 WF k old G1).
    - rewrite FR in G by exact NI. exact (proj2 WF k f G). }
  split; [congruence|]. split; [exact WF'|]. split; [unfold sealed; rewrite K'; exact SE|]. split; [|split; [|split; [|split; [|split; [|split]]]]].
  - unfold fields_sorted. rewrite OLD; [|exact US|cbn; intros H; repeat (destruct H as [H|H]; [discriminate|]); exact H].
    rewrite FS. do 2 f_equal. apply sort_keys_ext. congruence.
  - intros n l G. destruct (in_dec string_dec n (keys kws)) as [I|NI]; [|rewrite FR in G by exact NI; exact (ON n l G)].
    apply in_map_iff in I as ([k' v] & Q & I). cbn [fst] in Q. subst k'.
    destruct (GV n v (In_dget n v kws NDK I)) as (old & new & G1 & S & G2). rewrite G in G2. injection G2 as <-.
    destruct old as [[y|c]|l']; cbn [stores] in S; [discriminate|destruct v; [discriminate|destruct S as (_ & _ & S); discriminate]|discriminate].
  - rewrite OLD; [exact MD|apply NR; cbn; tauto|cbn; intros H; repeat (destruct H as [H|H]; [discriminate|]); exact H].
  - rewrite OLD; [exact TX|apply NR; cbn; tauto|cbn; intros H; repeat (destruct H as [H|H]; [discriminate|]); exact H].
  - apply NEW; [cbn; tauto|reflexivity|eauto].
  - apply NEW; [cbn; tauto|reflexivity|eauto].
  - apply NEW; [cbn; tauto|reflexivity|eauto].
Qed.

(** *** the loop *)
Lemma opt_run_inv upd au p s g gs p2 s2 : opt_run upd au p s (g :: gs) p2 s2 ->
  exists u s1 p1, upd g s p = Ok (u, s1) /\ au p u = Ok p1 /\ opt_run upd au p1 s1 gs p2 s2.
Proof. intros H. inversion H; subst. eauto 7. Qed.
Lemma adds_inv n x z : adds add_one (S n) x z -> exists y, add_one x = Ok y /\ adds add_one n y z.
Proof. intros H. inversion H; subst. eauto. Qed.

(** plain values for fields the object has *)
Definition plain_kw (o : pobj) (kw : dict attr) : Prop :=
  NoDup (keys kw) /\ forall k v, In (k, v) kw -> user_name k /\ ~ In k reserved /\ In k (keys (p_vars o)) /\ exists x, v = ARaw x.

Lemma plain_good o kw : plain_kw o kw -> good_kw o kw.
Proof.
  intros [ND H]. split; [exact ND|]. intros k v I. destruct (H k v I) as (U & R & K & x & ->).
  split; [exact Logic.I|]. split; [exact U|]. split; [exact R|].
  destruct (dget k (p_vars o)) as [f|] eqn:G; [|apply dget_None in G; contradiction].
  exists f. destruct f as [[y|c]|l]; eexists; (split; [reflexivity|]); cbn [stores]; reflexivity.
Qed.

Lemma stores_holds o o' k old x new : dget k (p_vars o) = Some old -> stores old (ARaw x) new -> dget k (p_vars o') = Some new -> holds o' k x.
Proof.
  intros _ S G. destruct old as [[y|c]|l]; cbn [stores] in S; subst new; [left; exact G|right; eexists; split; [exact G|reflexivity]|left; exact G].
Qed.

Theorem loop_ok : forall gs h r o mdef params tx opt step params' opt' step',
  nth_error h r = Some o -> train_obj o mdef params tx opt step -> Forall (plain_kw o) (map snd gs) ->
  opt_run (tx_update tx) apply_updates params opt (map fst gs) params' opt' -> adds add_one (List.length gs) step step' ->
  exists os o', train_loop tx_update apply_updates add_one h r gs = (h ++ os, Ok (if gs then r else List.length h + pred (List.length gs))) /\
    List.length os = List.length gs /\
    nth_error (h ++ os) (if gs then r else List.length h + pred (List.length gs)) = Some o' /\
    train_obj o' mdef params' tx opt' step' /\ keys (p_vars o') = keys (p_vars o) /\
    (forall n v, ~ In n reserved -> holds o n v -> holds o' n (last_given n (map snd gs) v)).
Proof.
  induction gs as [|[g kw] gs IH]; intros h r o mdef params tx opt step params' opt' step' O T F R A.
  - inversion R; subst. inversion A; subst. exists [], o. rewrite app_nil_r. cbn [train_loop map last_given fold_left]. repeat split; auto; apply T.
  - apply opt_run_inv in R as (u & s1 & p1 & U & AU & R). apply adds_inv in A as (y & A1 & A).
    cbn [map snd] in F. inversion F as [|? ? F1 F2]; subst.
    destruct (step_ok h r o mdef params tx opt step g kw u s1 p1 y O T (plain_good o kw F1) U AU A1)
      as (o1 & E & T1 & K1 & FR & KV).
    cbn [train_loop]. rewrite E. cbn [hbind].
    assert (O1 : nth_error (h ++ [o1]) (List.length h) = Some o1) by (rewrite nth_error_app2 by lia; now rewrite Nat.sub_diag).
    assert (F' : Forall (plain_kw o1) (map snd gs)).
    { eapply Forall_impl; [|exact F2]. intros d [ND H]. split; [exact ND|]. intros k v I. rewrite K1. exact (H k v I). }
    destruct (IH (h ++ [o1]) (List.length h) o1 mdef p1 tx s1 y params' opt' step' O1 T1 F' R A)
      as (os & o' & E' & L & O' & T' & K' & HD).
    assert (IX : (if gs then List.length h else List.length (h ++ [o1]) + pred (List.length gs)) = List.length h + pred (List.length ((g, kw) :: gs))).
    { destruct gs; cbn [List.length pred]; [lia|]. rewrite app_length. cbn [List.length]. lia. }
    exists (o1 :: os), o'. rewrite E'.
    replace (h ++ o1 :: os) with ((h ++ [o1]) ++ os) by (rewrite <- app_assoc; reflexivity).
    rewrite IX in *. split; [reflexivity|]. split; [cbn; lia|]. split; [exact O'|]. split; [exact T'|]. split; [congruence|].
    intros n v NR H. cbn [map snd last_given fold_left]. apply HD; [exact NR|].
    destruct (dget n kw) as [a|] eqn:G.
    + pose proof (proj2 F1 n a (dget_In _ _ _ G)) as (_ & _ & _ & x & ->).
      destruct (KV n _ G) as (old & new & G1 & S & G2). exact (stores_holds o o1 n old x new G1 S G2).
    + apply dget_None in G. unfold holds in *. rewrite FR; auto. intros J. apply NR. cbn in J |- *. tauto.
Qed.
End Train.

(** ** the TrainState as a jax pytree *)
Lemma tree_of_get o n : dget n (map (fun nf => (fst nf, tree_of_field (snd nf))) (p_vars o)) = option_map tree_of_field (dget n (p_vars o)).
Proof. apply dget_map. Qed.

Lemma insert_keys_ext2 {A B} k (v : A) (v' : B) : forall d e, keys d = keys e ->
  keys (insert_by_key (k, v) d) = keys (insert_by_key (k, v') e).
Proof.
  induction d as [|[a x] d IH]; intros [|[b y] e] E; try discriminate; [reflexivity|].
  unfold keys in E. cbn [map fst] in E. injection E as -> E. cbn [insert_by_key fst]. destruct (String.leb k b).
  - cbn [keys map fst]. f_equal. f_equal. exact E.
  - cbn [keys map fst]. f_equal. apply IH. exact E.
Qed.
Lemma sort_keys_ext2 {A B} : forall (d : dict A) (e : dict B), keys d = keys e -> keys (sort_by_key d) = keys (sort_by_key e).
Proof.
  induction d as [|[a x] d IH]; intros [|[b y] e] E; try discriminate; [reflexivity|].
  unfold keys in E. cbn [map fst] in E. injection E as -> E. cbn [sort_by_key]. apply insert_keys_ext2. apply IH. exact E.
Qed.

Lemma wf_train_tree o : wf_fields o -> fields_sorted o -> (forall n l, dget n (p_vars o) = Some (FNames l) -> n = F_SORTED) ->
  Spec_Ptree.wf_tree (tree_of o).
Proof.
  intros [ND WF] FS ON. unfold tree_of. constructor.
  - unfold keys. rewrite map_map. exact ND.
  - rewrite tree_of_get, FS. cbn [option_map tree_of_field]. do 2 f_equal. apply sort_keys_ext2. unfold keys. now rewrite map_map.
  - intros n x G NE. rewrite tree_of_get in G. destruct (dget n (p_vars o)) as [f|] eqn:E; [|discriminate]. injection G as <-.
    pose proof (WF n f E) as W. destruct f as [[v|c]|l]; cbn [tree_of_field].
    + constructor.
    + constructor; [|reflexivity|constructor]. exact W.
    + elim NE. exact (ON n l E).
Qed.

(** the treedef depends on static fields and on the treedefs of node fields *)
Lemma gathers_def sel lk lk' names ls ds st : gathers sel lk names ls ds st ->
  forall ls' ds' st', gathers sel lk' names ls' ds' st' ->
  (forall n x y, In n names -> lk n = Some x -> lk' n = Some y -> sel x = sel y /\ (sel x = false -> x = y) /\
     (sel x = true -> exists l l' d, flatten x = Ok (l, d) /\ flatten y = Ok (l', d))) ->
  ds = ds' /\ st = st'.
Proof.
  intros G. induction G as [|n names x l t ls ds st K S F G IH|n names x ls ds st K S G IH]; intros ls' ds' st' G' H.
  - inversion G'. auto.
  - inversion G' as [|? ? y l' t' ls1 ds1 st1 K1 S1 F1 G1|? ? y ls1 ds1 st1 K1 S1 G1]; subst.
    + destruct (H n x y (or_introl eq_refl) K K1) as (_ & _ & X). destruct (X S) as (l0 & l0' & d0 & E1 & E2).
      rewrite F in E1. rewrite F1 in E2. injection E1 as -> ->. injection E2 as -> ->.
      destruct (IH _ _ _ G1) as [-> ->]; [intros n' x' y' I; apply H; now right|]. auto.
    + destruct (H n x y (or_introl eq_refl) K K1) as (X & _). congruence.
  - inversion G' as [|? ? y l' t' ls1 ds1 st1 K1 S1 F1 G1|? ? y ls1 ds1 st1 K1 S1 G1]; subst.
    + destruct (H n x y (or_introl eq_refl) K K1) as (X & _). congruence.
    + destruct (H n x y (or_introl eq_refl) K K1) as (_ & X & _). rewrite (X S) in *.
      destruct (IH _ _ _ G1) as [-> ->]; [intros n' x' y' I; apply H; now right|]. auto.
Qed.
Lemma gathers_ds sel lk names ls ds st : gathers sel lk names ls ds st ->
  forall n d, In (n, d) ds -> exists x l, lk n = Some x /\ sel x = true /\ flatten x = Ok (l, d) /\ incl l ls.
Proof.
  intros G. induction G as [|n names x l t ls ds st K S F G IH|n names x ls ds st K S G IH]; intros n' d' I; [contradiction| |auto].
  destruct I as [E|I].
  - injection E as <- <-. exists x, l. split; [exact K|]. split; [exact S|]. split; [exact F|]. now apply incl_appl.
  - destruct (IH n' d' I) as (y & l' & A & B & C & D). exists y, l'. split; [exact A|]. split; [exact B|]. split; [exact C|]. now apply incl_appr.
Qed.

Definition fflat (f : pfield) : option (list ptree * tdef) := match flatten (tree_of_field f) with Ok x => Some x | Err _ => None end.
Lemma field_flat f : exists l d, flatten (tree_of_field f) = Ok (l, d).
Proof.
  assert (V : forall v, exists l d, flatten (TVal v) = Ok (l, d)) by (intros v; destruct v; cbn; eauto).
  destruct f as [[v|c]|l]; cbn [tree_of_field]; [apply V| |cbn; eauto].
  cbn [flatten]. destruct (registered (c_cls c)); [|destruct (cls_eqb (c_cls c) Static_cls); eauto].
  destruct (V (c_val c)) as (l & d & E). fold (flatten (TVal (c_val c))) in *. rewrite E. cbn [rbind fst snd]. eauto.
Qed.

Theorem train_flatten o : wf_fields o -> fields_sorted o ->
  exists ls ds st, flatten (tree_of o) = Ok (ls, DObj (p_class o) ds st) /\
    gathers is_node_t (fun n => option_map tree_of_field (dget n (p_vars o))) (keys (sort_by_key (p_vars o))) ls ds st /\
    NoDup (keys st) /\ NoDup (keys ds) /\
    forall n, In n (keys (p_vars o)) <-> In n (keys ds) \/ In n (keys st).
Proof.
  intros [ND _] FS. unfold tree_of. rewrite flatten_obj.
  set (d := map (fun nf => (fst nf, tree_of_field (snd nf))) (p_vars o)).
  assert (KD : keys d = keys (p_vars o)) by (unfold d, keys; now rewrite map_map).
  assert (NDd : NoDup (keys d)) by now rewrite KD.
  destruct (names_of_sort d NDd) as [NS IS].
  assert (SK : keys (sort_by_key d) = keys (sort_by_key (p_vars o))) by (apply sort_keys_ext2; exact KD).
  assert (GD : forall n, dget n d = option_map tree_of_field (dget n (p_vars o))) by (intros n; apply dget_map).
  rewrite GD, FS. cbn [option_map tree_of_field].
  destruct (gathers_exists is_node_t (fun n => dget n d) (keys (sort_by_key d))) as (ls & ds & st & G).
  { intros n I. apply IS in I. destruct (dget n d) as [x|] eqn:E; [|apply dget_None in E; contradiction]. exists x. split; [reflexivity|].
    intros _. rewrite GD in E. destruct (dget n (p_vars o)) as [f|]; [|discriminate]. injection E as <-. apply field_flat. }
  rewrite <- SK. rewrite (gathers_gather _ _ _ _ _ _ G). cbn [rbind fst snd].
  destruct (gathers_names _ _ _ _ _ _ G NS) as (N1 & N2 & N3 & N4).
  rewrite (dict_of_nodup st N2). exists ls, ds, st. split; [reflexivity|]. split; [|split; [exact N2|split; [exact N1|]]].
  - clear - G GD. induction G; [constructor|eapply gt_node; eauto|eapply gt_static; eauto]; now rewrite <- GD.
  - intros n. rewrite <- N4, IS, KD. tauto.
Qed.
