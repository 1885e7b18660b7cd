From Coq Require Import Lia.
From Verif Require Import PyBase PyBaseFacts ValuesM Spec_Eq ValuesFacts FiltersM StateM Spec_State State_proofs ModuleM Spec_Module Graph_facts
  Dfs_proofs Update_proofs Write_proofs Clone_proofs Laws_proofs Prog_proofs DataclassM Spec_Dataclass.
Local Open Scope string_scope.
Local Open Scope list_scope.

(** ** Binding *)
Definition arg_of (names : list string) (args : list attr) (kw : dict attr) (n : string) : option attr :=
  match position n names with
  | None => None
  | Some i => match nth_error args i with Some a => Some a | None => dget n kw end
  end.
Lemma arg_cons m names a args kw n : arg_of (m :: names) (a :: args) kw n = if String.eqb n m then Some a else arg_of names args kw n.
Proof. unfold arg_of. cbn [position]. destruct (String.eqb n m); [reflexivity|]. destruct (position n names); reflexivity. Qed.
Lemma arg_nil names kw n : In n names -> arg_of names [] kw n = dget n kw.
Proof.
  unfold arg_of. intros I. assert (H : position n names <> None).
  { induction names as [|m t IH]; [destruct I|]. cbn [position]. destruct (String.eqb_spec n m) as [->|Q]; [discriminate|]. destruct I as [->|I]; [congruence|]. specialize (IH I). destruct (position n t); [discriminate|congruence]. }
  destruct (position n names) as [i|]; [|congruence]. destruct i; reflexivity.
Qed.
Lemma position_In n names i : position n names = Some i -> nth_error names i = Some n.
Proof.
  revert i. induction names as [|m t IH]; intros i H; [discriminate|]. cbn [position] in H. destruct (String.eqb_spec n m) as [->|Q]; [injection H as <-; reflexivity|].
  destruct (position n t) as [j|]; [|discriminate]. injection H as <-. cbn. apply IH. reflexivity.
Qed.
Lemma position_None n names : position n names = None <-> ~ In n names.
Proof.
  induction names as [|m t IH]; [cbn; tauto|]. cbn [position]. destruct (String.eqb_spec n m) as [->|Q].
  - split; [discriminate|]. intros H. exfalso. apply H. left. reflexivity.
  - destruct (position n t) as [i|]; cbn [option_map].
    + split; [discriminate|]. intros H. exfalso. destruct IH as [_ IH]. discriminate IH. intros J. apply H. right. exact J.
    + destruct IH as [IH _]. split; [|reflexivity]. intros _ [J|J]; [congruence|]. exact (IH eq_refl J).
Qed.
Definition bound (ps : dict fdecl) (args : list attr) (kw : dict attr) : Prop :=
  List.length args <= List.length ps /\
  (forall k, In k (keys kw) -> In k (keys ps) -> exists i, position k (keys ps) = Some i /\ List.length args <= i) /\
  (forall n f, In (n, f) ps -> arg_of (keys ps) args kw n = None -> has_default f = true).
Lemma keys_in {A} n (f : A) l : In (n, f) l -> In n (keys l).
Proof. intros I. unfold keys. apply in_map_iff. exists (n, f). auto. Qed.
Lemma bind_spec ps : forall args kw, NoDup (keys ps) ->
  (bound ps args kw /\ bind_params ps args kw = Ok (map (fun nf => (fst nf, arg_of (keys ps) args kw (fst nf))) ps)) \/
  (~ bound ps args kw /\ bind_params ps args kw = Err TypeError).
Proof.
  induction ps as [|[n f] t IH]; intros args kw ND.
  - destruct args as [|a args]; [left|right]; (split; [|reflexivity]).
    + split; [cbn; lia|]. split; [intros k _ []|intros n f []].
    + intros [H _]. cbn in H. lia.
  - cbn [keys map fst] in ND. apply NoDup_cons_iff in ND. destruct ND as [Nn ND]. cbn [bind_params].
    assert (MT : forall a args, map (fun nf : string * fdecl => (fst nf, arg_of (n :: keys t) (a :: args) kw (fst nf))) t = map (fun nf => (fst nf, arg_of (keys t) args kw (fst nf))) t).
    { intros a' args'. apply map_ext_in. intros [m g] I. cbn [fst]. f_equal. rewrite arg_cons. destruct (String.eqb_spec m n) as [->|Q]; [|reflexivity]. exfalso. apply Nn. eapply keys_in; eauto. }
    assert (MN : map (fun nf : string * fdecl => (fst nf, arg_of (n :: keys t) [] kw (fst nf))) t = map (fun nf => (fst nf, arg_of (keys t) [] kw (fst nf))) t).
    { apply map_ext_in. intros [m g] I. cbn [fst]. f_equal. rewrite !arg_nil; [reflexivity|eapply keys_in; eauto|right; eapply keys_in; eauto]. }
    destruct args as [|a args].
    + change (keys ((n, f) :: t)) with (n :: keys t). cbn [map fst]. rewrite (arg_nil (n :: keys t) kw n) by (left; reflexivity). rewrite MN.
      assert (BT : (dget n kw = None -> has_default f = true) -> (bound ((n, f) :: t) [] kw <-> bound t [] kw)).
      { intros HD. unfold bound. change (keys ((n, f) :: t)) with (n :: keys t). split; intros (A & B & C).
        - split; [cbn; lia|]. split.
          + intros k I J. assert (P : position k (keys t) <> None) by (rewrite position_None; tauto). destruct (position k (keys t)) as [i|]; [|congruence]. exists i. split; [reflexivity|cbn; lia].
          + intros m g I E. apply (C m g (or_intror I)). rewrite arg_nil in *; [exact E|eapply keys_in; eauto|right; eapply keys_in; eauto].
        - split; [cbn; lia|]. split.
          + intros k I J. assert (P : position k (n :: keys t) <> None) by (rewrite position_None; tauto). destruct (position k (n :: keys t)) as [i|]; [|congruence]. exists i. split; [reflexivity|cbn; lia].
          + intros m g [J|I] E; [injection J as <- <-; apply HD; rewrite arg_nil in E by (left; reflexivity); exact E|].
            apply (C m g I). rewrite arg_nil in *; [exact E|right; eapply keys_in; eauto|eapply keys_in; eauto]. }
      destruct (dget n kw) as [a|] eqn:G.
      * specialize (BT ltac:(discriminate)). destruct (IH [] kw ND) as [[B E]|[B E]]; rewrite E; cbn [rbind]; [left|right]; rewrite BT; auto.
      * destruct (has_default f) eqn:HD.
        -- specialize (BT ltac:(auto)). destruct (IH [] kw ND) as [[B E]|[B E]]; rewrite E; cbn [rbind]; [left|right]; rewrite BT; auto.
        -- right. split; [|reflexivity]. intros (_ & _ & C). rewrite (C n f (or_introl eq_refl)) in HD; [discriminate|]. rewrite arg_nil by (left; reflexivity). exact G.
    + destruct (dmem n kw) eqn:D.
      * right. split; [|reflexivity]. intros (_ & B & _). apply dmem_In in D. destruct (B n D (or_introl eq_refl)) as (i & P & L). change (keys ((n, f) :: t)) with (n :: keys t) in P. cbn [position] in P. rewrite String.eqb_refl in P. injection P as <-. cbn in L. lia.
      * apply dmem_false in D. change (keys ((n, f) :: t)) with (n :: keys t). cbn [map fst]. rewrite arg_cons, String.eqb_refl, MT.
        assert (BT : bound ((n, f) :: t) (a :: args) kw <-> bound t args kw).
        { unfold bound. change (keys ((n, f) :: t)) with (n :: keys t). cbn [List.length]. split; intros (A & B & C).
          - split; [lia|]. split.
            + intros k I J. destruct (B k I (or_intror J)) as (i & P & L). cbn [position] in P. destruct (String.eqb_spec k n) as [->|Q]; [contradiction|]. destruct (position k (keys t)) as [j|]; [|discriminate]. injection P as <-. exists j. split; [reflexivity|lia].
            + intros m g I E. apply (C m g (or_intror I)). rewrite arg_cons. destruct (String.eqb_spec m n) as [->|Q]; [exfalso; apply Nn; eapply keys_in; eauto|exact E].
          - split; [lia|]. split.
            + intros k I [<-|J]; [contradiction|]. destruct (B k I J) as (i & P & L). exists (S i). cbn [position]. destruct (String.eqb_spec k n) as [->|Q]; [contradiction|]. rewrite P. split; [reflexivity|lia].
            + intros m g [J|I] E; [injection J as <- <-; rewrite arg_cons, String.eqb_refl in E; discriminate|]. apply (C m g I). rewrite arg_cons in E. destruct (String.eqb m n); [discriminate|exact E]. }
        destruct (IH args kw ND) as [[B E]|[B E]]; rewrite E; cbn [rbind]; [left|right]; rewrite BT; auto.
Qed.
Lemma NoDup_params fs : NoDup (keys fs) -> NoDup (keys (params fs)).
Proof. apply NoDup_keys_filter. Qed.
Lemma params_get n f fs : NoDup (keys fs) -> (In (n, f) (params fs) <-> dget n fs = Some f /\ f_init f = true).
Proof.
  intros ND. unfold params. rewrite filter_In. cbn [snd]. split.
  - intros [I J]. split; [apply In_dget; assumption|exact J].
  - intros [G J]. split; [apply dget_In; exact G|exact J].
Qed.
Lemma bind_call_spec d args kw : NoDup (keys (d_fields d)) -> ~ In "self" (keys kw) ->
  (correct_call d args kw /\ bind_call (params (d_fields d)) args kw = Ok (map (fun nf => (fst nf, argument d args kw (fst nf))) (params (d_fields d)))) \/
  (~ correct_call d args kw /\ bind_call (params (d_fields d)) args kw = Err TypeError).
Proof.
  intros ND NS. unfold bind_call. change (fun nf : string * fdecl => (fst nf, argument d args kw (fst nf))) with (fun nf : string * fdecl => (fst nf, arg_of (keys (params (d_fields d))) args kw (fst nf))).
  assert (LP : List.length (parameters d) = List.length (params (d_fields d))) by (unfold parameters, keys; apply map_length).
  destruct (forallb (fun k => smem k (keys (params (d_fields d)))) (keys kw)) eqn:F.
  - rewrite forallb_forall in F. assert (X : correct_call d args kw <-> bound (params (d_fields d)) args kw).
    { unfold correct_call, bound. rewrite LP. split; intros (A & B & C).
      - split; [exact A|]. split; [intros k I _; exact (proj2 (B k I))|].
        intros n f I E. apply params_get in I; [|exact ND]. destruct I as [G J]. unfold has_default. specialize (C n f).
        destruct (f_default f) eqn:Q; try reflexivity. exfalso. apply C; [|exact G|exact E|reflexivity]. unfold parameters. eapply keys_in. apply (params_get n f _ ND). auto.
      - split; [exact A|]. split.
        + intros k I. split; [intros ->; contradiction|]. apply B; [exact I|]. apply smem_In. apply F. exact I.
        + intros n f I G E Q. assert (J : In (n, f) (params (d_fields d))).
          { unfold parameters in I. fold (params (d_fields d)) in I. apply in_map_iff in I. destruct I as ([m g] & EQ & I). cbn in EQ. subst m. pose proof I as I'. apply params_get in I'; [|exact ND]. destruct I' as [G' _]. rewrite G in G'. injection G' as <-. exact I. }
          specialize (C n f J E). unfold has_default in C. rewrite Q in C. discriminate. }
    destruct (bind_spec (params (d_fields d)) args kw (NoDup_params _ ND)) as [[B E]|[B E]]; [left|right]; rewrite X; auto.
  - right. split; [|reflexivity]. intros (_ & B & _).
    assert (G : forallb (fun k => smem k (keys (params (d_fields d)))) (keys kw) = true); [|congruence].
    apply forallb_forall. intros k I. destruct (B k I) as (_ & i & P & _). apply smem_In. apply position_In in P. eapply nth_error_In; eauto.
Qed.

(** ** Worlds during construction *)
Lemma extends_refl w : extends w w.
Proof. exists []. symmetry. apply app_nil_r. Qed.
Lemma extends_trans a b c : extends a b -> extends b c -> extends a c.
Proof. intros (x & X) (y & Y). exists (x ++ y). rewrite Y, X, app_assoc. reflexivity. Qed.
Lemma extends_put w w1 r o : extends w w1 -> List.length (w_heap w) <= r -> extends w (put_obj w1 r o).
Proof. intros (x & X) L. unfold extends, put_obj, set_heap. cbn [w_heap]. rewrite X, list_set_app_r by exact L. eauto. Qed.
Lemma extends_len w w1 : extends w w1 -> List.length (w_heap w) <= List.length (w_heap w1).
Proof. intros (x & X). rewrite X, app_length. lia. Qed.
Lemma extends_attr w w1 a : extends w w1 -> attr_ok w a -> attr_ok w1 a.
Proof. intros E [A B]. split; [exact A|]. intros x H. apply extends_len in E. specialize (B x H). lia. Qed.

(** what one knows of the world while object [r] is being made, after [w] *)
Record making (w : world) (r : nat) (o0 : mobj) (w1 : world) (vars : dict attr) : Prop := {
  mk_wf : wf_world w1;
  mk_ext : extends w w1;
  mk_trace : w_trace w1 = w_trace w;
  mk_nodes : w_nodes w1 = w_nodes w;
  mk_obj : get_obj w1 r = Some (set_vars o0 vars);
  mk_r : List.length (w_heap w) <= r;
  mk_o : m_trace o0 = w_trace w
}.
Lemma making_assign w r o0 w1 vars n a : making w r o0 w1 vars -> attr_ok w1 a -> n <> "_module__state" -> dget n vars = None ->
  exists w2, assign w1 r n a = (w2, Ok tt) /\ making w r o0 w2 (dset n a vars).
Proof.
  intros M A Nn G. destruct M as [W E T Nd O R Tr]. unfold assign.
  assert (S1 : setattr w1 r n a = Ok (put_obj w1 r (set_vars (set_vars o0 vars) (dset n a vars)))).
  { unfold setattr. rewrite O. assert (TV : trace_valid w1 (m_trace (set_vars o0 vars)) = true) by (apply trace_valid_iff; cbn; congruence). rewrite TV. cbn [negb].
    destruct (String.eqb_spec n "_module__state"); [contradiction|]. cbn [m_vars set_vars]. rewrite G. destruct a as [v|c]; cbn [assign_value]; [reflexivity|].
    destruct A as [A _]. cbn in A. rewrite container_copy_id by exact A. reflexivity. }
  rewrite S1. eexists. split; [reflexivity|]. split.
  - eapply setattr_wf; eauto.
  - apply extends_put; assumption.
  - exact T.
  - exact Nd.
  - rewrite (get_put_same _ _ _ _ O). reflexivity.
  - exact R.
  - exact Tr.
Qed.
Lemma making_factory w r o0 w1 vars g : making w r o0 w1 vars -> good_factory g ->
  exists w2 a, g w1 = (w2, Ok a) /\ making w r o0 w2 vars /\ attr_ok w2 a /\ produced w g a.
Proof.
  intros [W E T Nd O R Tr] G. destruct (G w1 W) as (w2 & a & E1 & X & W2 & A & T2 & N2). exists w2, a. split; [exact E1|]. split.
  - split; [exact W2|eapply extends_trans; eauto|congruence|congruence|eapply extends_get; eauto|exact R|exact Tr].
  - split; [exact A|]. exists w1, w2. auto.
Qed.

Definition gets (w : world) (env : dict (option attr)) (n : string) (f : fdecl) (a : attr) : Prop :=
  match f_init f, dget n env with
  | true, Some (Some b) => a = b
  | _, _ => match f_default f with
            | Default v => f_init f = true /\ a = ARaw v
            | Factory g => produced w g a
            | NoDefault => False
            end
  end.
Lemma init_run w r o0 env fs : NoDup (keys fs) -> ~ In "_module__state" (keys fs) ->
  (forall n f, In (n, f) fs -> (forall g, f_default f = Factory g -> good_factory g) /\ (forall v, f_default f = Default v -> attr_ok w (ARaw v)) /\
     (forall a, dget n env = Some (Some a) -> attr_ok w a) /\ (f_init f = true -> f_default f = NoDefault -> exists a, dget n env = Some (Some a))) ->
  forall w1 vars, making w r o0 w1 vars -> (forall n, In n (keys fs) -> dget n vars = None) ->
  exists w2 vars2, init_fields env r fs w1 = (w2, Ok tt) /\ making w r o0 w2 vars2 /\
    (forall n f, In (n, f) fs -> (exists a, dget n vars2 = Some a /\ gets w env n f a) \/ (dget n vars2 = None /\ field_unset f)) /\
    (forall n, ~ In n (keys fs) -> dget n vars2 = dget n vars).
Proof.
  induction fs as [|[n f] t IH]; intros ND NR H w1 vars M HV.
  - exists w1, vars. split; [reflexivity|]. split; [exact M|]. split; [intros n f []|reflexivity].
  - cbn [keys map fst] in ND, NR. fold (keys t) in ND, NR. apply NoDup_cons_iff in ND. destruct ND as [Nn ND].
    assert (HV' : forall m, In m (keys t) -> m <> n) by (intros m I ->; contradiction).
    destruct (H n f (or_introl eq_refl)) as (HF & HD & HE & HN).
    assert (NS : n <> "_module__state") by (intros ->; apply NR; left; reflexivity).
    assert (G0 : dget n vars = None) by (apply HV; left; reflexivity).
    assert (STEP : (exists w2 a, init_field env w1 r n f = (w2, Ok tt) /\ making w r o0 w2 (dset n a vars) /\ gets w env n f a) \/
                   (init_field env w1 r n f = (w1, Ok tt) /\ field_unset f)).
    { assert (CALL : forall g, good_factory g -> exists w2 a, (match g w1 with (w1', Ok a) => assign w1' r n a | (w1', Err e) => (w1', Err e) end) = (w2, Ok tt) /\ making w r o0 w2 (dset n a vars) /\ produced w g a).
      { intros g Gg. destruct (making_factory w r o0 w1 vars g M Gg) as (w2 & a & E & M2 & A & P). rewrite E.
        destruct (making_assign w r o0 w2 vars n a M2 A NS G0) as (w3 & E3 & M3). exists w3, a. auto. }
      unfold init_field, gets. destruct (f_init f) eqn:I.
      - left. destruct (dget n env) as [[a|]|] eqn:Q.
        + destruct (making_assign w r o0 w1 vars n a M (extends_attr _ _ _ (mk_ext _ _ _ _ _ M) (HE a eq_refl)) NS G0) as (w2 & E & M2). exists w2, a. auto.
        + destruct (f_default f) as [|v|g] eqn:D.
          * destruct (HN eq_refl eq_refl) as (a & X). discriminate.
          * destruct (making_assign w r o0 w1 vars n (ARaw v) M (extends_attr _ _ _ (mk_ext _ _ _ _ _ M) (HD v eq_refl)) NS G0) as (w2 & E & M2). exists w2, (ARaw v). auto.
          * destruct (CALL g (HF g eq_refl)) as (w2 & a & E & M2 & P). exists w2, a. auto.
        + destruct (f_default f) as [|v|g] eqn:D.
          * destruct (HN eq_refl eq_refl) as (a & X). discriminate.
          * destruct (making_assign w r o0 w1 vars n (ARaw v) M (extends_attr _ _ _ (mk_ext _ _ _ _ _ M) (HD v eq_refl)) NS G0) as (w2 & E & M2). exists w2, (ARaw v). auto.
          * destruct (CALL g (HF g eq_refl)) as (w2 & a & E & M2 & P). exists w2, a. auto.
      - destruct (f_default f) as [|v|g] eqn:D; [right|right|left].
        + split; [reflexivity|]. split; [exact I|]. intros g. congruence.
        + split; [reflexivity|]. split; [exact I|]. intros g. congruence.
        + destruct (CALL g (HF g eq_refl)) as (w2 & a & E & M2 & P). exists w2, a. auto. }
    cbn [init_fields]. destruct STEP as [(w2 & a & E & M2 & P)|[E U]]; rewrite E.
    + destruct (IH ND ltac:(intros X; apply NR; right; exact X) ltac:(intros m g I; apply H; right; exact I) w2 (dset n a vars) M2) as (w3 & vars3 & E3 & M3 & A3 & B3).
      { intros m I. rewrite dget_dset_other by (apply HV'; exact I). apply HV. right. exact I. }
      exists w3, vars3. split; [exact E3|]. split; [exact M3|]. split.
      * intros m g [J|J]; [|apply A3; exact J]. injection J as <- <-. left. exists a. split; [|exact P]. rewrite (B3 n Nn), dget_dset_same. reflexivity.
      * intros m J. rewrite (B3 m) by (intros X; apply J; right; exact X). apply dget_dset_other. intros ->. apply J. left. reflexivity.
    + destruct (IH ND ltac:(intros X; apply NR; right; exact X) ltac:(intros m g I; apply H; right; exact I) w1 vars M) as (w3 & vars3 & E3 & M3 & A3 & B3).
      { intros m I. apply HV. right. exact I. }
      exists w3, vars3. split; [exact E3|]. split; [exact M3|]. split.
      * intros m g [J|J]; [|apply A3; exact J]. injection J as <- <-. right. split; [rewrite (B3 n Nn); exact G0|exact U].
      * intros m J. apply B3. intros X; apply J; right; exact X.
Qed.

(** ** Container functions *)
Definition wf_kind (k : fkind) : Prop := forall c s, k = KVar c s -> variable_class c.
Lemma kind_wf k v : wf_kind k -> wf_container (mkCont (kind_cls k) (kind_meta k) v).
Proof.
  intros K. unfold wf_container. cbn [c_cls c_meta]. destruct k as [| |c s]; cbn [kind_cls kind_meta].
  - repeat split; try (cbn; tauto); try constructor; try discriminate.
  - repeat split; try (cbn; tauto); try constructor; try discriminate.
  - destruct (K c s eq_refl) as [I NS]. split; [repeat constructor; intros []|]. split; [intros [H|[]]; discriminate|]. split; [apply I; cbn; tauto|].
    split; [intros H; apply smem_In in H; contradiction|]. intros _ _. exists s, []. reflexivity.
Qed.
Lemma kind_call k a : wf_kind k -> wf_attr a ->
  (fits k a /\ call_kind k a = Ok (mkCont (kind_cls k) (kind_meta k) (plain a))) \/ (~ fits k a /\ call_kind k a = Err ValueError).
Proof.
  intros K A. assert (X : call_kind k a = match a with ARaw v => Ok (mkCont (kind_cls k) (kind_meta k) v) | ACont c => if is_equivalent c (mkCont (kind_cls k) (kind_meta k) (c_val c)) then Ok (mkCont (kind_cls k) (kind_meta k) (c_val c)) else Err ValueError end).
  { unfold call_kind. destruct k as [| |c s]; cbn [kind_cls kind_meta]; [destruct a; reflexivity..|]. destruct (K c s eq_refl) as [I NS].
    assert (IM : init_meta c [("sharding", s)] = Ok [("sharding", s)]). { unfold init_meta. apply smem_false in NS. rewrite NS. assert (V : smem "Variable" c = true) by (apply smem_In; apply I; cbn; tauto). rewrite V. reflexivity. }
    destruct a as [v|c']; unfold container_call, container_init; rewrite IM; reflexivity. }
  rewrite X. destruct a as [v|c]; cbn [plain fits]; [left; auto|]. cbn in A. pose proof (is_equivalent_spec c (mkCont (kind_cls k) (kind_meta k) (c_val c)) A (kind_wf k _ K)) as Q. cbn [c_cls c_meta] in Q.
  destruct (is_equivalent c _); [left; split; [apply Q; reflexivity|reflexivity]|right; split; [|reflexivity]; intros H; apply Q in H; discriminate].
Qed.
Lemma put_put w r o o' : put_obj (put_obj w r o) r o' = put_obj w r o'.
Proof.
  unfold put_obj, set_heap. cbn [w_heap w_uuid w_trace w_nodes]. f_equal. apply nth_error_ext. intros i. rewrite !nth_list_set, list_set_length.
  destruct (Nat.eqb r i); reflexivity.
Qed.
(** [wrap_vars] on the object's dictionary *)
Lemma wrap_run r fs : NoDup (keys fs) -> (forall n f k, In (n, f) fs -> f_kind f = Some k -> wf_kind k) ->
  forall w o, get_obj w r = Some o -> (forall n a, In n (keys fs) -> dget n (m_vars o) = Some a -> wf_attr a) ->
  exists vars res, wrap_vars r fs w = (put_obj w r (set_vars o vars), res) /\
    match res with
    | Ok _ => forall n, match dget n fs with
                        | Some f => match f_kind f with
                                    | Some k => exists a, dget n (m_vars o) = Some a /\ fits k a /\ dget n vars = Some (ACont (mkCont (kind_cls k) (kind_meta k) (plain a)))
                                    | None => dget n vars = dget n (m_vars o)
                                    end
                        | None => dget n vars = dget n (m_vars o)
                        end
    | Err e => exists n f k, In (n, f) fs /\ f_kind f = Some k /\
                 ((e = KeyError /\ dget n (m_vars o) = None) \/ (e = ValueError /\ exists a, dget n (m_vars o) = Some a /\ ~ fits k a))
    end.
Proof.
  induction fs as [|[n f] t IH]; intros ND K w o O A.
  - exists (m_vars o), (Ok tt). cbn [wrap_vars]. split; [|reflexivity]. rewrite set_vars_id. f_equal. destruct w as [h u tr nt]. unfold put_obj, set_heap. cbn [w_heap w_uuid w_trace w_nodes]. f_equal. symmetry. apply list_set_id. exact O.
  - cbn [keys map fst] in ND. fold (keys t) in ND. apply NoDup_cons_iff in ND. destruct ND as [Nn ND]. cbn [wrap_vars].
    assert (K' : forall m g k, In (m, g) t -> f_kind g = Some k -> wf_kind k) by (intros m g k I; apply (K m g k); right; exact I).
    assert (Gt : forall m, dget m ((n, f) :: t) = if String.eqb m n then Some f else dget m t). { intros m. cbn [dget]. rewrite (String.eqb_sym m n). reflexivity. }
    destruct (f_kind f) as [k|] eqn:FK.
    + rewrite O. destruct (dget n (m_vars o)) as [a|] eqn:G.
      2:{ exists (m_vars o), (Err KeyError). split.
          - rewrite set_vars_id. f_equal. destruct w as [h u tr nt]. unfold put_obj, set_heap. cbn [w_heap w_uuid w_trace w_nodes]. f_equal. symmetry. apply list_set_id. exact O.
          - exists n, f, k. split; [left; reflexivity|]. split; [exact FK|]. left. auto. }
      destruct (kind_call k a (K n f k (or_introl eq_refl) FK) (A n a (or_introl eq_refl) G)) as [[F E]|[F E]]; rewrite E.
      2:{ exists (m_vars o), (Err ValueError). split.
          - rewrite set_vars_id. f_equal. destruct w as [h u tr nt]. unfold put_obj, set_heap. cbn [w_heap w_uuid w_trace w_nodes]. f_equal. symmetry. apply list_set_id. exact O.
          - exists n, f, k. split; [left; reflexivity|]. split; [exact FK|]. right. split; [reflexivity|]. exists a. auto. }
      set (c := mkCont (kind_cls k) (kind_meta k) (plain a)). set (d' := dset n (ACont c) (m_vars o)).
      destruct (IH ND K' (put_obj w r (set_vars o d')) (set_vars o d')) as (vars & res & EW & R).
      { apply (get_put_same _ _ _ _ O). }
      { intros m b I. cbn [m_vars set_vars]. unfold d'. rewrite dget_dset_other by (intros ->; contradiction). apply A. right. exact I. }
      exists vars, res. split; [rewrite EW, put_put; reflexivity|].
      destruct res as [[]|e].
      * intros m. rewrite Gt. specialize (R m). cbn [m_vars set_vars] in R. unfold d' in R. destruct (String.eqb_spec m n) as [->|Q].
        -- apply dget_None in Nn. rewrite Nn, dget_dset_same in R. rewrite FK. exists a. auto.
        -- rewrite dget_dset_other in R by exact Q. exact R.
      * destruct R as (m & g & k' & I & Fk & X). exists m, g, k'. split; [right; exact I|]. split; [exact Fk|]. cbn [m_vars set_vars] in X. unfold d' in X.
        rewrite dget_dset_other in X by (intros ->; apply Nn; eapply keys_in; eauto). exact X.
    + destruct (IH ND K' w o O) as (vars & res & EW & R); [intros m b I; apply A; right; exact I|].
      exists vars, res. split; [exact EW|]. destruct res as [[]|e].
      * intros m. rewrite Gt. specialize (R m). destruct (String.eqb_spec m n) as [->|Q]; [|exact R]. rewrite FK. apply dget_None in Nn. rewrite Nn in R. exact R.
      * destruct R as (m & g & k' & I & Fk & X). exists m, g, k'. split; [right; exact I|]. auto.
Qed.

Lemma wrap_nodup r fs : forall w o, get_obj w r = Some o -> NoDup (keys (m_vars o)) ->
  NoDup (keys (match get_obj (fst (wrap_vars r fs w)) r with Some o => m_vars o | None => [] end)).
Proof.
  induction fs as [|[n f] t IH]; intros w o O ND; cbn [wrap_vars fst]; [rewrite O; exact ND|].
  destruct (f_kind f) as [k|]; [|eapply IH; eauto]. rewrite O. destruct (dget n (m_vars o)) as [a|]; [|cbn [fst]; rewrite O; exact ND].
  destruct (call_kind k a) as [c|]; [|cbn [fst]; rewrite O; exact ND]. eapply IH; [apply (get_put_same _ _ _ _ O)|]. cbn [m_vars set_vars]. apply NoDup_keys_dset. exact ND.
Qed.

(** ** Construction *)
Lemma new_making w c : wf_world w -> In "Module" c ->
  let o0 := mkMobj c (S (w_uuid w)) false (w_trace w) [] in
  making w (List.length (w_heap w)) o0 (snd (new_module w c)) [].
Proof.
  intros W I o0. split.
  - apply new_module_wf; assumption.
  - exists [o0]. reflexivity.
  - reflexivity.
  - reflexivity.
  - unfold get_obj. cbn [snd new_module w_heap]. rewrite nth_error_app2 by lia. rewrite Nat.sub_diag. reflexivity.
  - lia.
  - reflexivity.
Qed.
Lemma env_get d args kw n f : NoDup (keys (d_fields d)) -> dget n (d_fields d) = Some f ->
  dget n (map (fun nf => (fst nf, argument d args kw (fst nf))) (params (d_fields d))) = if f_init f then Some (argument d args kw n) else None.
Proof.
  intros ND G. set (ps := params (d_fields d)).
  assert (NP : NoDup (keys (map (fun nf : string * fdecl => (fst nf, argument d args kw (fst nf))) ps))).
  { unfold keys. rewrite map_map. cbn [fst]. apply (NoDup_params _ ND). }
  destruct (f_init f) eqn:I.
  - apply In_dget; [exact NP|]. apply in_map_iff. exists (n, f). split; [reflexivity|]. apply params_get; auto.
  - apply dget_None. unfold keys. rewrite map_map. cbn [fst]. intros J. apply in_map_iff in J. destruct J as ([m g] & E & J). cbn [fst] in E. subst m.
    apply params_get in J; [|exact ND]. destruct J as [G' I']. congruence.
Qed.
Lemma argument_none d args kw n f : NoDup (keys (d_fields d)) -> dget n (d_fields d) = Some f -> f_init f = false -> argument d args kw n = None.
Proof.
  intros ND G I. unfold argument. assert (P : position n (parameters d) = None); [|rewrite P; reflexivity].
  apply position_None. intros J. unfold parameters in J. fold (params (d_fields d)) in J. apply in_map_iff in J. destruct J as ([m g] & E & J). cbn [fst] in E. subst m.
  apply params_get in J; [|exact ND]. destruct J as [G' I']. congruence.
Qed.
Lemma argument_ok w d args kw n a : good_call w args kw -> argument d args kw n = Some a -> attr_ok w a.
Proof.
  intros [A K] H. unfold argument in H. destruct (position n (parameters d)) as [i|]; [|discriminate]. destruct (nth_error args i) as [b|] eqn:E.
  - injection H as <-. rewrite Forall_forall in A. apply A. eapply nth_error_In; eauto.
  - eapply K; eauto.
Qed.
Lemma bad_call w d args kw : NoDup (keys (d_fields d)) -> ~ correct_call d args kw -> exists w', construct d args kw w = (w', Err TypeError) /\ extends w w'.
Proof.
  intros ND C. unfold construct. destruct (dmem "self" kw) eqn:S1; [exists w; split; [reflexivity|apply extends_refl]|]. apply dmem_false in S1.
  destruct (bind_call_spec d args kw ND S1) as [[X _]|[_ E]]; [contradiction|]. unfold new_module, generated_init. rewrite E.
  eexists. split; [reflexivity|]. eexists. reflexivity.
Qed.
Theorem construct_run w d args kw : wf_world w -> In "Module" (d_cls d) -> good_fields (d_fields d) -> good_defaults w (d_fields d) -> good_call w args kw ->
  d_post d = None -> correct_call d args kw ->
  exists w' res (gave : string -> option attr), construct d args kw w = (w', res) /\ extends w w' /\
    (forall n f, dget n (d_fields d) = Some f -> match gave n with Some a => field_gets w d args kw n f a | None => field_unset f end) /\
    match res with
    | Ok r => r = List.length (w_heap w) /\ wf_world w' /\ w_trace w' = w_trace w /\
        exists o, get_obj w' r = Some o /\ m_cls o = d_cls d /\ m_init o = false /\ m_trace o = w_trace w /\ m_id o = S (w_uuid w) /\
          forall n, match dget n (d_fields d) with
                    | None => dget n (m_vars o) = None
                    | Some f => match gave n with
                                | Some a => exists x, dget n (m_vars o) = Some x /\ field_holds f a x
                                | None => dget n (m_vars o) = None /\ f_kind f = None
                                end
                    end
    | Err e => exists n f k, dget n (d_fields d) = Some f /\ f_kind f = Some k /\
        ((e = KeyError /\ gave n = None) \/ (e = ValueError /\ exists a, gave n = Some a /\ ~ fits k a))
    end.
Proof.
  intros W Mo (ND & NR & GF) GD GC PO CC. assert (NS : ~ In "self" (keys kw)). { intros I. destruct CC as (_ & B & _). exact (proj1 (B _ I) eq_refl). }
  destruct (bind_call_spec d args kw ND NS) as [[_ E]|[X _]]; [|contradiction].
  set (r := List.length (w_heap w)). set (o0 := mkMobj (d_cls d) (S (w_uuid w)) false (w_trace w) []).
  set (env := map (fun nf : string * fdecl => (fst nf, argument d args kw (fst nf))) (params (d_fields d))) in *.
  destruct (init_run w r o0 env (d_fields d) ND NR) with (w1 := snd (new_module w (d_cls d))) (vars := @nil (string * attr)) as (w1 & vars1 & E1 & M1 & A1 & B1).
  { intros n f I. destruct (GF n f I) as (F1 & _). assert (G : dget n (d_fields d) = Some f) by (apply In_dget; assumption).
    pose proof (env_get d args kw n f ND G) as EG. fold env in EG. split; [exact F1|]. split; [intros v; exact (GD n f v I)|]. split.
    - intros a Q. rewrite EG in Q. destruct (f_init f); [|discriminate]. injection Q as Q. eapply argument_ok; eauto.
    - intros If Nd. rewrite EG, If. destruct (argument d args kw n) as [a|] eqn:Q; [eauto|]. exfalso. destruct CC as (_ & _ & CN). apply (CN n f); auto.
      unfold parameters. fold (params (d_fields d)). eapply keys_in. apply params_get; eauto. }
  { apply new_making; assumption. }
  { reflexivity. }
  destruct M1 as [W1 X1 T1 N1 O1 _ _].
  destruct (wrap_run r (d_fields d) ND) with (w := w1) (o := set_vars o0 vars1) as (vars2 & res & E2 & R).
  { intros n f k I Fk c s ->. destruct (GF n f I) as (_ & F2). eapply F2; eauto. }
  { exact O1. }
  { intros n a _ G. exact (wfo_attrs _ _ (wf_objs _ W1 _ _ O1) _ _ G). }
  set (w2 := put_obj w1 r (set_vars (set_vars o0 vars1) vars2)) in *.
  assert (X2 : extends w w2) by (apply extends_put; [exact X1|unfold r; lia]).
  exists w2, (match res with Ok _ => Ok r | Err e => Err e end), (fun n => dget n vars1).
  split.
  { unfold construct. apply dmem_false in NS. rewrite NS. change (new_module w (d_cls d)) with (r, snd (new_module w (d_cls d))). unfold generated_init. rewrite E. fold env. rewrite E1, PO, E2. destruct res; reflexivity. }
  split; [exact X2|]. split.
  - intros n f G. assert (I : In (n, f) (d_fields d)) by (apply dget_In; exact G).
    pose proof (env_get d args kw n f ND G) as EG. fold env in EG.
    destruct (A1 n f I) as [(a & Ga & Gs)|[Gn U]].
    + rewrite Ga. unfold gets in Gs. rewrite EG in Gs. unfold field_gets. destruct (f_init f) eqn:Fi.
      * destruct (argument d args kw n) as [b|]; exact Gs.
      * rewrite (argument_none d args kw n f ND G Fi). exact Gs.
    + rewrite Gn. exact U.
  - destruct res as [[]|e].
    + split; [reflexivity|].
      assert (V : forall n x, dget n vars2 = Some x -> dget n vars1 = Some x \/ exists c, x = ACont c /\ wf_container c).
      { intros n x Q. specialize (R n). cbn [m_vars set_vars] in R. destruct (dget n (d_fields d)) as [f|] eqn:G; [|left; congruence].
        destruct (f_kind f) as [k|] eqn:Fk; [|left; congruence]. destruct R as (a & _ & _ & R). right. eexists. split; [rewrite R in Q; injection Q as <-; reflexivity|].
        apply kind_wf. intros c s ->. destruct (GF n f (dget_In _ _ _ G)) as (_ & F2). eapply F2; eauto. }
      assert (Wo := wf_objs _ W1 _ _ O1).
      split.
      * assert (K2 : forall n, In n (keys vars2) -> In n (keys vars1)).
        { intros n I. destruct (dget_Some_keys _ _ I) as (x & Q). specialize (R n). cbn [m_vars set_vars] in R. destruct (dget n (d_fields d)) as [f|].
          - destruct (f_kind f) as [k|]; [destruct R as (a & R & _); eapply dget_In_keys; eauto|rewrite Q in R; symmetry in R; eapply dget_In_keys; eauto].
          - rewrite Q in R. symmetry in R. eapply dget_In_keys; eauto. }
        unfold w2. apply put_vars_wf; [exact W1|exact O1| | | |].
        -- pose proof (f_equal (fun x => keys (match get_obj (fst x) r with Some o => m_vars o | None => [] end)) E2) as EK. cbn [fst] in EK. unfold w2 in EK. rewrite (get_put_same _ _ _ _ O1) in EK. cbn [m_vars set_vars] in EK. rewrite <- EK. apply wrap_nodup with (o := set_vars o0 vars1); [exact O1|apply Wo].
        -- intros I. apply K2 in I. exact (wfo_reserved _ _ Wo I).
        -- intros n y Q. destruct (V _ _ Q) as [Q'|(c & Q' & _)]; [|discriminate]. exact (wfo_refs _ _ Wo _ _ Q').
        -- intros n a Q. destruct (V _ _ Q) as [Q'|(c & -> & Q')]; [exact (wfo_attrs _ _ Wo _ _ Q')|exact Q'].
      * split; [exact T1|]. exists (set_vars (set_vars o0 vars1) vars2). split; [unfold w2; apply (get_put_same _ _ _ _ O1)|]. repeat (split; [reflexivity|]).
        intros n. specialize (R n). cbn [m_vars set_vars] in *. destruct (dget n (d_fields d)) as [f|] eqn:G.
        -- unfold field_holds. destruct (f_kind f) as [k|] eqn:Fk.
           ++ destruct R as (a & Ra & Rf & R). rewrite Ra. eexists. split; [exact R|]. auto.
           ++ destruct (dget n vars1) as [a|] eqn:Q; [exists a; auto|auto].
        -- rewrite R. apply B1. apply dget_None. exact G.
    + destruct R as (n & f & k & I & Fk & R). exists n, f, k. split; [apply In_dget; assumption|]. split; [exact Fk|]. exact R.
Qed.

(** ** The state of a module's own attributes *)
Lemma own_entries w r o s n : wf_world w -> names_ok w r -> acyclic w r -> get_obj w r = Some o -> get_state w r = Ok s -> has_char "/" n = false ->
  forall a, dget n s = Some a <-> node_attr w r n a.
Proof.
  intros W NO AC O S1 NC a. assert (V : valid w r) by (eapply get_obj_lt; eauto).
  destruct (get_state_entries w r W V NO) as (s' & path & S2 & _ & P & E & U). assert (s' = s) by congruence. subst s'.
  assert (R : reaches w r r) by (eapply reaches_refl; eauto).
  assert (PR : forall m b, node_attr w r m b -> path r m = []).
  { intros m b A. destruct (path r m) as [|q p] eqn:Q; [reflexivity|]. exfalso. pose proof (P r m b R A) as F. rewrite Q in F. exact (AC r (q :: p) R ltac:(discriminate) F). }
  rewrite E. split.
  - intros (x & m & Rx & A & K). destruct (NO x) with (o := match get_obj w x with Some o => o | None => o end) (name := m) (a := a) as (_ & Hn & _).
    + exact Rx.
    + destruct (reaches_valid w r x Rx) as (ox & Ox). rewrite Ox. reflexivity.
    + destruct A as (ox & Ox & G & _). rewrite Ox. exact G.
    + specialize (Hn A). pose proof (P x m a Rx A) as F. destruct (path x m) as [|q p] eqn:Q.
      * cbn [app] in K. cbn in K. subst m. assert (x = r) by (cbn [follow] in F; rewrite O in F; congruence). subst x. exact A.
      * exfalso. rewrite K in NC. cbn [app] in NC. destruct (p ++ [m]) as [|z l] eqn:Z; [destruct p; discriminate|].
        clear - NC. revert NC. unfold join_path. cbn [join]. generalize (match l with [] => z | _ => join "/" (z :: l) end). intros t.
        induction q as [|ch q IH]; cbn [append has_char]; [intros H; vm_compute in H; discriminate|]. intros H. apply IH. apply Bool.orb_false_iff in H. apply H.
  - intros A. exists r, n. split; [exact R|]. split; [exact A|]. rewrite (PR n a A). reflexivity.
Qed.

(** ** Class definitions *)
Lemma signature_spec ps : 
  if signature_ok ps then forall i j n f m g, i < j -> nth_error ps i = Some (n, f) -> nth_error ps j = Some (m, g) -> f_default f <> NoDefault -> f_default g <> NoDefault
  else exists i j n f m g, i < j /\ nth_error ps i = Some (n, f) /\ nth_error ps j = Some (m, g) /\ f_default f <> NoDefault /\ f_default g = NoDefault.
Proof.
  induction ps as [|[n f] t IH]; [intros [|i] j n f m g _ H; discriminate H|]. cbn [signature_ok].
  assert (HD : forall h, has_default h = true <-> f_default h <> NoDefault) by (intros h; unfold has_default; destruct (f_default h); split; congruence).
  destruct (has_default f) eqn:D.
  - destruct (forallb (fun nf => has_default (snd nf)) t) eqn:F.
    + rewrite forallb_forall in F. intros i j n' f' m g L A B _. destruct j as [|j]; [lia|]. cbn in B. apply HD. apply (F (m, g)). eapply nth_error_In; eauto.
    + assert (X : exists mg, In mg t /\ has_default (snd mg) = false).
      { clear - F. induction t as [|x t IH]; [discriminate|]. cbn [forallb] in F. destruct (has_default (snd x)) eqn:Q; [|exists x; split; [left; reflexivity|exact Q]]. destruct (IH F) as (y & I & Y). exists y. split; [right; exact I|exact Y]. }
      destruct X as ([m g] & I & Q). apply In_nth_error in I. destruct I as (j & J). exists 0, (S j), n, f, m, g. split; [lia|]. split; [reflexivity|]. split; [exact J|]. split; [apply HD; exact D|].
      cbn [snd] in Q. unfold has_default in Q. destruct (f_default g); try discriminate. reflexivity.
  - destruct (signature_ok t).
    + intros i j n' f' m g L A B Nf. destruct i as [|i].
      * cbn in A. injection A as <- <-. apply HD in Nf. congruence.
      * destruct j as [|j]; [lia|]. cbn in A, B. eapply (IH i j); eauto. lia.
    + destruct IH as (i & j & n' & f' & m & g & L & H). exists (S i), (S j), n', f', m, g. split; [lia|]. exact H.
Qed.
