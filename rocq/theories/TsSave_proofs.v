From Coq Require Import Lia.
From Verif Require Import PyBase PyBaseFacts ValuesM Spec_Eq ValuesFacts PytreeM Spec_Pytree Pytree_proofs TsSaveM Spec_TsSave.
Local Open Scope string_scope.
Local Open Scope list_scope.

Section Save.
Variable to_dict : pyval -> result pyval.
Variable from_dict : pyval -> pyval -> result pyval.
Notation save_fields := (save_fields to_dict).
Notation restore_fields := (restore_fields from_dict).

Lemma node_value f : node_field f = true -> exists v, field_value f = Some v.
Proof. destruct f as [[v|c]|l]; cbn; try discriminate; eauto. Qed.
Lemma save_fields_get : forall d st, save_fields d = Ok st -> NoDup (keys d) ->
  NoDup (keys st) /\ (forall n, In n (keys st) <-> exists f, dget n d = Some f /\ node_field f = true) /\
  forall n f, dget n d = Some f -> node_field f = true -> exists v s, field_value f = Some v /\ to_dict v = Ok s /\ dget n st = Some s.
Proof.
  induction d as [|[m f] d IH]; intros st E ND; cbn [TsSaveM.save_fields] in E.
  - injection E as <-. split; [constructor|]. split; [intros n; split; [intros []|intros (f & H & _); discriminate]|]. intros n f H. discriminate.
  - inversion ND as [|? ? N1 N2]; subst. destruct (node_field f) eqn:NF.
    + assert (X : exists v, field_value f = Some v /\ (do s <- to_dict v; do l <- save_fields d; Ok ((m, s) :: l)) = Ok st).
      { destruct f as [[v|c]|l]; cbn [rbind field_value] in *; try discriminate; eauto. }
      destruct X as (v & FV & E'). destruct (to_dict v) as [s|] eqn:TD; [|discriminate]. cbn [rbind] in E'. destruct (save_fields d) as [l|] eqn:SF; [|discriminate].
      cbn [rbind] in E'. injection E' as <-. destruct (IH l eq_refl N2) as (A & B & C). split; [|split].
      * cbn. constructor; [|exact A]. intros H. apply B in H as (g & G & _). apply N1. eapply dget_In_keys; eauto.
      * intros n. cbn [keys map fst In dget]. destruct (String.eqb_spec n m) as [->|NE]; [split; eauto|]. fold (keys l). rewrite B. split; [intros [H|H]; [congruence|exact H]|auto].
      * intros n g G NG. cbn [dget] in G |- *. destruct (String.eqb n m); [injection G as <-; eauto|]. now apply C.
    + destruct (IH st E N2) as (A & B & C). split; [exact A|]. split.
      * intros n. rewrite B. cbn [dget]. destruct (String.eqb_spec n m) as [->|NE]; [|reflexivity]. split.
        { intros (g & G & _). exfalso. apply N1. eapply dget_In_keys; eauto. }
        { intros (g & [= <-] & H). congruence. }
      * intros n g G NG. cbn [dget] in G. destruct (String.eqb n m); [injection G as <-; congruence|]. now apply C.
Qed.

Lemma restore_fields_ok : forall d st, NoDup (keys d) -> NoDup (keys st) ->
  (forall n, In n (keys st) <-> exists f, dget n d = Some f /\ node_field f = true) ->
  (forall n v0 s, dget n d = Some (FAttr (ARaw v0)) -> dget n st = Some s -> exists x, from_dict v0 s = Ok x) ->
  exists ups, restore_fields d st = Ok (ups, []) /\ NoDup (keys ups) /\ (forall n, In n (keys ups) <-> In n (keys st)) /\
    forall n a, In (n, a) ups -> exists f s x, dget n d = Some f /\ node_field f = true /\ dget n st = Some s /\ a = ARaw x /\
      match f with FAttr (ARaw v0) => from_dict v0 s = Ok x | _ => x = s end.
Proof.
  induction d as [|[m f] d IH]; intros st ND NS B FD; cbn [TsSaveM.restore_fields].
  - destruct st as [|[k s] st]; [|exfalso; destruct (proj1 (B k) (or_introl eq_refl)) as (f & H & _); discriminate].
    exists []. split; [reflexivity|]. split; [constructor|]. split; [tauto|]. intros n a [].
  - inversion ND as [|? ? N1 N2]; subst. destruct (node_field f) eqn:NF.
    + assert (I : In m (keys st)) by (apply B; exists f; cbn; now rewrite String.eqb_refl).
      destruct (dget m st) as [s|] eqn:G; [|exfalso; apply (dget_None m st) in G; contradiction].
      assert (X : exists x, (match f with FAttr (ARaw v0) => from_dict v0 s | _ => Ok s end) = Ok x).
      { destruct f as [[v0|c]|l]; eauto. apply (FD m v0 s); [cbn; now rewrite String.eqb_refl|exact G]. }
      destruct X as (x & FX). rewrite FX. cbn [rbind]. destruct (IH (ddel m st) N2 (NoDup_keys_ddel _ _ NS)) as (ups & E & NU & KU & C).
      * intros n. destruct (String.eqb_spec n m) as [->|NE].
        { split; [intros H|intros (g & H & _); exfalso; apply N1; eapply dget_In_keys; eauto]. exfalso.
          pose proof (dget_ddel_same m st NS) as Z0. apply dget_None in Z0. contradiction. }
        transitivity (In n (keys st)).
        { split; [apply keys_ddel_incl|]. intros H. destruct (dget n st) as [y|] eqn:Y0; [|apply dget_None in Y0; contradiction].
          eapply dget_In_keys. rewrite dget_ddel_other by exact NE. exact Y0. }
        rewrite B. cbn [dget]. apply String.eqb_neq in NE. rewrite NE. reflexivity.
      * intros n v0 s' H1 H2. assert (n <> m) by (intros ->; apply N1; eapply dget_In_keys; eauto). rewrite dget_ddel_other in H2 by assumption.
        apply (FD n v0 s'); [|exact H2]. cbn. apply String.eqb_neq in H. now rewrite H.
      * rewrite E. cbn [rbind fst snd]. exists ((m, ARaw x) :: ups). split; [reflexivity|]. split; [|split].
        { cbn. constructor; [|exact NU]. intros H. apply KU in H. pose proof (dget_ddel_same m st NS) as Z0. apply dget_None in Z0. contradiction. }
        { intros n. cbn [keys map fst In]. fold (keys ups). rewrite KU. split; [intros [<-|H]; [exact I|now apply keys_ddel_incl in H]|].
          intros H. destruct (String.eqb_spec n m) as [->|NE]; [now left|right]. destruct (dget n st) as [y|] eqn:Y0; [|apply dget_None in Y0; contradiction].
          eapply dget_In_keys. rewrite dget_ddel_other by exact NE. exact Y0. }
        { intros n a [H|H].
          - injection H as <- <-. exists f, s, x. cbn [dget]. rewrite String.eqb_refl. do 4 (split; [auto|]). destruct f as [[v0|c]|l]; try (injection FX as <-; reflexivity). exact FX.
          - destruct (C n a H) as (g & s' & x' & G1 & G2 & G3 & G4 & G5). assert (n <> m) by (intros ->; apply N1; eapply dget_In_keys; eauto).
            exists g, s', x'. rewrite dget_ddel_other in G3 by assumption. cbn [dget]. apply String.eqb_neq in H0. rewrite H0. auto. }
    + destruct (IH st N2 NS) as (ups & E & NU & KU & C).
      * intros n. rewrite B. cbn [dget]. destruct (String.eqb_spec n m) as [->|NE]; [|reflexivity]. split.
        { intros (g & [= <-] & H). congruence. }
        { intros (g & G & _). exfalso. apply N1. eapply dget_In_keys; eauto. }
      * intros n v0 s H1 H2. apply (FD n v0 s); [|exact H2]. cbn. destruct (String.eqb_spec n m) as [->|]; [|exact H1]. exfalso. apply N1. eapply dget_In_keys; eauto.
      * exists ups. split; [exact E|]. split; [exact NU|]. split; [exact KU|]. intros n a H. destruct (C n a H) as (g & s & x & G1 & G2).
        exists g, s, x. cbn [dget]. destruct (String.eqb_spec n m) as [->|]; [|auto]. exfalso. apply N1. eapply dget_In_keys; eauto.
Qed.

Lemma restore_ok h1 r1 o1 st h2 r2 o2 : nth_error h1 r1 = Some o1 -> NoDup (keys (p_vars o1)) -> save to_dict h1 r1 = Ok st ->
  nth_error h2 r2 = Some o2 -> k_fields (p_class o2) = None -> wf_fields o2 -> sealed o2 -> same_nodes o1 o2 ->
  (forall n v0 f v s, node_at o2 n (FAttr (ARaw v0)) -> node_at o1 n f -> field_value f = Some v -> to_dict v = Ok s -> exists x, from_dict v0 s = Ok x) ->
  exists o, restore from_dict h2 r2 st = (h2 ++ [o], Ok tt) /\ p_class o = p_class o2 /\ keys (p_vars o) = keys (p_vars o2) /\
    (forall n f, dget n (p_vars o2) = Some f -> node_field f = false -> dget n (p_vars o) = Some f) /\
    (forall n f1 f2, node_at o1 n f1 -> node_at o2 n f2 -> exists f, dget n (p_vars o) = Some f /\ comes_back to_dict from_dict f1 f2 f).
Proof.
  intros O1 ND1 SV O2 KF WF SE SN FD. unfold save in SV. rewrite O1 in SV. destruct (save_fields_get _ _ SV ND1) as (NS & B & C).
  destruct (restore_fields_ok (p_vars o2) st (proj1 WF) NS) as (ups & E & NU & KU & CU).
  - intros n. rewrite B. exact (SN n).
  - intros n v0 s H1 H2. assert (I : exists f, node_at o1 n f) by (apply B; eapply dget_In_keys; eauto). destruct I as (f & F1 & F2).
    destruct (proj1 (SN n) (ex_intro _ f (conj F1 F2))) as (f2 & G1 & G2). rewrite H1 in G1. injection G1 as <-.
    destruct (C n f F1 F2) as (v & s' & A1 & A2 & A3). assert (s' = s) by congruence. subst s'. now apply (FD n v0 f v s (conj H1 G2) (conj F1 F2)).
  - unfold restore. rewrite O2, E. destruct (replace_plain h2 r2 o2 ups O2 KF WF (proj2 SE) NU) as (o & R & PC & KO & FR & GV).
    { intros n a I. destruct (CU n a I) as (f & s & x & G1 & G2 & G3 & -> & _). split; [exact Logic.I|]. exists f.
      destruct f as [[v|c]|l]; [eexists|eexists|discriminate]; split; try exact G1; reflexivity. }
    exists o. split; [exact R|]. split; [exact PC|]. split; [exact KO|]. split.
    + intros n f H1 H2. rewrite FR; [exact H1|]. intros H. apply in_map_iff in H as ([n' a] & <- & I). destruct (CU n' a I) as (g & ? & ? & G1 & G2 & _). cbn [fst] in H1. congruence.
    + intros n f1 f2 [F1 NF1] [F2 NF2]. destruct (C n f1 F1 NF1) as (v & s & A1 & A2 & A3).
      assert (I : In n (keys ups)) by (apply KU; eapply dget_In_keys; eauto). destruct (dget n ups) as [a|] eqn:G; [|apply dget_None in G; contradiction].
      destruct (CU n a (dget_In _ _ _ G)) as (f & s' & x & G1 & G2 & G3 & -> & G5). assert (f = f2) by congruence. subst f. assert (s' = s) by congruence. subst s'.
      destruct (GV n _ G) as (old & new & H1 & H2 & H3). assert (old = f2) by congruence. subst old. exists new. split; [exact H3|]. exists v, s. split; [exact A1|]. split; [exact A2|].
      destruct f2 as [[v0|c]|l]; cbn [stores] in H2; [exists x; auto|subst x; exact H2|discriminate].
Qed.

(** By hand. *)
Lemma reload_values_ok h r o : nth_error h r = Some o -> forall st, NoDup (keys st) ->
  (forall n s, dget n st = Some s -> exists f v0 x, dget n (p_vars o) = Some f /\ field_value f = Some v0 /\ from_dict v0 s = Ok x) ->
  exists ups, reload_values from_dict h r st = Ok ups /\ keys ups = keys st /\
    forall n a, In (n, a) ups -> exists f s v0 x, dget n (p_vars o) = Some f /\ dget n st = Some s /\ field_value f = Some v0 /\ from_dict v0 s = Ok x /\ a = ARaw x.
Proof.
  intros O. induction st as [|[m s] st IH]; intros ND H; cbn [reload_values].
  - exists []. split; [reflexivity|]. split; [reflexivity|]. intros n a [].
  - inversion ND as [|? ? N1 N2]; subst. destruct (H m s) as (f & v0 & x & F1 & F2 & F3); [cbn; now rewrite String.eqb_refl|].
    assert (P : pgetattr h r m = Ok (FAttr (ARaw v0))). { unfold pgetattr. rewrite O, F1. destruct f as [[v|c]|l]; cbn in F2; try discriminate; congruence. }
    rewrite P. cbn [rbind]. rewrite F3. cbn [rbind]. destruct (IH N2) as (ups & E & K & C).
    { intros n s' G. apply (H n s'). cbn. destruct (String.eqb_spec n m) as [->|]; [|exact G]. exfalso. apply N1. eapply dget_In_keys; eauto. }
    rewrite E. cbn [rbind]. exists ((m, ARaw x) :: ups). split; [reflexivity|]. split; [cbn; unfold keys in K; now rewrite K|].
    intros n a [I|I]; [injection I as <- <-; exists f, s, v0, x; cbn [dget]; rewrite String.eqb_refl; auto|].
    destruct (C n a I) as (f' & s' & v' & x' & C1 & C2 & C3). exists f', s', v', x'. cbn [dget]. destruct (String.eqb_spec n m) as [->|]; [|auto].
    exfalso. apply N1. eapply dget_In_keys; eauto.
Qed.
Lemma reload_ok h1 r1 o1 st h2 r2 o2 : nth_error h1 r1 = Some o1 -> NoDup (keys (p_vars o1)) -> save to_dict h1 r1 = Ok st ->
  nth_error h2 r2 = Some o2 -> k_fields (p_class o2) = None -> wf_fields o2 -> sealed o2 ->
  (forall n f v s, node_at o1 n f -> field_value f = Some v -> to_dict v = Ok s ->
     exists f2 v0 x, dget n (p_vars o2) = Some f2 /\ field_value f2 = Some v0 /\ from_dict v0 s = Ok x) ->
  exists o, reload from_dict h2 r2 st = (h2 ++ [o], Ok tt) /\ p_class o = p_class o2 /\ keys (p_vars o) = keys (p_vars o2) /\
    (forall n f, dget n (p_vars o2) = Some f -> ~ (exists f1, node_at o1 n f1) -> dget n (p_vars o) = Some f) /\
    (forall n f1 f2, node_at o1 n f1 -> dget n (p_vars o2) = Some f2 -> exists f, dget n (p_vars o) = Some f /\ reloaded to_dict from_dict f1 f2 f).
Proof.
  intros O1 ND1 SV O2 KF WF SE FD. unfold save in SV. rewrite O1 in SV. destruct (save_fields_get _ _ SV ND1) as (NS & B & C).
  destruct (reload_values_ok h2 r2 o2 O2 st NS) as (ups & E & KU & CU).
  { intros n s G. assert (I : exists f, node_at o1 n f) by (apply B; eapply dget_In_keys; eauto). destruct I as (f & F1 & F2).
    destruct (C n f F1 F2) as (v & s' & A1 & A2 & A3). assert (s' = s) by congruence. subst s'. exact (FD n f v s (conj F1 F2) A1 A2). }
  unfold reload. rewrite E. destruct (replace_plain h2 r2 o2 ups O2 KF WF (proj2 SE)) as (o & R & PC & KO & FR & GV).
  { rewrite KU. exact NS. }
  { intros n a I. destruct (CU n a I) as (f & s & v0 & x & G1 & G2 & G3 & G4 & ->). split; [exact Logic.I|]. exists f.
    destruct f as [[v|c]|l]; [eexists|eexists|discriminate]; split; try exact G1; reflexivity. }
  exists o. split; [exact R|]. split; [exact PC|]. split; [exact KO|]. split.
  - intros n f H1 H2. rewrite FR; [exact H1|]. rewrite KU. intros H. apply B in H. now apply H2.
  - intros n f1 f2 [F1 NF1] F2. destruct (C n f1 F1 NF1) as (v & s & A1 & A2 & A3).
    assert (I : In n (keys ups)) by (rewrite KU; eapply dget_In_keys; eauto). destruct (dget n ups) as [a|] eqn:G; [|apply dget_None in G; contradiction].
    destruct (CU n a (dget_In _ _ _ G)) as (f & s' & v0 & x & G1 & G2 & G3 & G4 & ->). assert (f = f2) by congruence. subst f. assert (s' = s) by congruence. subst s'.
    destruct (GV n _ G) as (old & new & H1 & H2 & H3). assert (old = f2) by congruence. subst old. exists new. split; [exact H3|]. exists v, s, v0, x. do 4 (split; [assumption|]).
    destruct f2 as [[v1|c]|l]; cbn [stores] in H2; [exact H2|exact H2|discriminate].
Qed.
End Save.

Lemma In_ddel_keys {A} n m (d : dict A) : n <> m -> (In n (keys (ddel m d)) <-> In n (keys d)).
Proof.
  intros NE. split; [apply keys_ddel_incl|]. intros H. destruct (dget n d) as [y|] eqn:Y0; [|apply dget_None in Y0; contradiction].
  eapply dget_In_keys. rewrite dget_ddel_other by exact NE. exact Y0.
Qed.
Lemma restore_fields_left from_dict vars : NoDup (keys vars) -> forall st, NoDup (keys st) ->
  (exists e, restore_fields from_dict vars st = Err e /\ ((forall v0 s, exists x, from_dict v0 s = Ok x) -> e = ValueError)) \/
  exists u st', restore_fields from_dict vars st = Ok (u, st') /\
    (forall n f, dget n vars = Some f -> node_field f = true -> In n (keys st)) /\
    (forall n, In n (keys st) -> (forall f, dget n vars = Some f -> node_field f = false) -> In n (keys st')).
Proof.
  induction vars as [|[m f] vars IH]; intros NV st ND; [right; exists [], st; split; [reflexivity|]; split; [discriminate|auto]|].
  cbn [keys map fst] in NV. inversion NV as [|? ? N1 N2]; subst. specialize (IH N2). cbn [restore_fields].
  destruct (node_field f) eqn:NF.
  - destruct (dget m st) as [s|] eqn:G; [|left; eauto].
    destruct (match f with FAttr (ARaw v0) => from_dict v0 s | _ => Ok s end) as [v|e] eqn:Hv.
    2:{ left. cbn [rbind]. exists e. split; [reflexivity|]. intros T. exfalso. destruct f as [[v0|]|]; try discriminate. destruct (T v0 s) as (x & Hx). congruence. }
    cbn [rbind]. destruct (IH (ddel m st) (NoDup_keys_ddel _ _ ND)) as [(e & E & T)|(u & st' & E & A & B)]; rewrite E; [left; cbn [rbind]; eauto|].
    right. cbn [rbind fst snd]. exists ((m, ARaw v) :: u), st'. split; [reflexivity|]. split.
    + intros n g H NG. cbn [dget] in H. destruct (String.eqb_spec n m) as [->|NE]; [now apply dget_In_keys in G|]. apply (In_ddel_keys n m); eauto.
    + intros n I H. cbn [dget] in H. destruct (String.eqb_spec n m) as [->|NE]; [now rewrite (H f eq_refl) in NF|]. apply B; [now apply In_ddel_keys|exact H].
  - destruct (IH st ND) as [E|(u & st' & E & A & B)]; [now left|]. right. exists u, st'. split; [exact E|]. split.
    + intros n g H NG. cbn [dget] in H. destruct (String.eqb_spec n m) as [->|NE]; [congruence|eauto].
    + intros n I H. cbn [dget] in H. apply B; [exact I|]. intros g J. destruct (String.eqb_spec n m) as [->|NE]; [exfalso; apply N1; now apply dget_In_keys in J|auto].
Qed.
Lemma restore_mismatch from_dict h r o st :
  nth_error h r = Some o -> NoDup (keys (p_vars o)) -> NoDup (keys st) ->
  ((exists n f, node_at o n f /\ ~ In n (keys st)) \/ (exists n, In n (keys st) /\ forall f, ~ node_at o n f)) ->
  exists e, restore from_dict h r st = (h, Err e) /\ ((forall v0 s, exists x, from_dict v0 s = Ok x) -> e = ValueError).
Proof.
  intros O NV ND H. unfold restore. rewrite O. destruct (restore_fields_left from_dict _ NV st ND) as [(e & -> & T)|(u & st' & -> & A & B)]; [eauto|].
  destruct H as [(n & f & (G & NF) & NI)|(n & I & NA)]; [exfalso; eauto|].
  assert (J : In n (keys st')) by (apply B; [exact I|]; intros f G; destruct (node_field f) eqn:NF; [exfalso; apply (NA f); split; assumption|reflexivity]).
  destruct st' as [|x st']; [contradiction|eauto].
Qed.
