(** Surgery_proofs: get_state after a submodule was assigned, replaced or deleted. *)
From Coq Require Import Lia.
From Verif Require Import PyBase PyBaseFacts ValuesM Spec_Eq ValuesFacts StateM ModuleM Spec_State Spec_Module Spec_Assign Spec_Path Spec_Surgery
  Graph_facts State_proofs Dfs_proofs Write_proofs Assign_proofs Path_proofs Prop_Path.
Local Open Scope string_scope.
Local Open Scope list_scope.

(** ** paths that do not use the attribute *)
Section Use.
Variables (w : world) (x : nat) (n : string).
Definition avoids (r : nat) (p : list string) : Prop := forall p1 p2, p = p1 ++ n :: p2 -> follow w r p1 <> Some x.
Lemma avoids_prefix r p q : avoids r (p ++ q) -> avoids r p.
Proof. intros H p1 p2 ->. apply (H p1 (p2 ++ q)). now rewrite <- app_assoc. Qed.
Lemma avoids_parts r p q1 q2 q3 : avoids r p -> p = q1 ++ q2 ++ q3 -> avoids r q1 /\ avoids r (q1 ++ q2).
Proof. intros A ->. split; [exact (avoids_prefix _ _ _ A)|]. rewrite app_assoc in A. exact (avoids_prefix _ _ _ A). Qed.
Lemma first_use r p : avoids r p \/ exists p1 p2, p = p1 ++ n :: p2 /\ avoids r p1 /\ follow w r p1 = Some x.
Proof.
  induction p as [|m p IH] using rev_ind.
  - left. intros [|] p2 E; discriminate.
  - destruct IH as [A|(p1 & p2 & -> & A & F)].
    + assert (D : (follow w r p = Some x /\ m = n) \/ ~ (follow w r p = Some x /\ m = n)).
      { destruct (string_dec m n) as [->|Nm]; [|right; intros [_ E]; congruence]. destruct (follow w r p) as [z|]; [|right; intros [E _]; discriminate].
        destruct (Nat.eq_dec z x) as [->|Nz]; [left; auto|right; intros [E _]; congruence]. }
      destruct D as [[F ->]|D]; [right; exists p, []; auto|]. left. intros p1 p2 E F.
      destruct (exists_last (l := n :: p2)) as (p2' & k & Ek); [discriminate|]. rewrite Ek, app_assoc in E. apply app_inj_tail in E as [E1 <-].
      destruct p2' as [|h p2'].
      * cbn in Ek. injection Ek as <- _. rewrite app_nil_r in E1. subst p1. auto.
      * cbn in Ek. injection Ek as <- _. exact (A p1 p2' E1 F).
    + right. exists p1, (p2 ++ [m]). rewrite <- app_assoc. auto.
Qed.
End Use.

Lemma changed_sym w w' x n : changed_at w w' x n -> changed_at w' w x n.
Proof.
  intros (A & B & C & o & o' & Ho & Ho' & D). split; [now symmetry|]. split; [now symmetry|]. split; [intros y Hy; symmetry; now apply C|].
  exists o', o. split; [exact Ho'|]. split; [exact Ho|]. intros m Hm. symmetry. now apply D.
Qed.
Lemma follow_avoid w w' x n : changed_at w w' x n -> forall p r, avoids w x n r p -> follow w' r p = follow w r p.
Proof.
  intros (_ & _ & C & o & o' & Ho & Ho' & D). induction p as [|m p IH]; intros r A.
  - cbn. destruct (Nat.eq_dec r x) as [->|Hr]; [now rewrite Ho, Ho'|now rewrite C].
  - rewrite !follow_cons. assert (T : forall c, child w r m c -> avoids w x n c p).
    { intros c Hc p1 p2 -> F. apply (A (m :: p1) p2 eq_refl). rewrite (child_follow _ _ _ _ _ Hc). exact F. }
    destruct (Nat.eq_dec r x) as [->|Hr].
    + rewrite Ho, Ho'. assert (m <> n). { intros ->. apply (A [] p eq_refl). cbn. now rewrite Ho. }
      rewrite (D m H). destruct (dget m (m_vars o)) as [[[]|]|] eqn:E; try reflexivity. apply IH, T. exists o. auto.
    + rewrite (C r Hr). destruct (get_obj w r) as [q|] eqn:Eq; [|reflexivity]. destruct (dget m (m_vars q)) as [[[]|]|] eqn:E; try reflexivity.
      apply IH, T. exists q. auto.
Qed.
Lemma avoids_both w w' x n r p : changed_at w w' x n -> avoids w x n r p -> avoids w' x n r p.
Proof.
  intros H A p1 p2 E F. apply (A p1 p2 E). rewrite <- F. symmetry. apply (follow_avoid w w' x n H). rewrite E in A. eapply avoids_prefix; eauto.
Qed.

(** ** behind the attribute *)
Lemma direct_prefix w r p q y z : follow w r p = Some z -> direct_path w r (p ++ q) y -> direct_path w r p z.
Proof. intros F [_ D]. split; [exact F|]. intros q1 q2 q3 E. apply (D q1 q2 (q3 ++ q)). rewrite E, !app_assoc. reflexivity. Qed.
Lemma earlier_tails p q a b : earlier p q -> earlier (p ++ a) (q ++ b).
Proof. intros (c & n & m & p' & q' & -> & -> & L). exists c, n, m, (p' ++ a), (q' ++ b). rewrite <- !app_assoc. auto. Qed.

Section Behind.
Variables (w : world) (r x : nat) (n : string) (c : nat) (px : list string).
Hypothesis Hw : wf_world w.
Hypothesis Hr : valid w r.
Hypothesis Hc : child w x n c.
Hypothesis Ho : only_through w r x n.
Hypothesis Hpx : first_path w r px x.

Lemma behind_path p y : reaches w c y -> follow w r p = Some y -> exists p1 p2, p = p1 ++ n :: p2 /\ follow w r p1 = Some x /\ follow w c p2 = Some y.
Proof.
  intros [q Hq] F. destruct (Ho px q y) with (p := p) as (q1 & q2 & -> & F1); auto; [apply Hpx| |].
  - rewrite follow_app, (proj1 (proj1 Hpx)), (child_follow _ _ _ _ _ Hc). exact Hq.
  - exists q1, q2. split; [reflexivity|]. split; [exact F1|]. rewrite follow_app, F1, (child_follow _ _ _ _ _ Hc) in F. exact F.
Qed.
Lemma behind_direct p1 p2 y : direct_path w r p1 x -> direct_path w c p2 y -> direct_path w r (p1 ++ n :: p2) y.
Proof.
  intros [F1 D1] [F2 D2]. split; [now rewrite follow_app, F1, (child_follow _ _ _ _ _ Hc)|]. intros q1 q2 q3 E Ne K.
  assert (F0 : follow w r (p1 ++ [n]) = Some c).
  { rewrite follow_app, F1, (child_follow _ _ _ _ _ Hc). cbn. destruct (follow_start _ _ _ _ F2) as [o ->]. reflexivity. }
  destruct (Nat.le_gt_cases (List.length (p1 ++ [n])) (List.length q1)) as [L|L].
  - assert (E' : (p1 ++ [n]) ++ p2 = q1 ++ q2 ++ q3) by (rewrite <- app_assoc; exact E).
    destruct (app_prefix _ _ _ _ _ E' L) as (t & -> & E2). apply (D2 t q2 q3 E2 Ne). rewrite <- app_assoc, !(follow_app w (p1 ++ [n])), F0 in K. exact K.
  - rewrite app_length in L. cbn in L.
    destruct (Nat.le_gt_cases (List.length (q1 ++ q2)) (List.length p1)) as [L2|L2].
    + rewrite app_assoc in E. symmetry in E. destruct (app_prefix _ _ _ _ _ E L2) as (t & E2 & _). apply (D1 q1 q2 t); [now rewrite E2, <- app_assoc|exact Ne|exact K].
    + (* the Module met again lies behind the attribute, so the first visit came through it too *)
      assert (E' : (p1 ++ [n]) ++ p2 = (q1 ++ q2) ++ q3) by (rewrite <- !app_assoc; exact E).
      destruct (app_prefix _ _ _ _ _ E') as (t & E2 & E3); [rewrite app_length; cbn; lia|].
      assert (Ft : exists z, follow w c t = Some z). { rewrite E3, follow_app in F2. destruct (follow w c t); [eauto|discriminate]. }
      destruct Ft as [z Fz]. assert (Fq : follow w r (q1 ++ q2) = Some z) by (rewrite E2, follow_app, F0; exact Fz).
      rewrite Fq in K. symmetry in K. destruct (behind_path q1 z (ex_intro _ t Fz) K) as (a & b & -> & Fa & _).
      symmetry in E. destruct (app_prefix _ (a ++ n :: b) (q2 ++ q3) p1 (n :: p2) E) as (u & Eu & _); [lia|].
      apply (D1 a (n :: b ++ u) []); [rewrite Eu, app_nil_r, <- app_assoc; reflexivity|discriminate|].
      transitivity (follow w r p1); [f_equal; rewrite Eu, <- app_assoc; reflexivity|congruence].
Qed.
Lemma behind_first q y : first_path w c q y -> first_path w r (px ++ n :: q) y.
Proof.
  intros [D F]. destruct Hpx as [Dx Fx]. split; [now apply behind_direct|]. intros p' D'.
  destruct (behind_path p' y (ex_intro _ q (proj1 D)) (proj1 D')) as (p1 & p2 & -> & F1 & F2).
  destruct (Fx p1 (direct_prefix _ _ _ _ _ _ F1 D')) as [->|L]; [|right; now apply earlier_tails].
  assert (D2 : direct_path w c p2 y).
  { apply (direct_app w r (px ++ [n]) c); [|now rewrite <- app_assoc]. rewrite follow_app, F1, (child_follow _ _ _ _ _ Hc). cbn.
    destruct (follow_start _ _ _ _ F2) as [o ->]. reflexivity. }
  destruct (F p2 D2) as [->|L]; [now left|right]. apply earlier_app. now apply earlier_cons.
Qed.
Lemma behind_iff p y : reaches w c y -> (first_path w r p y <-> exists q, p = px ++ n :: q /\ first_path w c q y).
Proof.
  intros Ry. split; [|intros (q & -> & H); now apply behind_first]. intros H.
  assert (Vc : valid w c). { destruct Ry as [q Hq]. destruct (follow_start _ _ _ _ Hq) as [o Hoo]. eapply get_obj_lt; eauto. }
  destruct (C93_one_path w c y Hw Vc Ry) as (q & Hq & _). exists q. split; [|exact Hq].
  destruct (C93_one_path w r y Hw Hr) as (p0 & _ & U); [exists p; apply H|]. now rewrite (U p H), (U _ (behind_first q y Hq)).
Qed.
End Behind.

(** ** the two worlds *)
Section Two.
Variables (w w' : world) (r x : nat) (n : string).
Hypothesis Hch : changed_at w w' x n.
Hypothesis Ho : only_through w r x n.
Hypothesis Ho' : only_through w' r x n.

Definition kept (y : nat) : Prop := exists p, avoids w x n r p /\ follow w r p = Some y.
Lemma kept_avoids y p : kept y -> follow w r p = Some y -> avoids w x n r p.
Proof.
  intros (q & A & F) Fp p1 p2 -> F1. destruct (Ho p1 p2 y F1 Fp q F) as (q1 & q2 & E & G). exact (A q1 q2 E G).
Qed.
Lemma kept_avoids' y p : kept y -> follow w' r p = Some y -> avoids w x n r p.
Proof.
  intros (q & A & F) Fp. apply (avoids_both w' w x n r p (changed_sym _ _ _ _ Hch)). intros p1 p2 -> F1.
  assert (F' : follow w' r q = Some y) by (rewrite (follow_avoid _ _ _ _ Hch) by exact A; exact F).
  destruct (Ho' p1 p2 y F1 Fp q F') as (q1 & q2 & E & G). exact (avoids_both _ _ _ _ _ _ Hch A q1 q2 E G).
Qed.
Lemma kept_direct y p : kept y -> (direct_path w' r p y <-> direct_path w r p y).
Proof.
  intros Ky. split; intros [F D].
  - pose proof (kept_avoids' y p Ky F) as A. split; [rewrite <- F; symmetry; now apply (follow_avoid _ _ _ _ Hch)|]. intros q1 q2 q3 E Ne K. apply (D q1 q2 q3 E Ne).
    destruct (avoids_parts w x n r p q1 q2 q3 A E) as [A1 A2]. rewrite (follow_avoid _ _ _ _ Hch q1 r A1), (follow_avoid _ _ _ _ Hch (q1 ++ q2) r A2). exact K.
  - pose proof (kept_avoids y p Ky F) as A. split; [rewrite <- F; now apply (follow_avoid _ _ _ _ Hch)|]. intros q1 q2 q3 E Ne K. apply (D q1 q2 q3 E Ne).
    destruct (avoids_parts w x n r p q1 q2 q3 A E) as [A1 A2]. rewrite (follow_avoid _ _ _ _ Hch q1 r A1), (follow_avoid _ _ _ _ Hch (q1 ++ q2) r A2) in K. exact K.
Qed.
Lemma kept_first y p : kept y -> (first_path w' r p y <-> first_path w r p y).
Proof.
  intros Ky. unfold first_path. rewrite (kept_direct y p Ky). split; intros [A B]; (split; [exact A|]); intros q Q; apply B; now apply kept_direct.
Qed.
Lemma kept_x : reaches w r x -> kept x.
Proof. intros [p F]. destruct (first_use w x n r p) as [A|(p1 & p2 & -> & A & F1)]; [exists p|exists p1]; auto. Qed.

(** what is listed under other names is the same *)
Lemma kept_entries px k a : wf_world w -> wf_world w' -> valid w r ->
  (forall m, has_char "/" m = false -> m = n \/ m <> n) ->
  first_path w r px x -> k <> join_path (px ++ [n]) -> (forall k', k <> (join_path (px ++ [n]) ++ "/" ++ k')%string) ->
  (exists p y m, first_path w r p y /\ node_attr w y m a /\ k = join_path (p ++ [m])) ->
  exists p y m, first_path w' r p y /\ node_attr w' y m a /\ k = join_path (p ++ [m]).
Proof.
  intros Hw Hw' Hr _ Hpx N1 N2 (p & y & m & Fp & Na & Ek).
  destruct (first_use w x n r p) as [A|(p1 & p2 & Ep & A & F1)].
  - assert (Ky : kept y) by (exists p; split; [exact A|apply Fp]). exists p, y, m. split; [now apply kept_first|]. split; [|exact Ek].
    destruct Hch as (En & _ & C & o & o' & Hxo & Hxo' & D). destruct Na as (q & Hq & Hd & R). rewrite <- En in R.
    destruct (Nat.eq_dec y x) as [->|Ny]; [|exists q; rewrite (C y Ny); auto]. assert (q = o) by congruence. subst q.
    exists o'. split; [exact Hxo'|]. split; [|exact R]. rewrite D; [exact Hd|]. intros ->. apply N1. rewrite Ek. do 2 f_equal.
    destruct (C93_one_path w r x Hw Hr) as (p0 & _ & U); [exists p; apply Fp|]. now rewrite (U p Fp), (U px Hpx).
  - exfalso. destruct Fp as [[F Dp] Fp]. pose proof F as F0. rewrite Ep, follow_app, F1 in F0. apply follow_cons_child in F0 as (c & Hc & F0).
    assert (Ry : reaches w c y) by (exists p2; exact F0).
    destruct (proj1 (behind_iff w r x n c px Hw Hr Hc Ho Hpx p y Ry)) as (q & Eq & _); [split; [split; assumption|assumption]|].
    apply (N2 (join_path (q ++ [m]))). rewrite Ek, Eq, <- join_app.
    + rewrite <- !app_assoc. reflexivity.
    + destruct px; discriminate.
    + destruct q; discriminate.
Qed.
End Two.

Lemma child_det w x n c d : child w x n c -> child w x n d -> c = d.
Proof. intros (o & A & B) (o' & A' & B'). congruence. Qed.

Lemma apart_follow w w' r x n c : changed_at w w' x n -> reaches w r x -> apart w r c -> forall p, avoids w x n c p.
Proof. intros _ Rx Ap p p1 p2 _ F. apply (Ap x Rx). exists p1. exact F. Qed.

Lemma new_only_through w w' r x n : changed_at w w' x n -> reaches w r x ->
  (forall c, child w' x n c -> apart w r c) -> only_through w' r x n.
Proof.
  intros Hch Rx Ap p1 p2 y F1 F p Fp. destruct (first_use w' x n r p) as [A|(q1 & q2 & E & A & G)]; [|eauto].
  exfalso. rewrite follow_app, F1 in F. apply follow_cons_child in F as (c & Hc & F). specialize (Ap c Hc).
  apply (Ap y).
  - exists p. rewrite <- Fp. apply (follow_avoid w' w x n (changed_sym _ _ _ _ Hch)). exact A.
  - exists p2. rewrite <- F. symmetry. apply (follow_avoid w w' x n Hch). eapply apart_follow; eauto.
Qed.

Theorem change_state w w' r x n : wf_world w -> wf_world w' -> valid w r -> names_ok w r -> names_ok w' r -> has_char "/" n = false ->
  reaches w r x -> changed_at w w' x n -> only_through w r x n -> (forall c, has_attr w' x n (ARaw (PyMod c)) -> apart w r c) ->
  exists px s s', first_path w r px x /\ get_state w r = Ok s /\ get_state w' r = Ok s' /\
    (forall k, k <> join_path (px ++ [n]) -> (forall k', k <> (join_path (px ++ [n]) ++ "/" ++ k')%string) -> dget k s' = dget k s) /\
    (forall a, dget (join_path (px ++ [n])) s' = Some a <-> node_attr w' x n a) /\
    (forall c, has_attr w' x n (ARaw (PyMod c)) -> exists sc, get_state w c = Ok sc /\ forall k, dget (join_path (px ++ [n]) ++ "/" ++ k) s' = dget k sc) /\
    ((forall c, ~ has_attr w' x n (ARaw (PyMod c))) -> forall k, dget (join_path (px ++ [n]) ++ "/" ++ k) s' = None).
Proof.
  intros Hw Hw' Hr Hn Hn' Sn Rx Hch Ho Ap. pose proof (new_only_through w w' r x n Hch Rx Ap) as Ho'.
  pose proof (changed_sym _ _ _ _ Hch) as Hch'.
  assert (Hr' : valid w' r) by (unfold valid; destruct Hch as (_ & -> & _); exact Hr).
  destruct (C93_one_path w r x Hw Hr Rx) as (px & Hpx & _).
  destruct (C93_first_path w r Hw Hr Hn) as (s & Gs & Ds). destruct (C93_first_path w' r Hw' Hr' Hn') as (s' & Gs' & Ds').
  pose proof (kept_x w r x n Rx) as Kx.
  assert (Hpx' : first_path w' r px x) by (apply (kept_first w w' r x n Hch Ho Ho'); assumption).
  assert (Np : Forall no_slash (px ++ [n])).
  { apply Forall_app. split; [exact (names_no_slash w r px x Hn (proj1 (proj1 Hpx)))|]. constructor; [exact Sn|constructor]. }
  assert (NE : px ++ [n] <> []) by (destruct px; discriminate).
  assert (Sl : forall y m a, reaches w' r y -> node_attr w' y m a -> has_char "/" m = false).
  { intros y m a Ry Na. pose proof Na as (o & Hoo & Hd & _). exact (proj1 (proj2 (Hn' y o m a Ry Hoo Hd)) Na). }
  exists px, s, s'. split; [exact Hpx|]. split; [exact Gs|]. split; [exact Gs'|]. split; [|split; [|split]].
  - intros k N1 N2. assert (Eq : forall a, dget k s' = Some a <-> dget k s = Some a).
    { intros a. rewrite Ds, Ds'. split; intros H.
      - eapply (kept_entries w' w r x n Hch' Ho' Ho px k a Hw' Hw Hr'); eauto. intros m _. destruct (string_dec m n); auto.
      - eapply (kept_entries w w' r x n Hch Ho Ho' px k a Hw Hw' Hr); eauto. intros m _. destruct (string_dec m n); auto. }
    destruct (dget k s') as [a|]; [symmetry; now apply Eq|]. destruct (dget k s) as [a|]; [now apply Eq|reflexivity].
  - intros a. rewrite Ds'. split.
    + intros (p & y & m & Fp & Na & Ek). apply join_inj in Ek; auto; [| destruct p; discriminate |].
      * apply app_inj_tail in Ek as [<- <-]. assert (y = x) by (pose proof (proj1 (proj1 Fp)); pose proof (proj1 (proj1 Hpx')); congruence). now subst.
      * apply Forall_app. split; [exact (names_no_slash w' r p y Hn' (proj1 (proj1 Fp)))|]. constructor; [|constructor]. eapply Sl; [exists p; apply Fp|exact Na].
    + intros Na. exists px, x, n. auto.
  - intros c Hc. specialize (Ap c Hc). assert (Hc' : child w' x n c) by exact Hc.
    assert (Av : forall p, avoids w x n c p) by (eapply apart_follow; eauto).
    assert (Fc : forall p, follow w' c p = follow w c p) by (intros p; now apply (follow_avoid w w' x n Hch)).
    assert (Vc' : valid w' c) by (eapply child_valid; eauto). assert (Vc : valid w c) by (unfold valid in *; destruct Hch as (_ & <- & _); exact Vc').
    assert (Rc : reaches w' r c).
    { exists (px ++ [n]). rewrite follow_app, (proj1 (proj1 Hpx')), (child_follow _ _ _ _ _ Hc'). cbn. destruct (get_obj_ex _ _ Vc') as [o ->]. reflexivity. }
    assert (Oc : forall y, reaches w c y -> get_obj w' y = get_obj w y).
    { intros y Ry. destruct Hch as (_ & _ & C & _). apply C. intros ->. exact (Ap x Rx Ry). }
    assert (En : w_nodes w' = w_nodes w) by apply Hch.
    assert (Nc : names_ok w c).
    { intros y o m a Ry Hoo Hd. assert (Ry' : reaches w' r y). { eapply reaches_trans; [exact Rc|]. destruct Ry as [p Hp]. exists p. now rewrite Fc. }
      pose proof (Hn' y o m a Ry') as H. rewrite (Oc y Ry) in H. destruct (H Hoo Hd) as (H1 & H2 & H3). split; [exact H1|]. split.
      - intros (q & Hq & R1 & R2 & R3). apply H2. exists q. rewrite (Oc y Ry), En. auto.
      - intros (q & Hq & R1 & R2 & R3). apply H3. exists q. rewrite (Oc y Ry), En. auto. }
    destruct (C93_first_path w c Hw Vc Nc) as (sc & Gc & Dc). exists sc. split; [exact Gc|].
    assert (Dir : forall p y, direct_path w' c p y <-> direct_path w c p y).
    { intros p y. unfold direct_path. rewrite Fc. split; intros [A B]; (split; [exact A|]); intros q1 q2 q3 E Ne; specialize (B q1 q2 q3 E Ne); rewrite ?Fc in *; exact B. }
    assert (Fst : forall p y, first_path w' c p y <-> first_path w c p y).
    { intros p y. unfold first_path. rewrite Dir. split; intros [A B]; (split; [exact A|]); intros q Q; apply B; now apply Dir. }
    assert (NaE : forall y m a, reaches w c y -> (node_attr w' y m a <-> node_attr w y m a)).
    { intros y m a Ry. unfold node_attr. rewrite (Oc y Ry), En. reflexivity. }
    intros k. assert (Eq : forall a, dget (join_path (px ++ [n]) ++ "/" ++ k) s' = Some a <-> dget k sc = Some a).
    { intros a. rewrite Ds', Dc. split.
      - intros (p & y & m & Fp & Na & K). pose proof (split_slash_nonnil k) as Nk. rewrite <- (join_split k), <- join_app in K by assumption.
        apply join_inj in K.
        + rewrite (app_removelast_last "" Nk), app_assoc in K. apply app_inj_tail in K as [Ep Em].
          assert (Fy : follow w' c (removelast (split_slash k)) = Some y).
          { pose proof (proj1 (proj1 Fp)) as F. rewrite <- Ep, <- app_assoc, follow_app, (proj1 (proj1 Hpx')) in F. cbn [app] in F. now rewrite (child_follow _ _ _ _ _ Hc') in F. }
          assert (Ry' : reaches w' c y) by (eexists; exact Fy). assert (Ry : reaches w c y) by (destruct Ry' as [q Hq]; exists q; now rewrite <- Fc).
          destruct (proj1 (behind_iff w' r x n c px Hw' Hr' Hc' Ho' Hpx' p y Ry') Fp) as (q & Eq & Fq).
          exists q, y, m. split; [now apply Fst|]. split; [now apply NaE|].
          rewrite Eq, <- app_assoc in Ep. apply app_inv_head in Ep. injection Ep as Ep. rewrite <- Ep, <- Em, <- (app_removelast_last "" Nk). symmetry. apply join_split.
        + destruct px; discriminate.
        + destruct p; discriminate.
        + apply Forall_app. split; [exact Np|apply split_slash_noslash].
        + apply Forall_app. split; [exact (names_no_slash w' r p y Hn' (proj1 (proj1 Fp)))|]. constructor; [|constructor]. eapply Sl; [exists p; apply Fp|exact Na].
      - intros (q & y & m & Fq & Na & ->). assert (Ry : reaches w c y) by (exists q; apply Fq). exists (px ++ n :: q), y, m. split.
        + apply (behind_first w' r x n c px Hc' Ho' Hpx'). now apply Fst.
        + split; [now apply NaE|]. rewrite <- join_app by (auto; destruct q; discriminate). now rewrite <- !app_assoc. }
    destruct (dget (join_path (px ++ [n]) ++ "/" ++ k) s') as [a|]; [symmetry; now apply Eq|]. destruct (dget k sc) as [a|]; [now apply Eq|reflexivity].
  - intros Nc k. destruct (dget (join_path (px ++ [n]) ++ "/" ++ k) s') as [a|] eqn:D; [|reflexivity]. exfalso. apply Ds' in D as (p & y & m & Fp & Na & K).
    pose proof (split_slash_nonnil k) as Nk. rewrite <- (join_split k), <- join_app in K by assumption. apply join_inj in K.
    + rewrite (app_removelast_last "" Nk), app_assoc in K. apply app_inj_tail in K as [Ep Em].
      pose proof (proj1 (proj1 Fp)) as F. rewrite <- Ep, <- app_assoc, follow_app, (proj1 (proj1 Hpx')) in F. apply follow_cons_child in F as (c & Hc & _). exact (Nc c Hc).
    + destruct px; discriminate.
    + destruct p; discriminate.
    + apply Forall_app. split; [exact Np|apply split_slash_noslash].
    + apply Forall_app. split; [exact (names_no_slash w' r p y Hn' (proj1 (proj1 Fp)))|]. constructor; [|constructor]. eapply Sl; [exists p; apply Fp|exact Na].
Qed.
