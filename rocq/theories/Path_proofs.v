(** get_state lists every Module under the first of the direct paths to it. *)
From Coq Require Import Lia Sorted.
From Verif Require Import PyBase PyBaseFacts ValuesM Spec_Eq ValuesFacts StateM ModuleM Spec_State Spec_Module Graph_facts State_proofs Dfs_proofs Mdef_proofs Write_proofs Assign_proofs Spec_Path.
Local Open Scope string_scope.
Local Open Scope list_scope.

(** walks that avoid a set of Modules, given by their ids *)
Inductive walk (w : world) (B : list nat) : nat -> list string -> nat -> Prop :=
| walk_nil x : valid w x -> ~ In (idof w x) B -> walk w B x [] x
| walk_cons x n c p y : ~ In (idof w x) B -> child w x n c -> walk w B c p y -> walk w B x (n :: p) y.
(** and meet no Module twice *)
Inductive swalk (w : world) : list nat -> nat -> list string -> nat -> Prop :=
| sw_nil B x : valid w x -> ~ In (idof w x) B -> swalk w B x [] x
| sw_cons B x n c p y : ~ In (idof w x) B -> child w x n c -> swalk w (B ++ [idof w x]) c p y -> swalk w B x (n :: p) y.

Lemma child_fun w x n c d : child w x n c -> child w x n d -> c = d.
Proof. intros (o & Ho & Hd) (o' & Ho' & Hd'). congruence. Qed.
Lemma child_valid w x n c : wf_world w -> child w x n c -> valid w c.
Proof. intros Hw (o & Ho & Hd). exact (wfo_refs _ _ (wf_objs _ Hw _ _ Ho) _ _ Hd). Qed.
Lemma child_valid_l w x n c : child w x n c -> valid w x.
Proof. intros (o & Ho & Hd). eapply get_obj_lt; eauto. Qed.

Lemma walk_union w B1 B2 B x p y : walk w B1 x p y -> walk w B2 x p y -> (forall z, In z B -> In z B1 \/ In z B2) -> walk w B x p y.
Proof.
  intros H. induction H as [x V N|x n c p y N C H IH]; intros H2 HB.
  - inversion H2; subst. constructor; auto. intros Hi. destruct (HB _ Hi); auto.
  - inversion H2 as [|x' n' c' p' y' N' C' H']; subst. assert (c' = c) by (eapply child_fun; eauto). subst. econstructor; eauto.
    intros Hi. destruct (HB _ Hi); auto.
Qed.
Lemma walk_less w B B' x p y : walk w B x p y -> incl B' B -> walk w B' x p y.
Proof. intros H Hi. eapply walk_union; [exact H|exact H|]. intros z Hz. left. auto. Qed.
Lemma swalk_walk w B x p y : swalk w B x p y -> walk w B x p y.
Proof.
  intros H. induction H; [now constructor|]. econstructor; eauto. eapply walk_less; [eassumption|]. intros z Hz. apply in_or_app. now left.
Qed.
Lemma swalk_more w B x p y : swalk w B x p y -> forall B', walk w B' x p y -> swalk w B' x p y.
Proof.
  intros H. induction H as [B x V N|B x n c p y N C H IH]; intros B' H2.
  - inversion H2; subst. now constructor.
  - inversion H2 as [|x' n' c' p' y' N' C' H']; subst. assert (c' = c) by (eapply child_fun; eauto). subst. econstructor; eauto.
    apply IH. eapply walk_union; [exact H'|apply swalk_walk; exact H|]. intros z Hz. apply in_app_iff in Hz as [Hz|Hz]; [now left|right; apply in_or_app; now right].
Qed.
Lemma walk_start w B x p y : walk w B x p y -> ~ In (idof w x) B /\ valid w x.
Proof. intros H. inversion H; subst; [auto|]. split; [assumption|]. eapply child_valid_l; eauto. Qed.
Lemma walk_end w B x p y : walk w B x p y -> ~ In (idof w y) B /\ valid w y.
Proof. intros H. induction H; auto. Qed.
Lemma walk_app w B x p y q z : walk w B x p y -> walk w B y q z -> walk w B x (p ++ q) z.
Proof. intros H. induction H; intros; cbn; [assumption|]. econstructor; eauto. Qed.
Lemma walk_follow w B x p y : walk w B x p y -> follow w x p = Some y.
Proof.
  intros H. induction H as [x V N|x n c p y N (o & Ho & Hd) H IH].
  - cbn. destruct (get_obj_ex _ _ V) as [o ->]. reflexivity.
  - now rewrite follow_cons, Ho, Hd.
Qed.
Lemma follow_walk w p : forall x y, follow w x p = Some y -> walk w [] x p y.
Proof.
  induction p as [|n p IH]; intros x y H.
  - cbn in H. destruct (get_obj w x) as [o|] eqn:E; [|discriminate]. injection H as <-. constructor; [eapply get_obj_lt; eauto|intros []].
  - apply follow_cons_child in H as (c & C & H). econstructor; [intros []|exact C|]. auto.
Qed.

(** A Module on the way of a walk is avoided, or the walk leads from it. *)
Lemma walk_avoid w B x : wf_world w -> valid w x -> forall c p y, walk w B c p y ->
  walk w (B ++ [idof w x]) c p y \/ exists p', List.length p' <= List.length p /\ walk w B x p' y.
Proof.
  intros Hw Vx c p y H. induction H as [c V N|c n d p y N C H IH].
  - destruct (Nat.eq_dec (idof w c) (idof w x)) as [E|E].
    + right. apply idof_inj in E; auto. subst. exists []. split; [constructor|]. now constructor.
    + left. constructor; auto. rewrite in_app_iff. intros [Hi|[Hi|[]]]; auto.
  - destruct (Nat.eq_dec (idof w c) (idof w x)) as [E|E].
    + right. apply idof_inj in E; auto; [|eapply child_valid_l; eauto]. subst. exists (n :: p). split; [constructor|]. econstructor; eauto.
    + destruct IH as [IH|(p' & L & IH)].
      * left. econstructor; eauto. rewrite in_app_iff. intros [Hi|[Hi|[]]]; auto.
      * right. exists p'. split; [cbn; lia|exact IH].
Qed.
Lemma walk_swalk w : wf_world w -> forall k B x p y, List.length p <= k -> walk w B x p y -> exists q, swalk w B x q y.
Proof.
  intros Hw k. induction k as [|k IH]; intros B x p y L H.
  - inversion H; subst; [exists []; now constructor|cbn in L; lia].
  - inversion H as [x' V N|x' n c p' y' N C H']; subst; [exists []; now constructor|]. cbn in L.
    destruct (walk_avoid w B x Hw (child_valid_l _ _ _ _ C) c p' y H') as [H2|(p2 & L2 & H2)].
    + destruct (IH _ _ p' _ ltac:(lia) H2) as [q Hq]. exists (n :: q). econstructor; eauto.
    + apply (IH _ _ p2 _ ltac:(lia) H2).
Qed.
(** A walk to a Module that is not reached from [c] does not meet what is. *)
Lemma walk_around w B C c : wf_world w -> (forall z, valid w z -> In (idof w z) C -> exists p, walk w B c p z) ->
  forall y, (forall p, ~ walk w B c p y) -> forall d p, walk w B d p y -> walk w (B ++ C) d p y.
Proof.
  intros Hw HC y Hy d p H. induction H as [d V N|d n e p y N D H IH].
  - constructor; auto. rewrite in_app_iff. intros [Hi|Hi]; [auto|]. destruct (HC d V Hi) as [p Hp]. exact (Hy p Hp).
  - econstructor; eauto. rewrite in_app_iff. intros [Hi|Hi]; [auto|]. destruct (HC d (child_valid_l _ _ _ _ D) Hi) as [q Hq]. apply (Hy (q ++ n :: p)).
    eapply walk_app; [exact Hq|]. econstructor; eauto.
Qed.

Definition best (w : world) (B : list nat) (x : nat) (q : list string) (y : nat) : Prop :=
  swalk w B x q y /\ forall q', swalk w B x q' y -> q' = q \/ earlier q q'.

Lemma earlier_cons n p q : earlier p q -> earlier (n :: p) (n :: q).
Proof. intros (c & a & b & p' & q' & -> & -> & L). exists (n :: c), a, b, p', q'. auto. Qed.

Lemma homes_best w : wf_world w -> forall fuel r seen parts hs s, homes_rec fuel w r seen parts = Ok (hs, s) -> valid w r ->
  (forall y p, In (y, p) hs -> exists q, p = parts ++ q /\ best w seen r q y) /\
  (forall y p, walk w seen r p y -> exists q, In (y, q) hs).
Proof.
  intros Hw fuel. induction fuel as [|fuel IH]; intros r seen parts hs s E Vr; [discriminate|].
  cbn [homes_rec] in E. destruct (get_obj w r) as [o|] eqn:Ho; [|discriminate]. pose proof (idof_get _ _ _ Ho) as Io.
  destruct (nmem (m_id o) seen) eqn:M.
  { injection E as <- <-. split; [intros ? ? []|]. intros y p H. apply walk_start in H as [N _]. destruct N. rewrite Io. now apply nmem_In. }
  assert (Nr : ~ In (idof w r) seen). { rewrite Io. now apply nmem_false. }
  destruct (homes_fields _ _ _ parts) as [[xs s1]|] eqn:F; [|discriminate]. cbn [rbind] in E. injection E as <- <-.
  assert (G : forall l B xs s, homes_fields (homes_rec fuel w) l B parts = Ok (xs, s) ->
    StronglySorted (fun a b => slt (fst a) (fst b)) l -> (forall n c, In (n, c) l -> valid w c) ->
    (forall y p, In (y, p) xs -> exists n c q, In (n, c) l /\ p = parts ++ n :: q /\ best w B c q y /\
        forall m d q', In (m, d) l -> walk w B d q' y -> m = n \/ slt n m) /\
    (forall y n c p, In (n, c) l -> walk w B c p y -> exists q, In (y, q) xs)).
  { clear -IH Hw. intros l. induction l as [|[n c] l IHl]; intros B xs s E Hs Hv; cbn in E.
    { injection E as <- <-. split; [intros ? ? []|intros ? ? ? ? []]. }
    destruct (homes_rec fuel w c B (parts ++ [n])) as [[xs1 s1]|] eqn:E1; [|discriminate]. cbn [rbind] in E.
    destruct (homes_fields _ l s1 parts) as [[ys s2]|] eqn:E2; [|discriminate]. cbn [rbind] in E. injection E as <- <-.
    assert (Vc : valid w c) by (apply (Hv n c); now left).
    destruct (IH _ _ _ _ _ E1 Vc) as [A1 A2]. destruct (homes_ids w Hw _ _ _ _ _ _ E1) as [I1 _].
    inversion Hs as [|? ? Hs' Hall]; subst. rewrite Forall_forall in Hall.
    destruct (IHl _ _ _ E2 Hs' (fun m d Hi => Hv m d (or_intror Hi))) as [B1 B2].
    set (C := map (fun h : nat * list string => idof w (fst h)) xs1) in *.
    assert (HC : forall z, valid w z -> In (idof w z) C -> exists p, walk w B c p z).
    { intros z Vz Hz. apply in_map_iff in Hz as ([z' p] & Ez & Hz). cbn in Ez. destruct (A1 _ _ Hz) as (q & _ & Hb & _). apply swalk_walk in Hb.
      apply idof_inj in Ez; auto; [subst z'; eauto|]. now apply walk_end in Hb. }
    assert (NC : forall y, ~ In (idof w y) C -> forall p, ~ walk w B c p y).
    { intros y Hy p Hp. apply Hy. destruct (A2 _ _ Hp) as [q Hq]. apply in_map_iff. exists (y, q). auto. }
    split.
    - intros y p Hi. apply in_app_iff in Hi as [Hi|Hi].
      + destruct (A1 _ _ Hi) as (q & -> & Hb). exists n, c, q. rewrite <- app_assoc. split; [now left|]. split; [reflexivity|]. split; [exact Hb|].
        intros m d q' [[= <- <-]|Hm] _; [now left|]. right. exact (Hall _ Hm).
      + destruct (B1 _ _ Hi) as (m & d & q & Hm & -> & (Hb & Hb2) & Hl). pose proof (swalk_walk _ _ _ _ _ Hb) as Hbw.
        assert (Ny : ~ In (idof w y) C). { apply walk_end in Hbw as [Hy _]. intros Hc. apply Hy. apply in_or_app. now right. }
        pose proof (walk_around w B C c Hw HC y (NC y Ny)) as T.
        exists m, d, q. split; [now right|]. split; [reflexivity|]. split; [split|].
        * apply (swalk_more _ _ _ _ _ Hb). eapply walk_less; [exact Hbw|]. intros z Hz. apply in_or_app. now left.
        * intros q' Hq'. apply Hb2. apply (swalk_more _ _ _ _ _ Hq'). apply T. now apply swalk_walk.
        * intros m' d' q' [[= <- <-]|Hm'] Hq'; [destruct (NC y Ny _ Hq')|]. eapply Hl; eauto.
    - intros y m d p Hi Hp. assert (D : {In (idof w y) C} + {~ In (idof w y) C}) by apply (in_dec Nat.eq_dec). destruct D as [D|D].
      + apply in_map_iff in D as ([z q] & Ez & Hz). cbn in Ez. destruct (A1 _ _ Hz) as (q2 & _ & Hb & _). apply swalk_walk, walk_end in Hb as [_ Vz].
        apply idof_inj in Ez; auto; [|now apply walk_end in Hp]. subst z. exists q. apply in_or_app. now left.
      + destruct Hi as [[= <- <-]|Hi]; [destruct (NC y D _ Hp)|].
        destruct (B2 y m d p Hi) as [q Hq]; [now apply (walk_around w B C c Hw HC y (NC y D))|]. exists q. apply in_or_app. now right. }
  pose proof (wfo_names _ _ (wf_objs _ Hw _ _ Ho)) as N.
  assert (Hin : forall n c, In (n, c) (submods (sort_by_key (m_vars o))) <-> child w r n c).
  { intros n c. rewrite submods_dget by (now apply NoDup_keys_sort). rewrite dget_sort by assumption. unfold child. split; [eauto|]. intros (o' & Ho' & Hd). congruence. }
  destruct (G _ _ _ _ F) as [A1 A2].
  { apply submods_sorted. now apply sort_strict. }
  { intros n c Hc. apply Hin in Hc. eapply child_valid; eauto. }
  rewrite <- Io in *. split.
  - intros y p [[= <- <-]|Hi].
    + exists []. rewrite app_nil_r. split; [reflexivity|]. split; [now constructor|]. intros q' Hq'.
      inversion Hq' as [|B x n c p y Nx C H]; subst; [now left|]. apply swalk_walk, walk_end in H as [H _]. destruct H. apply in_or_app. right. now left.
    + destruct (A1 _ _ Hi) as (n & c & q & Hc & -> & (Hb & Hb2) & Hl). exists (n :: q). split; [reflexivity|]. split.
      * econstructor; eauto. now apply Hin.
      * intros q' Hq'. inversion Hq' as [B x V Nx|B x m d p y' Nx D H]; subst.
        -- apply swalk_walk, walk_end in Hb as [Hb _]. destruct Hb. apply in_or_app. right. now left.
        -- pose proof D as D'. apply Hin in D'. destruct (Hl m d p D' (swalk_walk _ _ _ _ _ H)) as [->|Lt].
           ++ apply Hin in Hc. assert (d = c) by (eapply child_fun; eauto). subst d. destruct (Hb2 _ H) as [->|Le]; [now left|right; now apply earlier_cons].
           ++ right. exists [], n, m, q, p. auto.
  - intros y p Hp. destruct (walk_swalk w Hw _ _ _ _ _ (Nat.le_refl _) Hp) as [q Hq]. inversion Hq as [B x V Nx|B x m d p' y' Nx D H]; subst.
    + exists parts. now left.
    + apply Hin in D. destruct (A2 y m d p' D (swalk_walk _ _ _ _ _ H)) as [q2 Hq2]. exists q2. now right.
Qed.

(** *** simple walks are the direct paths *)
Lemma walk_split w B x p1 p2 y : walk w B x (p1 ++ p2) y -> exists z, walk w B x p1 z /\ walk w B z p2 y.
Proof.
  revert x. induction p1 as [|n p1 IH]; intros x H; cbn in H.
  - exists x. split; [|exact H]. apply walk_start in H as [A V]. now constructor.
  - inversion H as [|x' n' c p y' N C H']; subst. destruct (IH _ H') as (z & A & D). exists z. split; [econstructor; eauto|exact D].
Qed.
Lemma swalk_direct w B x p y : swalk w B x p y -> direct_path w x p y.
Proof.
  intros H. split; [eapply walk_follow, swalk_walk; eauto|]. induction H as [B x V N|B x n c p y N C H IH]; intros q1 q2 q3 E Ne.
  - destruct q1, q2; try discriminate. congruence.
  - pose proof (swalk_walk _ _ _ _ _ H) as Hw. destruct q1 as [|m q1].
    + destruct q2 as [|m q2]; [congruence|]. cbn in E. injection E as <- ->. intros K.
      apply walk_split in Hw as (z & Hz & _). pose proof (walk_follow _ _ _ _ _ Hz) as Fz. destruct (walk_end _ _ _ _ _ Hz) as [Nz _].
      destruct C as (o & Ho & Hd). cbn [app] in K. rewrite follow_cons, Ho, Hd, Fz in K. cbn in K. rewrite Ho in K. injection K as ->.
      apply Nz. apply in_or_app. right. now left.
    + cbn in E. injection E as <- E. intros K. cbn [app] in K. destruct C as (o & Ho & Hd). rewrite !follow_cons, Ho, Hd in K. exact (IH _ _ _ E Ne K).
Qed.
Lemma walk_not w B x c p y : wf_world w -> valid w x -> walk w B c p y -> (forall p1 p2, p = p1 ++ p2 -> follow w c p1 <> Some x) -> walk w (B ++ [idof w x]) c p y.
Proof.
  intros Hw Vx H. induction H as [c V N|c n d p y N C H IH]; intros K.
  - constructor; [exact V|]. rewrite in_app_iff. intros [Hi|[Hi|[]]]; [auto|]. apply idof_inj in Hi; auto. subst c. apply (K [] []); [reflexivity|].
    cbn. destruct (get_obj_ex _ _ V) as [o ->]. reflexivity.
  - assert (V : valid w c) by (eapply child_valid_l; eauto). econstructor; [|exact C|].
    + rewrite in_app_iff. intros [Hi|[Hi|[]]]; [auto|]. apply idof_inj in Hi; auto. subst c. apply (K [] (n :: p)); [reflexivity|].
      cbn. destruct (get_obj_ex _ _ V) as [o ->]. reflexivity.
    + apply IH. intros p1 p2 E F. apply (K (n :: p1) p2); [cbn; now rewrite E|]. destruct C as (o & Ho & Hd). now rewrite follow_cons, Ho, Hd.
Qed.
Lemma direct_swalk w x p y : wf_world w -> direct_path w x p y -> swalk w [] x p y.
Proof.
  intros Hw [F D]. apply follow_walk in F. revert D. generalize (@nil nat) as B, F. clear F. intros B F. induction F as [x V N|x n c p y N C H IH]; intros D.
  - now constructor.
  - econstructor; eauto. apply (swalk_more w B).
    + apply IH. intros q1 q2 q3 E Ne K. apply (D (n :: q1) q2 q3); [cbn; now rewrite E|exact Ne|]. destruct C as (o & Ho & Hd). cbn [app]. now rewrite !follow_cons, Ho, Hd.
    + apply walk_not; auto; [eapply child_valid_l; eauto|]. intros p1 p2 E F. apply (D [] (n :: p1) p2); [cbn; now rewrite E|discriminate|].
      destruct C as (o & Ho & Hd). cbn [app]. rewrite follow_cons, Ho, Hd, F. cbn. now rewrite Ho.
Qed.

Lemma homes_first w r hs s : wf_world w -> valid w r -> homes_rec (dfs_fuel w) w r [] [] = Ok (hs, s) ->
  forall y p, In (y, p) hs <-> first_path w r p y.
Proof.
  intros Hw Hr H y p. destruct (homes_best w Hw _ _ _ _ _ _ H Hr) as [A1 A2]. split.
  - intros Hi. destruct (A1 _ _ Hi) as (q & -> & Hb & Hb2). cbn. split; [eapply swalk_direct; eauto|]. intros q' Hq'. apply Hb2. now apply direct_swalk.
  - intros [D F]. destruct (A2 y p (follow_walk _ _ _ _ (proj1 D))) as [q Hq]. destruct (A1 _ _ Hq) as (q' & E & Hb & Hb2). cbn in E. subst q'.
    destruct (Hb2 p (direct_swalk _ _ _ _ Hw D)) as [->|L]; [exact Hq|]. destruct (F q (swalk_direct _ _ _ _ _ Hb)) as [->|L2]; [exact Hq|].
    exfalso. destruct L as (c & n & m & p' & q' & E1 & E2 & L), L2 as (c2 & n2 & m2 & p2 & q2 & F1 & F2 & L2). rewrite E1 in F2. rewrite E2 in F1. clear -F1 F2 L L2.
    assert (RF : forall z, String.compare z z = Eq) by (intros z; pose proof (String.compare_antisym z z) as K; destruct (String.compare z z); cbn in K; congruence).
    revert c2 F1 F2. induction c as [|a c IH]; intros [|a2 c2] F1 F2; cbn in *.
    + injection F1 as <- _. injection F2 as <- _. rewrite String.compare_antisym, L in L2. discriminate.
    + injection F1 as -> _. injection F2 as -> _. rewrite RF in L. discriminate.
    + injection F1 as -> _. injection F2 as -> _. rewrite RF in L2. discriminate.
    + injection F1 as -> F1. injection F2 as F2. eauto.
Qed.

(** *** a part of its own *)
Lemma direct_app w r p c q y : follow w r p = Some c -> direct_path w r (p ++ q) y -> direct_path w c q y.
Proof.
  intros Fp [F D]. rewrite follow_app, Fp in F. split; [exact F|]. intros q1 q2 q3 E Ne K. apply (D (p ++ q1) q2 q3); [rewrite E; now rewrite !app_assoc|exact Ne|].
  rewrite <- app_assoc, !follow_app, Fp. exact K.
Qed.
Lemma direct_exists w r y : wf_world w -> valid w r -> reaches w r y -> exists p, direct_path w r p y.
Proof.
  intros Hw Hr [q Hq]. apply follow_walk in Hq. destruct (walk_swalk w Hw _ _ _ _ _ (Nat.le_refl _) Hq) as [p Hp]. exists p. eapply swalk_direct; eauto.
Qed.
Lemma app_prefix (A : Type) (a b c d : list A) : a ++ b = c ++ d -> List.length a <= List.length c -> exists t, c = a ++ t /\ b = t ++ d.
Proof.
  revert c. induction a as [|x a IH]; intros c E L; [exists c; auto|]. destruct c as [|y c]; [cbn in L; lia|]. cbn in *. injection E as -> E.
  destruct (IH c E ltac:(lia)) as (t & -> & ->). exists t. auto.
Qed.
Lemma private_direct w r p c q y : wf_world w -> private_part w r p c -> direct_path w c q y -> direct_path w r (p ++ q) y.
Proof.
  intros Hw [Fp Pv] [F D]. split; [now rewrite follow_app, Fp|]. intros q1 q2 q3 E Ne K.
  assert (F2 : exists z, follow w r (q1 ++ q2) = Some z /\ follow w z q3 = Some y).
  { assert (F0 : follow w r (p ++ q) = Some y) by (now rewrite follow_app, Fp). rewrite E, app_assoc, follow_app in F0. destruct (follow w r (q1 ++ q2)) as [z|]; [eauto|discriminate]. }
  destruct F2 as (z & F2 & F3). rewrite F2 in K. symmetry in K.
  (* the walk cut short still leads to [y], so it goes along [p] too, and what is cut lies behind [p] *)
  assert (F4 : follow w r (q1 ++ q3) = Some y) by (now rewrite follow_app, K).
  destruct (Pv _ _ F4 (ex_intro _ q F)) as [q' Eq'].
  destruct (Nat.le_gt_cases (List.length p) (List.length q1)) as [L|L].
  - destruct (app_prefix _ _ _ _ _ E L) as (t & -> & E2). apply (D t q2 q3 E2 Ne). rewrite <- app_assoc, !follow_app, Fp in F2. rewrite follow_app, Fp in K.
    congruence.
  - symmetry in E. destruct (app_prefix _ _ _ _ _ E ltac:(lia)) as (t & -> & E2). symmetry in Eq'. rewrite <- app_assoc in Eq'. apply app_inv_head in Eq'. subst q3.
    rewrite app_assoc in E2. symmetry in E2. rewrite <- app_assoc in E. apply app_inv_head in E.
    destruct (app_prefix _ t q (q2 ++ t) q') as (u & Eu & Eq); [rewrite <- app_assoc; now symmetry|rewrite app_length; lia|].
    apply (D [] u q'); [exact Eq| |].
    + intros ->. rewrite app_nil_r in Eu. apply (f_equal (@List.length _)) in Eu. rewrite app_length in Eu. destruct q2; [congruence|cbn in Eu; lia].
    + cbn [app]. rewrite follow_app, K in Fp. assert (C0 : follow w r ((q1 ++ t) ++ u) = Some c).
      { rewrite <- app_assoc, <- Eu, app_assoc, follow_app, F2. exact Fp. }
      rewrite (follow_app w (q1 ++ t)), (follow_app w q1), K, Fp in C0. rewrite C0. cbn. apply follow_valid in C0 as [o ->]. reflexivity.
Qed.
Lemma earlier_app c p q : earlier (c ++ p) (c ++ q) <-> earlier p q.
Proof.
  induction c as [|x c IH]; [reflexivity|]. rewrite <- IH. cbn. split; [|apply earlier_cons].
  intros ([|a d] & n & m & p' & q' & E1 & E2 & L); cbn in *.
  - injection E1 as <- _. injection E2 as <- _. pose proof (String.compare_antisym x x) as K. rewrite L in K. discriminate.
  - injection E1 as _ ->. injection E2 as _ ->. exists d, n, m, p', q'. auto.
Qed.
Lemma private_first w r p c q y : wf_world w -> private_part w r p c -> (first_path w c q y <-> first_path w r (p ++ q) y).
Proof.
  intros Hw P. pose proof P as [Fp Pv]. split; intros [D F].
  - split; [exact (private_direct _ _ _ _ _ _ Hw P D)|]. intros q' D'. destruct (Pv q' y (proj1 D') (ex_intro _ q (proj1 D))) as [t ->].
    destruct (F t (direct_app _ _ _ _ _ _ Fp D')) as [->|L]; [now left|right]. now apply earlier_app.
  - split; [exact (direct_app _ _ _ _ _ _ Fp D)|]. intros q' D'. destruct (F (p ++ q') (private_direct _ _ _ _ _ _ Hw P D')) as [E|L].
    + left. now apply app_inv_head in E.
    + right. exact (proj1 (earlier_app _ _ _) L).
Qed.

Lemma homes_total w r : wf_world w -> valid w r -> exists hs s, homes_rec (dfs_fuel w) w r [] [] = Ok (hs, s).
Proof.
  intros Hw Hr. destruct (graph_exists w r Hw Hr) as (d & L & Hg). destruct (iter_state_graph w r d L Hw Hr Hg) as (E & H1 & H2 & H3).
  unfold iter_state in H3. destruct (iter_state_rec (dfs_fuel w) w r [] []) as [[xs s]|] eqn:I; [|discriminate].
  destruct (iter_homes w Hw _ _ _ _ _ _ I) as (hs & Hh & _). eauto.
Qed.

(** ** order of assignment *)
Lemma split_unique (A : Type) (x : A) l1 l2 k1 k2 : NoDup (l1 ++ x :: l2) -> l1 ++ x :: l2 = k1 ++ x :: k2 -> l1 = k1 /\ l2 = k2.
Proof.
  revert k1. induction l1 as [|y l1 IH]; intros [|z k1] N E; cbn in *; inversion N as [|? ? N1 N2]; subst.
  - injection E as ->. auto.
  - injection E as <- ->. exfalso. apply N1. apply in_or_app. right. now left.
  - injection E as -> <-. exfalso. apply N1. apply in_or_app. right. now left.
  - injection E as <- E. destruct (IH k1 N2 E) as [-> ->]. auto.
Qed.

Lemma assigned_before_asym w r p q : wf_world w -> assigned_before w r p q -> ~ assigned_before w r q p.
Proof.
  intros Hw (c & n & m & p' & q' & x & o & l1 & l2 & l3 & -> & -> & Hf & Ho & Hk) (c2 & n2 & m2 & q2 & p2 & x2 & o2 & k1 & k2 & k3 & E1 & E2 & Hf2 & Ho2 & Hk2).
  pose proof (wfo_names _ _ (wf_objs _ Hw _ _ Ho)) as N. pose proof (wfo_names _ _ (wf_objs _ Hw _ _ Ho2)) as N2.
  assert (D1 : n <> m). { intros ->. rewrite Hk in N. apply NoDup_remove_2 in N. apply N. apply in_or_app. right. apply in_or_app. right. now left. }
  assert (D2 : n2 <> m2). { intros ->. rewrite Hk2 in N2. apply NoDup_remove_2 in N2. apply N2. apply in_or_app. right. apply in_or_app. right. now left. }
  destruct (Nat.le_gt_cases (List.length c) (List.length c2)) as [L|L].
  - destruct (app_prefix _ _ _ _ _ E1 L) as (t & -> & T1). rewrite <- app_assoc in E2. apply app_inv_head in E2.
    destruct t as [|y t]; cbn in *; [|injection T1 as -> _; injection E2 as -> _; now apply D1].
    injection T1 as <- _. injection E2 as <- _. rewrite app_nil_r in Hf2. assert (x2 = x) by congruence. subst x2. assert (o2 = o) by congruence. subst o2.
    rewrite Hk in Hk2, N.
    assert (I1 : In m l1 -> False). { intros I. apply in_split in I as (a & b & ->). rewrite <- app_assoc in N. cbn in N. apply NoDup_remove_2 in N. apply N.
      apply in_or_app. right. apply in_or_app. right. right. apply in_or_app. right. now left. }
    change (k1 ++ m :: k2 ++ n :: k3) with (k1 ++ (m :: k2) ++ n :: k3) in Hk2. rewrite app_assoc in Hk2. apply split_unique in Hk2 as [K _]; [|exact N].
    apply I1. rewrite K. apply in_or_app. right. now left.
  - symmetry in E1. destruct (app_prefix _ _ _ _ _ E1 ltac:(lia)) as (t & -> & T1). rewrite <- app_assoc in E2. apply app_inv_head in E2.
    destruct t as [|y t]; [rewrite app_nil_r in L; lia|]. cbn in *. injection T1 as -> _. injection E2 as -> _. now apply D2.
Qed.

Lemma first_assigned_unique w r p q y : wf_world w -> first_assigned w r p y -> first_assigned w r q y -> p = q.
Proof.
  intros Hw [A1 A2] [B1 B2]. destruct (A2 q B1) as [->|A]; [reflexivity|]. destruct (B2 p A1) as [->|B]; [reflexivity|].
  exfalso. exact (assigned_before_asym w r p q Hw A B).
Qed.

Lemma acyclic_direct w r p y : acyclic w r -> follow w r p = Some y -> direct_path w r p y.
Proof.
  intros Ha Hf. split; [exact Hf|]. intros q1 q2 q3 -> N E. rewrite app_assoc, follow_app in Hf.
  destruct (follow w r (q1 ++ q2)) as [z|] eqn:F; [|discriminate]. symmetry in E. rewrite follow_app, E in F.
  apply (Ha z q2); [exists q1; exact E|exact N|exact F].
Qed.
