(** ModRepr_proofs: [repr(module)] lists every connected module once. *)
From Coq Require Import Permutation Lia.
From Verif Require Import PyBase PyBaseFacts ValuesM Spec_Eq ValuesFacts FiltersM StateM ModuleM TlsM Spec_Tls Tls_proofs ModReprM Spec_ModRepr.
Local Open Scope string_scope.
Local Open Scope list_scope.

Lemma run_bind {A B} (p : prog A) (f : A -> prog B) g :
  run (bind p f) g = let '(a, g') := run p g in run (f a) g'.
Proof.
  revert g. induction p as [a | k IH | k IH | i k IH | i k IH | k IH]; intros g; cbn [bind run]; auto.
  destruct g as [s|]; auto.
Qed.

Lemma nmem_In n l : nmem n l = true <-> In n l.
Proof.
  unfold nmem. rewrite existsb_exists. split.
  - intros (x & H & E). apply Nat.eqb_eq in E. subst. exact H.
  - intros H. exists n. split; auto. apply Nat.eqb_refl.
Qed.

Section R.
Variable leaf : pyval -> result string.
Variable w : world.
Notation shows := (shows leaf w). Notation shows_pieces := (shows_pieces leaf w).
Notation shows_rest := (shows_rest leaf w). Notation shows_val := (shows_val leaf w).
Notation shows_items := (shows_items leaf w). Notation shows_fields := (shows_fields leaf w).
Notation pieces := (pieces leaf). Notation fields := (fields leaf). Notation value := (value leaf).
Notation items := (items leaf). Notation nnx_repr := (nnx_repr leaf w).

Definition idof (x : nat) : nat := match get_obj w x with Some o => m_id o | None => 0 end.

Inductive ffs : list nat -> list (nat * bool) -> list nat -> Prop :=
| ffs_nil s : ffs s [] s
| ffs_full s x t s' : ~ In (idof x) s -> ffs (s ++ [idof x]) t s' -> ffs s ((x, true) :: t) s'
| ffs_dots s x t s' : In (idof x) s -> ffs s t s' -> ffs s ((x, false) :: t) s'.

Lemma ffs_app s o1 s1 o2 s2 : ffs s o1 s1 -> ffs s1 o2 s2 -> ffs s (o1 ++ o2) s2.
Proof. induction 1; intros; cbn; auto; constructor; auto. Qed.
Lemma ffs_incl s o s' : ffs s o s' -> incl s s'.
Proof.
  induction 1; auto; try apply incl_refl.
  intros a Ha. apply IHffs. apply in_or_app. now left.
Qed.

(** the modules not seen yet *)
Definition unseen (s : list nat) : nat :=
  List.length (filter (fun x => negb (nmem (idof x) s)) (seq 0 (List.length (w_heap w)))).
Lemma filter_len_mono {A} (f g : A -> bool) l :
  (forall x, In x l -> f x = true -> g x = true) -> List.length (filter f l) <= List.length (filter g l).
Proof.
  induction l as [|a l IH]; intros H; cbn; auto.
  assert (IH' := IH (fun x Hx => H x (or_intror Hx))).
  destruct (f a) eqn:Ef.
  - rewrite (H a (or_introl eq_refl) Ef). cbn. lia.
  - destruct (g a); cbn; lia.
Qed.
Lemma filter_len_lt {A} (f g : A -> bool) l x :
  (forall x, In x l -> f x = true -> g x = true) -> In x l -> f x = false -> g x = true ->
  List.length (filter f l) < List.length (filter g l).
Proof.
  induction l as [|a l IH]; intros H Hx Ef Eg; [destruct Hx|].
  cbn. destruct Hx as [-> | Hx].
  - rewrite Ef, Eg. cbn. assert (G := filter_len_mono f g l (fun x Hx => H x (or_intror Hx))). lia.
  - assert (IH' := IH (fun y Hy => H y (or_intror Hy)) Hx Ef Eg).
    destruct (f a) eqn:E.
    + rewrite (H a (or_introl eq_refl) E). cbn. lia.
    + destruct (g a); cbn; lia.
Qed.
Lemma unseen_mono s s' : incl s s' -> unseen s' <= unseen s.
Proof.
  intros H. apply filter_len_mono. intros x _ E. apply negb_true_iff in E. apply negb_true_iff.
  destruct (nmem (idof x) s) eqn:M; auto. apply nmem_In in M. apply H in M. apply nmem_In in M. congruence.
Qed.
Lemma unseen_lt s x o : get_obj w x = Some o -> ~ In (idof x) s -> unseen (s ++ [idof x]) < unseen s.
Proof.
  intros Ho Hn. apply filter_len_lt with (x := x).
  - intros y _ E. apply negb_true_iff in E. apply negb_true_iff.
    destruct (nmem (idof y) s) eqn:M; auto. apply nmem_In in M.
    assert (In (idof y) (s ++ [idof x])) as M' by (apply in_or_app; now left).
    apply nmem_In in M'. congruence.
  - apply in_seq. split; [lia|]. cbn. apply nth_error_Some. unfold get_obj in Ho. congruence.
  - apply negb_false_iff. apply nmem_In. apply in_or_app. right. now left.
  - apply negb_true_iff. destruct (nmem (idof x) s) eqn:M; auto. apply nmem_In in M. contradiction.
Qed.

(** the failing part of a description *)
Definition rpieces (i : string) : list rpiece -> result string :=
  fix go l := match l with
              | [] => Ok ""
              | p :: t => do x <- render_piece i p; do y <- go t; Ok (x ++ y)%string
              end.
Definition relems (i sep : string) : list ritem -> result (list string) :=
  fix go l := match l with
              | [] => Ok []
              | it :: t => do x <- render_item i sep it; do xs <- go t; Ok (x :: xs)
              end.
Definition bad_obj (o : robj) : Prop := forall i, exists e, render i o = Err e.
Definition bad_val (v : rval) : Prop := forall i, exists e, render_val i v = Err e.
Definition bad_pieces (l : list rpiece) : Prop := forall i, exists e, rpieces i l = Err e.
Definition bad_items (l : list ritem) : Prop := forall i sep, exists e, relems i sep l = Err e.

Lemma rpieces_app i a b : rpieces i (a ++ b) = do x <- rpieces i a; do y <- rpieces i b; Ok (x ++ y)%string.
Proof.
  induction a as [|p a IH]; cbn.
  - destruct (rpieces i b); reflexivity.
  - destruct (render_piece i p) as [x|]; cbn; auto. change (rpieces i (a ++ b)) with (rpieces i (a ++ b)).
    rewrite IH. destruct (rpieces i a) as [y|]; cbn; auto. destruct (rpieces i b) as [z|]; cbn; auto.
    f_equal. clear. induction x as [|c x IH]; cbn; auto. now rewrite IH.
Qed.
Lemma bad_pieces_cons p l : (forall i, exists x, render_piece i p = Ok x) -> bad_pieces l -> bad_pieces (p :: l).
Proof. intros H B i. destruct (H i) as (x & E). destruct (B i) as (e & E'). exists e. cbn. rewrite E. cbn. now rewrite E'. Qed.
Lemma bad_pieces_app_l a b : bad_pieces a -> bad_pieces (a ++ b).
Proof. intros B i. destruct (B i) as (e & E). exists e. rewrite rpieces_app, E. reflexivity. Qed.
Lemma bad_pieces_app_r a b : (forall i, exists x, rpieces i a = Ok x) -> bad_pieces b -> bad_pieces (a ++ b).
Proof. intros H B i. destruct (H i) as (x & Ex). destruct (B i) as (e & E). exists e. rewrite rpieces_app, Ex, E. reflexivity. Qed.
Lemma bad_item n v l : bad_val v -> bad_items (RiAttr n "" "" v :: l).
Proof. intros B i sep. destruct (B i) as (e & E). exists e. cbn. rewrite E. reflexivity. Qed.
Lemma bad_items_cons it l : (forall i sep, exists x, render_item i sep it = Ok x) -> bad_items l -> bad_items (it :: l).
Proof. intros H B i sep. destruct (H i sep) as (x & E). destruct (B i sep) as (e & E'). exists e. cbn. rewrite E. cbn. now rewrite E'. Qed.
Lemma bad_robj c l : bad_items l -> bad_obj (RObj c l).
Proof. intros B i. destruct (B (i ++ g_indent c)%string (g_sep c)) as (e & E). exists e. cbn. fold relems. unfold relems in E. rewrite E. reflexivity. Qed.
Lemma bad_other l : bad_pieces l -> bad_val (RvOther l).
Proof. intros B i. destruct (B i) as (e & E). exists e. cbn. unfold rpieces in E. rewrite E. reflexivity. Qed.

(** descriptions can be rendered *)
Scheme shows_ind' := Minimality for Spec_ModRepr.shows Sort Prop
  with shows_items_ind' := Minimality for Spec_ModRepr.shows_items Sort Prop
  with shows_val_ind' := Minimality for Spec_ModRepr.shows_val Sort Prop
  with shows_fields_ind' := Minimality for Spec_ModRepr.shows_fields Sort Prop
  with shows_pieces_ind' := Minimality for Spec_ModRepr.shows_pieces Sort Prop
  with shows_rest_ind' := Minimality for Spec_ModRepr.shows_rest Sort Prop.
Combined Scheme shows_mut from shows_ind', shows_items_ind', shows_val_ind', shows_fields_ind', shows_pieces_ind', shows_rest_ind'.

Definition okp (l : list rpiece) : Prop := forall i, exists x, rpieces i l = Ok x.
Definition oki (l : list ritem) : Prop := forall i sep, exists x, relems i sep l = Ok x.
Lemma oki_robj c l : oki l -> forall i, exists x, render i (RObj c l) = Ok x.
Proof. intros B i. destruct (B (i ++ g_indent c)%string (g_sep c)) as (e & E). cbn. unfold relems in E. rewrite E. eexists. reflexivity. Qed.
Lemma okp_other l : okp l -> forall i, exists x, render_val i (RvOther l) = Ok x.
Proof. intros B i. destruct (B i) as (e & E). cbn. unfold rpieces in E. rewrite E. eexists. reflexivity. Qed.
Lemma oki_cons n v l : (forall i, exists x, render_val i v = Ok x) -> oki l -> oki (RiAttr n "" "" v :: l).
Proof. intros H B i sep. destruct (H i) as (x & E). destruct (B i sep) as (y & E'). cbn. rewrite E. cbn. rewrite E'. eexists. reflexivity. Qed.
Lemma okp_app a b : okp a -> okp b -> okp (a ++ b).
Proof. intros H B i. destruct (H i) as (x & E). destruct (B i) as (y & E'). rewrite rpieces_app, E, E'. eexists. reflexivity. Qed.
Lemma okp_text s l : okp l -> okp (RpText s :: l).
Proof. intros B i. destruct (B i) as (x & E). cbn. rewrite E. eexists. reflexivity. Qed.
Lemma okp_nil : okp [].
Proof. intros i. eexists. reflexivity. Qed.
Lemma okp_obj o l : (forall i, exists x, render i o = Ok x) -> okp l -> okp (RpObj o :: l).
Proof. intros H B i. destruct (H i) as (y & Ey). destruct (B i) as (x & E). cbn. rewrite Ey. cbn. rewrite E. eexists. reflexivity. Qed.

Lemma shows_render :
  (forall r occs o, shows r occs o -> forall i, exists x, render i o = Ok x) /\
  (forall l occs its, shows_items l occs its -> oki its) /\
  (forall a occs v, shows_val a occs v -> forall i, exists x, render_val i v = Ok x) /\
  (forall l occs its, shows_fields l occs its -> oki its) /\
  (forall v occs ps, shows_pieces v occs ps -> okp ps) /\
  (forall l occs ps, shows_rest l occs ps -> okp ps).
Proof.
  apply shows_mut; intros.
  - apply oki_robj. intros ? ?. eexists. reflexivity.
  - now apply oki_robj.
  - intros ? ?. eexists. reflexivity.
  - now apply oki_cons.
  - cbn. auto.
  - eexists. reflexivity.
  - now apply okp_other.
  - cbn [render_val]. apply (oki_robj _ its H0).
  - intros ? ?. eexists. reflexivity.
  - apply oki_cons; auto. now apply okp_other.
  - apply okp_obj; auto. apply okp_nil.
  - apply okp_text, okp_nil.
  - apply okp_text, okp_app; auto. apply okp_text, okp_nil.
  - apply okp_text, okp_app; auto. apply okp_app; auto. apply okp_text, okp_nil.
  - apply okp_text, okp_nil.
  - apply okp_nil.
  - apply okp_text, okp_app; auto.
Qed.

(** one sequential run inside another module's repr *)
Definition runs {A} (p : prog (A * status)) (s : list nat) (R : list (nat * bool) -> A -> Prop) (B : A -> Prop) : Prop :=
  exists a st s', run p (Some s) = ((a, st), Some s') /\
  match st with
  | Done => exists occs, R occs a /\ ffs s occs s'
  | Raised c => c = false /\ B a /\ ~ leaves_print leaf
  end.

Section Rec.
Variable rec : nat -> prog (robj * status).
Variable n : nat.
Hypothesis rec_ok : forall r s, (exists o, get_obj w r = Some o) -> unseen s < n -> runs (rec r) s (shows r) bad_obj.

Lemma leaf_run v s :
  (forall r, v <> PyMod r) -> (forall l, v <> PyTuple l) ->
  runs (match leaf v with Ok t => Ret ([RpText t], Done) | Err e => Ret ([RpRaise e], Raised false) end) s (shows_pieces v) bad_pieces.
Proof.
  intros H1 H2. destruct (leaf v) as [t | e] eqn:E.
  - exists [RpText t], Done, s. split; auto. exists []. split; [|constructor]. now constructor.
  - exists [RpRaise e], (Raised false), s. split; auto. split; auto. split.
    + intros i. exists e. reflexivity.
    + intros L. destruct (L v H1 H2) as (x & Ex). congruence.
Qed.

Definition tail : list pyval -> prog (list rpiece * status) :=
  fix go (l : list pyval) : prog (list rpiece * status) :=
    match l with
    | [] => Ret ([], Done)
    | u :: t =>
        bind (pieces rec u) (fun p1 =>
        match snd p1 with
        | Raised c => Ret (RpText ", " :: fst p1, Raised c)
        | Done => bind (go t) (fun p2 => Ret (RpText ", " :: fst p1 ++ fst p2, snd p2))
        end)
    end.

Lemma mono s occs s' : ffs s occs s' -> unseen s < n -> unseen s' < n.
Proof. intros F H. assert (M := unseen_mono _ _ (ffs_incl _ _ _ F)). lia. Qed.

Lemma text_ok t : forall i : string, exists x, render_piece i (RpText t) = Ok x.
Proof. intros i. eexists. reflexivity. Qed.

Lemma pieces_run v : forall s,
  (forall r, mentions v r -> exists o, get_obj w r = Some o) -> unseen s < n ->
  runs (pieces rec v) s (shows_pieces v) bad_pieces.
Proof.
  induction v as [| x | x | x | l IH | x | c x] using pyval_ind'; intros s M U;
    try (apply leaf_run; discriminate).
  - (* tuple *)
    destruct l as [|v0 rest].
    { exists [RpText "()"], Done, s. split; auto. exists []. split; constructor. }
    inversion IH as [|? ? IH0 IHr]; subst. cbn [ModReprM.pieces].
    destruct (IH0 s (fun r H => M r (mn_tuple (v0 :: rest) v0 r (or_introl eq_refl) H)) U) as (a & st & s1 & E & Q).
    unfold runs. rewrite run_bind, E. cbn [fst snd].
    destruct st as [|c].
    2:{ destruct Q as (-> & B & L). do 3 eexists. split; [reflexivity|]. split; auto. split; auto.
        apply bad_pieces_cons; auto using text_ok. }
    destruct Q as (o1 & S1 & F1). rewrite run_bind. fold tail.
    assert (T : forall s, unseen s < n -> runs (tail rest) s (shows_rest rest) bad_pieces).
    { assert (Mr : forall r, (exists u, In u rest /\ mentions u r) -> exists o, get_obj w r = Some o).
      { intros r (u & Hu & Hm). apply M. econstructor; [right; exact Hu | exact Hm]. }
      clear - IHr Mr rec_ok. induction IHr as [|u t Hu Ht IHt]; intros s U; cbn [tail].
      - exists [], Done, s. split; auto. exists []. split; constructor.
      - destruct (Hu s (fun r H => Mr r (ex_intro _ u (conj (or_introl eq_refl) H))) U) as (a & st & s1 & E & Q).
        unfold runs. rewrite run_bind, E. cbn [fst snd].
        destruct st as [|c].
        2:{ destruct Q as (-> & B & L). do 3 eexists. split; [reflexivity|]. split; auto. split; auto.
            apply bad_pieces_cons; auto using text_ok. }
        destruct Q as (o1 & S1 & F1). rewrite run_bind. fold tail.
        destruct (IHt (fun r H => Mr r (match H with ex_intro _ u (conj H1 H2) => ex_intro _ u (conj (or_intror H1) H2) end))
                      s1 (mono _ _ _ F1 U)) as (b & st & s2 & E2 & Q2).
        rewrite E2. cbn [run fst snd]. do 3 eexists. split; [reflexivity|].
        destruct st as [|c].
        + destruct Q2 as (o2 & S2 & F2). exists (o1 ++ o2). split; [now constructor | eapply ffs_app; eassumption].
        + destruct Q2 as (-> & B & L). split; auto. split; auto.
          apply bad_pieces_cons; auto using text_ok. apply bad_pieces_app_r; auto.
          apply (proj1 (proj2 (proj2 (proj2 (proj2 shows_render)))) _ _ _ S1). }
    destruct (T s1 (mono _ _ _ F1 U)) as (b & st & s2 & E2 & Q2).
    rewrite E2. cbn [run fst snd]. do 3 eexists. split; [reflexivity|].
    destruct st as [|c].
    + destruct Q2 as (o2 & S2 & F2). exists (o1 ++ o2). split; [| eapply ffs_app; eassumption].
      destruct rest as [|u l].
      * inversion S2; subst. rewrite app_nil_r. cbn [app]. now constructor.
      * constructor; auto.
    + destruct Q2 as (-> & B & L). split; auto. split; auto.
      apply bad_pieces_cons; auto using text_ok. apply bad_pieces_app_r; [| now apply bad_pieces_app_l].
      apply (proj1 (proj2 (proj2 (proj2 (proj2 shows_render)))) _ _ _ S1).
  - (* module *)
    cbn [ModReprM.pieces]. destruct (rec_ok x s (M x (mn_mod x)) U) as (a & st & s1 & E & Q).
    unfold runs. rewrite run_bind, E. cbn [run fst snd]. do 3 eexists. split; [reflexivity|].
    destruct st as [|c].
    + destruct Q as (occs & S & F). exists occs. split; auto. now constructor.
    + destruct Q as (-> & B & L). split; auto. split; auto.
      intros i. destruct (B i) as (e & Ee). exists e. cbn. now rewrite Ee.
Qed.

Lemma fields_run l : forall s,
  (forall k v r, In (k, v) l -> mentions v r -> exists o, get_obj w r = Some o) -> unseen s < n ->
  runs (fields rec l) s (shows_fields l) bad_items.
Proof.
  induction l as [|[k v] l IH]; intros s M U; cbn [ModReprM.fields].
  - exists [], Done, s. split; auto. exists []. split; constructor.
  - destruct (pieces_run v s (fun r => M k v r (or_introl eq_refl)) U) as (a & st & s1 & E & Q).
    unfold runs. rewrite run_bind, E. cbn [fst snd].
    destruct st as [|c].
    2:{ destruct Q as (-> & B & L). do 3 eexists. split; [reflexivity|]. split; auto. split; auto.
        apply bad_item. now apply bad_other. }
    destruct Q as (o1 & S1 & F1). rewrite run_bind.
    destruct (IH s1 (fun k v r H => M k v r (or_intror H)) (mono _ _ _ F1 U)) as (b & st & s2 & E2 & Q2).
    rewrite E2. cbn [run fst snd]. do 3 eexists. split; [reflexivity|].
    destruct st as [|c].
    + destruct Q2 as (o2 & S2 & F2). exists (o1 ++ o2). split; [now constructor | eapply ffs_app; eassumption].
    + destruct Q2 as (-> & B & L). split; auto. split; auto. apply bad_items_cons; auto.
      intros i sep. cbn [render_item].
      destruct (okp_other a (proj1 (proj2 (proj2 (proj2 (proj2 shows_render)))) _ _ _ S1) i) as (x & Ex).
      rewrite Ex. eexists. reflexivity.
Qed.

Lemma value_run a s :
  (forall r, attr_mentions a r -> exists o, get_obj w r = Some o) -> unseen s < n ->
  runs (value rec a) s (shows_val a) bad_val.
Proof.
  intros M U. destruct a as [v|c].
  - assert (Oth : (forall r, v <> PyMod r) -> (forall t, v <> PyStr t) ->
              runs (bind (pieces rec v) (fun p => Ret (RvOther (fst p), snd p))) s (shows_val (ARaw v)) bad_val).
    { intros H1 H2. destruct (pieces_run v s M U) as (a & st & s1 & E & Q).
      unfold runs. rewrite run_bind, E. cbn [run fst snd]. do 3 eexists. split; [reflexivity|].
      destruct st as [|c].
      - destruct Q as (occs & S & F). exists occs. split; auto. now constructor.
      - destruct Q as (-> & B & L). split; auto. split; auto. now apply bad_other. }
    destruct v as [| x | x | x | l | x | c x]; try (apply Oth; discriminate).
    + exists (RvStr x), Done, s. split; auto. exists []. split; constructor.
    + cbn [ModReprM.value]. destruct (rec_ok x s (M x (mn_mod x)) U) as (a & st & s1 & E & Q).
      unfold runs. rewrite run_bind, E. cbn [run fst snd]. do 3 eexists. split; [reflexivity|].
      destruct st as [|c].
      * destruct Q as (occs & S & F). exists occs. split; auto. now constructor.
      * destruct Q as (-> & B & L). split; auto.
  - cbn [ModReprM.value].
    destruct (fields_run (c_meta c ++ [("value", c_val c)]) s) as (a & st & s1 & E & Q); auto.
    { intros k v r H Hm. apply M. apply in_app_or in H. destruct H as [H | [H | []]].
      - right. eauto.
      - injection H as <- <-. now left. }
    unfold runs. rewrite run_bind, E. cbn [run fst snd]. do 3 eexists. split; [reflexivity|].
    destruct st as [|b].
    + destruct Q as (occs & S & F). exists occs. split; auto. now constructor.
    + destruct Q as (-> & B & L). split; auto. split; auto.
      intros i. destruct (bad_robj (block (cls_name (c_cls c))) a B i) as (e & Ee). exists e. exact Ee.
Qed.

Lemma items_run l : forall s,
  (forall na r, In na l -> attr_mentions (snd na) r -> exists o, get_obj w r = Some o) -> unseen s < n ->
  runs (items rec l) s (shows_items l) bad_items.
Proof.
  induction l as [|[k a] l IH]; intros s M U; cbn [ModReprM.items].
  - exists [], Done, s. split; auto. exists []. split; constructor.
  - destruct (value_run a s (fun r => M (k, a) r (or_introl eq_refl)) U) as (v & st & s1 & E & Q).
    unfold runs. rewrite run_bind, E. cbn [fst snd].
    destruct st as [|c].
    2:{ destruct Q as (-> & B & L). do 3 eexists. split; [reflexivity|]. split; auto. split; auto. now apply bad_item. }
    destruct Q as (o1 & S1 & F1). rewrite run_bind.
    destruct (IH s1 (fun na r H => M na r (or_intror H)) (mono _ _ _ F1 U)) as (b & st & s2 & E2 & Q2).
    rewrite E2. cbn [run fst snd]. do 3 eexists. split; [reflexivity|].
    destruct st as [|c].
    + destruct Q2 as (o2 & S2 & F2). exists (o1 ++ o2). split; [now constructor | eapply ffs_app; eassumption].
    + destruct Q2 as (-> & B & L). split; auto. split; auto. apply bad_items_cons; auto.
      intros i sep. cbn [render_item].
      destruct (proj1 (proj2 (proj2 shows_render)) _ _ _ S1 i) as (x & Ex).
      rewrite Ex. eexists. reflexivity.
Qed.
End Rec.

Hypothesis exist : all_exist w.

Lemma printed_listed na : printed (w_nodes w) na = listed (w_nodes w) na.
Proof.
  destruct na as [n a]. unfold printed, listed, starts_with. cbn [fst snd].
  rewrite negb_orb. destruct a as [[]|]; reflexivity.
Qed.
Lemma filter_listed l : filter (printed (w_nodes w)) l = filter (listed (w_nodes w)) l.
Proof. apply filter_ext. exact printed_listed. Qed.

Lemma printed_mentions r o :
  get_obj w r = Some o -> forall na x, In na (filter (printed (w_nodes w)) (m_vars o)) -> attr_mentions (snd na) x -> exists o, get_obj w x = Some o.
Proof.
  rewrite filter_listed. intros Ho na x H Hm. apply filter_In in H. destruct H as (H & P). apply (exist r x). exists o, na. auto.
Qed.

Lemma nnx_repr_run : forall fuel r s,
  (exists o, get_obj w r = Some o) -> unseen s < fuel -> runs (nnx_repr fuel r) s (shows r) bad_obj.
Proof.
  induction fuel as [|f IH]; intros r s (o & Ho) U; [lia|].
  cbn [ModReprM.nnx_repr]. rewrite Ho. unfold runs. cbn [run].
  assert (Hi : idof r = m_id o) by (unfold idof; now rewrite Ho).
  destruct (nmem (m_id o) s) eqn:M.
  - cbn [run]. do 3 eexists. split; [reflexivity|]. exists [(r, false)]. split; [now constructor|].
    apply ffs_dots; [| constructor]. rewrite Hi. now apply nmem_In.
  - assert (N : ~ In (idof r) s) by (rewrite Hi; intros H; apply nmem_In in H; congruence).
    cbn [run]. rewrite M. rewrite run_bind.
    destruct (items_run (nnx_repr f) f IH (filter (printed (w_nodes w)) (m_vars o)) (s ++ [m_id o])
                (printed_mentions r o Ho)) as (a & st & s1 & E & Q).
    { assert (L := unseen_lt s r o Ho N). rewrite Hi in L. lia. }
    rewrite E. cbn [fst snd]. destruct st as [|c]; cbn [run].
    + do 3 eexists. split; [reflexivity|]. destruct Q as (occs & S & F). exists ((r, true) :: occs). split.
      * apply shows_full; auto. rewrite <- filter_listed. exact S.
      * constructor; auto. now rewrite Hi.
    + destruct Q as (-> & B & L). do 3 eexists. split; [reflexivity|]. split; auto. split; auto. now apply bad_robj.
Qed.

(** the whole repr *)
Lemma unseen_bound s : unseen s < enough w.
Proof.
  unfold unseen, enough. assert (H := filter_len_mono (fun x => negb (nmem (idof x) s)) (fun _ => true) (seq 0 (List.length (w_heap w))) (fun _ _ _ => eq_refl)).
  rewrite <- (seq_length (List.length (w_heap w)) 0) at 2.
  replace (filter (fun _ : nat => true) (seq 0 (List.length (w_heap w)))) with (seq 0 (List.length (w_heap w))) in H; [lia|].
  clear. induction (seq 0 (List.length (w_heap w))) as [|a l IHl]; cbn; auto. now rewrite <- IHl.
Qed.

Lemma repr_run r : (exists o, get_obj w r = Some o) ->
  exists ob st g', run (nnx_repr (enough w) r) None = ((ob, st), g') /\
  match st with
  | Done => g' = None /\ exists occs s', shows r occs ob /\ ffs [] occs s' /\ exists t, occs = (r, true) :: t
  | Raised c => c = true /\ bad_obj ob /\ ~ leaves_print leaf /\ exists s', g' = Some s'
  end.
Proof.
  intros (o & Ho). unfold enough. cbn [ModReprM.nnx_repr]. rewrite Ho. cbn [run nmem existsb app].
  assert (Hi : idof r = m_id o) by (unfold idof; now rewrite Ho).
  rewrite run_bind.
  destruct (items_run (nnx_repr (List.length (w_heap w))) (List.length (w_heap w)) (nnx_repr_run _)
              (filter (printed (w_nodes w)) (m_vars o)) [m_id o] (printed_mentions r o Ho)) as (a & st & s1 & E & Q).
  { assert (L := unseen_lt [] r o Ho (fun H => H)). cbn [app] in L. rewrite Hi in L.
    assert (B := unseen_bound []). unfold enough in B. lia. }
  rewrite E. cbn [fst snd]. destruct st as [|c]; cbn [run].
  - do 3 eexists. split; [reflexivity|]. split; auto. destruct Q as (occs & S & F).
    exists ((r, true) :: occs), s1. split; [apply shows_full; auto; rewrite <- filter_listed; exact S|]. split.
    + apply ffs_full; auto. rewrite Hi. exact F.
    + eauto.
  - destruct Q as (-> & B & L). do 3 eexists. split; [reflexivity|]. split; auto. split; [now apply bad_robj|]. split; eauto.
Qed.

(** all occurrences are connected modules that exist *)
Lemma conn_trans a b c : connected w a b -> connected w b c -> connected w a c.
Proof. intros H1 H2. induction H2; auto. econstructor; eauto. Qed.

Lemma shows_connected :
  (forall r occs o, shows r occs o -> forall x b, In (x, b) occs -> connected w r x /\ exists ob, get_obj w x = Some ob) /\
  (forall l occs its, shows_items l occs its -> forall x b, In (x, b) occs ->
     (exists na y, In na l /\ attr_mentions (snd na) y /\ connected w y x) /\ exists ob, get_obj w x = Some ob) /\
  (forall a occs v, shows_val a occs v -> forall x b, In (x, b) occs ->
     (exists y, attr_mentions a y /\ connected w y x) /\ exists ob, get_obj w x = Some ob) /\
  (forall l occs its, shows_fields l occs its -> forall x b, In (x, b) occs ->
     (exists k v y, In (k, v) l /\ mentions v y /\ connected w y x) /\ exists ob, get_obj w x = Some ob) /\
  (forall v occs ps, shows_pieces v occs ps -> forall x b, In (x, b) occs ->
     (exists y, mentions v y /\ connected w y x) /\ exists ob, get_obj w x = Some ob) /\
  (forall l occs ps, shows_rest l occs ps -> forall x b, In (x, b) occs ->
     (exists v y, In v l /\ mentions v y /\ connected w y x) /\ exists ob, get_obj w x = Some ob).
Proof.
  apply shows_mut.
  - intros r ob Ho x b [[= <- _] | []]. split; [constructor | eauto].
  - intros r ob occs its Ho _ IH x b [[= <- _] | H]; [split; [constructor | eauto]|].
    destruct (IH _ _ H) as ((na & y & Hna & Hm & Hc) & E). split; auto.
    eapply conn_trans; [| exact Hc]. econstructor; [constructor|].
    apply filter_In in Hna. destruct Hna. exists ob, na. auto.
  - intros x b [].
  - intros n a t o1 o2 v its _ IH1 _ IH2 x b H. apply in_app_or in H. destruct H as [H | H].
    + destruct (IH1 _ _ H) as ((y & Hm & Hc) & E). split; auto. exists (n, a), y. cbn. auto.
    + destruct (IH2 _ _ H) as ((na & y & Hna & Hm & Hc) & E). split; auto. exists na, y. cbn. auto.
  - intros r occs o _ IH x b H. destruct (IH _ _ H) as (Hc & E). split; auto. exists r. split; auto. constructor.
  - intros s x b [].
  - intros v occs ps _ _ _ IH x b H. exact (IH _ _ H).
  - intros c occs its _ IH x b H. destruct (IH _ _ H) as ((k & v & y & Hin & Hm & Hc) & E). split; auto.
    exists y. split; auto. apply in_app_or in Hin. cbn. destruct Hin as [Hin | [[= <- <-] | []]]; eauto.
  - intros x b [].
  - intros n v t o1 o2 ps its _ IH1 _ IH2 x b H. apply in_app_or in H. destruct H as [H | H].
    + destruct (IH1 _ _ H) as ((y & Hm & Hc) & E). split; auto. exists n, v, y. cbn. auto.
    + destruct (IH2 _ _ H) as ((k & u & y & Hna & Hm & Hc) & E). split; auto. exists k, u, y. cbn. auto.
  - intros r occs o _ IH x b H. destruct (IH _ _ H) as (Hc & E). split; auto. exists r. split; auto. constructor.
  - intros x b [].
  - intros v occs ps _ IH x b H. destruct (IH _ _ H) as ((y & Hm & Hc) & E). split; auto. exists y. split; auto.
    econstructor; [left; reflexivity | exact Hm].
  - intros v u l o1 o2 ps qs _ IH1 _ IH2 x b H. apply in_app_or in H. destruct H as [H | H].
    + destruct (IH1 _ _ H) as ((y & Hm & Hc) & E). split; auto. exists y. split; auto. econstructor; [left; reflexivity | exact Hm].
    + destruct (IH2 _ _ H) as ((v' & y & Hin & Hm & Hc) & E). split; auto. exists y. split; auto. econstructor; [right; exact Hin | exact Hm].
  - intros v s _ _ _ x b [].
  - intros x b [].
  - intros v l o1 o2 ps qs _ IH1 _ IH2 x b H. apply in_app_or in H. destruct H as [H | H].
    + destruct (IH1 _ _ H) as ((y & Hm & Hc) & E). split; auto. exists v, y. cbn. auto.
    + destruct (IH2 _ _ H) as ((v' & y & Hin & Hm & Hc) & E). split; auto. exists v', y. cbn. auto.
Qed.

(** what a module listed in full mentions, occurs *)
Definition complete (occs : list (nat * bool)) : Prop :=
  forall x y, In (x, true) occs -> prints w x y -> In y (map fst occs).
Lemma complete_app a b : complete a -> complete b -> complete (a ++ b).
Proof.
  intros Ha Hb x y H P. rewrite map_app. apply in_or_app. apply in_app_or in H. destruct H as [H | H]; [left | right]; eauto.
Qed.
Lemma complete_nil : complete [].
Proof. intros x y []. Qed.
Lemma in_fst_app (y : nat) (a b : list (nat * bool)) : In y (map fst a) \/ In y (map fst b) -> In y (map fst (a ++ b)).
Proof. intros H. rewrite map_app. now apply in_or_app. Qed.

Lemma shows_complete :
  (forall r occs o, shows r occs o -> complete occs /\ In r (map fst occs)) /\
  (forall l occs its, shows_items l occs its -> complete occs /\ forall na y, In na l -> attr_mentions (snd na) y -> In y (map fst occs)) /\
  (forall a occs v, shows_val a occs v -> complete occs /\ forall y, attr_mentions a y -> In y (map fst occs)) /\
  (forall l occs its, shows_fields l occs its -> complete occs /\ forall k v y, In (k, v) l -> mentions v y -> In y (map fst occs)) /\
  (forall v occs ps, shows_pieces v occs ps -> complete occs /\ forall y, mentions v y -> In y (map fst occs)) /\
  (forall l occs ps, shows_rest l occs ps -> complete occs /\ forall v y, In v l -> mentions v y -> In y (map fst occs)).
Proof.
  apply shows_mut.
  - intros r ob Ho. split; [| now left]. intros x y [[=] | []].
  - intros r ob occs its Ho _ (C & A). split; [| now left]. intros x y [[= ->] | H] P.
    + destruct P as (ob' & na & Ho' & Hin & Hp & Hm). rewrite Ho in Ho'. injection Ho' as <-.
      right. apply (A na y); auto. apply filter_In. auto.
    + right. eapply C; eauto.
  - split; [apply complete_nil | intros na y []].
  - intros n a t o1 o2 v its _ (C1 & A1) _ (C2 & A2). split; [now apply complete_app|].
    intros na y [<- | H] Hm; apply in_fst_app; [left | right]; eauto.
  - intros r occs o _ (C & A). split; auto. intros y H. inversion H; subst. exact A.
  - intros s. split; [apply complete_nil|]. intros y H. inversion H.
  - intros v occs ps _ _ _ (C & A). split; auto.
  - intros c occs its _ (C & A). split; auto. intros y [H | (k & v & Hin & H)].
    + apply (A "value" (c_val c) y); auto. apply in_or_app. right. now left.
    + apply (A k v y); auto. apply in_or_app. now left.
  - split; [apply complete_nil | intros k v y []].
  - intros n v t o1 o2 ps its _ (C1 & A1) _ (C2 & A2). split; [now apply complete_app|].
    intros k u y [[= <- <-] | H] Hm; apply in_fst_app; [left | right]; eauto.
  - intros r occs o _ (C & A). split; auto. intros y H. inversion H; subst. exact A.
  - split; [apply complete_nil|]. intros y H. inversion H as [|? ? ? Hin Hm]; subst. destruct Hin.
  - intros v occs ps _ (C & A). split; auto. intros y H. inversion H as [|? ? ? Hin Hm]; subst.
    destruct Hin as [<- | []]. auto.
  - intros v u l o1 o2 ps qs _ (C1 & A1) _ (C2 & A2). split; [now apply complete_app|].
    intros y H. inversion H as [|? ? ? Hin Hm]; subst.
    destruct Hin as [<- | Hin]; apply in_fst_app; [left | right]; eauto.
  - intros v s H1 H2 _. split; [apply complete_nil|]. intros y H. inversion H; subst; [now destruct (H1 y) | now destruct (H2 l)].
  - split; [apply complete_nil | intros v y []].
  - intros v l o1 o2 ps qs _ (C1 & A1) _ (C2 & A2). split; [now apply complete_app|].
    intros u y [<- | H] Hm; apply in_fst_app; [left | right]; eauto.
Qed.

Hypothesis distinct : distinct_ids w.
Lemma ffs_first_gen s occs s' : ffs s occs s' ->
  forall pre, (forall x b, In (x, b) occs -> exists o, get_obj w x = Some o) ->
  (forall x o, get_obj w x = Some o -> (In (idof x) s <-> In x (map fst pre))) ->
  forall before r full after, occs = before ++ (r, full) :: after -> (full = true <-> ~ In r (map fst (pre ++ before))).
Proof.
  induction 1 as [s | s x t s' Hn H IH | s x t s' Hi H IH]; intros pre Ex Hs before r full after E.
  - destruct before; discriminate.
  - destruct (Ex x true (or_introl eq_refl)) as (o & Ho).
    destruct before as [|q before].
    + injection E as <- <- <-. rewrite app_nil_r. split; auto. intros _ Hin. apply Hn. apply (Hs x o Ho). exact Hin.
    + injection E as <- E. rewrite (IH (pre ++ [(x, true)])) with (after := after) (before := before) (r := r) (full := full); auto.
      * rewrite <- app_assoc. reflexivity.
      * intros y b Hy. apply (Ex y b). now right.
      * intros y oy Hy. rewrite map_app, !in_app_iff. rewrite (Hs y oy Hy). cbn.
        split; (intros [K | [K | []]]; [now left | right; left]).
        -- unfold idof in K. rewrite Ho, Hy in K. eapply distinct; eauto.
        -- now subst.
  - destruct (Ex x false (or_introl eq_refl)) as (o & Ho).
    destruct before as [|q before].
    + injection E as <- <- <-. rewrite app_nil_r. split; [discriminate|]. intros K. destruct K. now apply (Hs x o Ho).
    + injection E as <- E. rewrite (IH (pre ++ [(x, false)])) with (after := after) (before := before) (r := r) (full := full); auto.
      * rewrite <- app_assoc. reflexivity.
      * intros y b Hy. apply (Ex y b). now right.
      * intros y oy Hy. rewrite map_app, in_app_iff. rewrite (Hs y oy Hy). cbn.
        split; [now left|]. intros [K | [K | []]]; auto. subst y. now apply (Hs x o Ho).
Qed.

Lemma ffs_first occs s' : ffs [] occs s' -> (forall x b, In (x, b) occs -> exists o, get_obj w x = Some o) -> first_in_full occs.
Proof.
  intros F Ex before r full after E. apply (ffs_first_gen _ _ _ F []) with (after := after) (before := before) (r := r) (full := full); auto.
  intros x o _. cbn. tauto.
Qed.

Lemma first_full_of occs x : first_in_full occs -> In x (map fst occs) -> In (x, true) occs.
Proof.
  intros F H.
  assert (G : forall pre l, occs = pre ++ l -> ~ In x (map fst pre) -> In x (map fst l) -> In (x, true) occs).
  { clear H. intros pre l. revert pre. induction l as [|[y b] l IH]; intros pre E N H; [destruct H|].
    destruct (Nat.eq_dec y x) as [-> | Ny].
    - apply (F pre x b l E) in N. subst b. rewrite E. apply in_or_app. right. now left.
    - apply (IH (pre ++ [(y, b)])).
      + rewrite E, <- app_assoc. reflexivity.
      + rewrite map_app, in_app_iff. cbn. tauto.
      + destruct H as [H | H]; [contradiction | exact H]. }
  apply (G [] occs); auto.
Qed.

Theorem repr_correct r : (exists o, get_obj w r = Some o) -> leaves_print leaf ->
  exists ob occs t, shows r occs ob /\ first_in_full occs /\
    (forall x, In (x, true) occs <-> connected w r x) /\
    render "" ob = Ok t /\ run (repr_prog leaf w r) None = ((Ok t, Done), None).
Proof.
  intros Hr Hl. destruct (repr_run r Hr) as (ob & st & g' & E & Q).
  destruct st as [|c]; [| destruct Q as (_ & _ & N & _); contradiction].
  destruct Q as (-> & occs & s' & S & F & _).
  assert (FF : first_in_full occs).
  { apply (ffs_first _ _ F). intros x b Hx. apply (proj1 shows_connected _ _ _ S x b Hx). }
  destruct (proj1 shows_render _ _ _ S "") as (t & Et).
  exists ob, occs, t. split; auto. split; auto. split.
  - intros x. split.
    + intros H. apply (proj1 shows_connected _ _ _ S x true H).
    + intros H. destruct (proj1 shows_complete _ _ _ S) as (C & A). induction H as [|x y Hx IH P].
      * apply first_full_of; auto.
      * apply first_full_of; auto. apply (C x y); auto.
  - split; auto. unfold repr_prog. rewrite run_bind, E. cbn [run text fst snd]. unfold text. cbn [fst].
    assert (G := get_repr_render ob [] ""). cbn [app] in G. rewrite G. cbn [fst]. now rewrite Et.
Qed.

(** with attributes whose repr raises *)
Theorem repr_raises r : (exists o, get_obj w r = Some o) ->
  (exists t, run (repr_prog leaf w r) None = ((Ok t, Done), None)) \/
  (exists e s, run (repr_prog leaf w r) None = ((Err e, Raised true), Some s)).
Proof.
  intros Hr. destruct (repr_run r Hr) as (ob & st & g' & E & Q).
  unfold repr_prog. rewrite run_bind, E. cbn [run fst snd]. unfold text. cbn [fst].
  assert (G := get_repr_render ob [] ""). cbn [app] in G. rewrite G. cbn [fst].
  destruct st as [|c].
  - destruct Q as (-> & occs & s' & S & _). destruct (proj1 shows_render _ _ _ S "") as (t & Et). left. exists t. now rewrite Et.
  - destruct Q as (-> & B & _ & (s' & ->)). right. destruct (B "") as (e & Ee). exists e, s'. now rewrite Ee.
Qed.

Notation fresh := (fresh leaf w). Notation dropped := (dropped leaf w).
Theorem history_fresh es : dropped es -> (forall r, In r (reprs es) -> exists o, get_obj w r = Some o) ->
  fst (history leaf w es (None, false)) = map fresh (reprs es).
Proof.
  induction 1 as [| t Ht IH | r s t Es Ht IH | r t Ht IH | r]; intros Ex.
  - reflexivity.
  - cbn [history event_step reprs]. specialize (IH Ex). destruct (history leaf w t (None, false)) as [os s2]. exact IH.
  - cbn [history event_step reprs map]. unfold Spec_ModRepr.fresh in Es.
    destruct (repr_raises r (Ex r (or_introl eq_refl))) as [(t' & E) | (e & s' & E)]; rewrite E in Es; cbn in Es; [|discriminate].
    rewrite E. specialize (IH (fun x H => Ex x (or_intror H))). destruct (history leaf w t (None, false)) as [os s2].
    cbn [fst]. f_equal; [| exact IH]. unfold Spec_ModRepr.fresh. now rewrite E.
  - cbn [history event_step reprs map].
    specialize (IH (fun x H => Ex x (or_intror H))).
    destruct (repr_raises r (Ex r (or_introl eq_refl))) as [(t' & E) | (e & s' & E)]; rewrite E; cbn [orb history event_step];
      destruct (history leaf w t (None, false)) as [os s2]; cbn [fst]; (f_equal; [unfold Spec_ModRepr.fresh; now rewrite E | exact IH]).
  - cbn [history event_step reprs map].
    destruct (repr_raises r (Ex r (or_introl eq_refl))) as [(t' & E) | (e & s' & E)]; rewrite E; cbn [fst];
      unfold Spec_ModRepr.fresh; now rewrite E.
Qed.
End R.

(** ** Threads that do not overlap *)

(** one thread scheduled alone *)
Lemma block_runs {A} (p : prog A) : forall g, exists N, forall n i (ts : list (prog A)), N <= n -> nth_error ts i = Some p ->
  interleave (repeat i n) ts g = (list_set i (Ret (fst (run p g))) ts, snd (run p g)).
Proof.
  assert (Z : forall n i (ts : list (prog A)) a g, nth_error ts i = Some (Ret a) ->
                interleave (repeat i n) ts g = (list_set i (Ret a) ts, g)).
  { assert (Y : forall i (ts : list (prog A)) x, nth_error ts i = Some x -> list_set i x ts = ts).
    { induction i as [|i IH]; intros [|y t] x H; cbn in *; try discriminate; [congruence|]. f_equal. auto. }
    induction n as [|n IH]; intros i ts a g H; cbn [repeat interleave]; [now rewrite Y|].
    rewrite H. cbn [access]. rewrite (IH i _ a g); [now rewrite !(Y i ts (Ret a) H)|now rewrite (Y i ts (Ret a) H)]. }
  assert (S2 : forall i (ts : list (prog A)) x y, list_set i y (list_set i x ts) = list_set i y ts).
  { induction i as [|i IH]; intros [|u t] x y; cbn; auto. f_equal. auto. }
  assert (G : forall q i (ts : list (prog A)) p, nth_error ts i = Some p -> nth_error (list_set i q ts) i = Some (q : prog A)).
  { intros q i ts p0 H. apply nth_list_set_same. apply nth_error_Some. congruence. }
  assert (Step : forall (q r : prog A) g g', access q g = (r, g') -> run q g = run r g' ->
     (exists N, forall n i (ts : list (prog A)), N <= n -> nth_error ts i = Some r ->
        interleave (repeat i n) ts g' = (list_set i (Ret (fst (run r g'))) ts, snd (run r g'))) ->
     exists N, forall n i (ts : list (prog A)), N <= n -> nth_error ts i = Some q ->
        interleave (repeat i n) ts g = (list_set i (Ret (fst (run q g))) ts, snd (run q g))).
  { intros q r g g' Ea Er [N HN]. exists (S N). intros n i ts Hn Hi. destruct n as [|n]; [lia|].
    cbn [repeat interleave]. rewrite Hi, Ea. rewrite HN; [|lia|eapply G; eauto]. now rewrite S2, Er. }
  induction p as [a|k IH|k IH|i0 k IH|i0 k IH|k IH]; intros g.
  - exists 0. intros n i ts _ H. now apply Z.
  - eapply Step; [reflexivity|reflexivity|]. apply IH.
  - eapply Step; [reflexivity|reflexivity|]. apply IH.
  - eapply Step; [reflexivity|reflexivity|]. apply IH.
  - destruct g as [s|]; (eapply Step; [reflexivity|reflexivity|]; apply IH).
  - eapply Step; [reflexivity|reflexivity|]. apply IH.
Qed.

Lemma interleave_app {A} s1 : forall s2 (ts : list (prog A)) g,
  interleave (s1 ++ s2) ts g = let '(ts1, g1) := interleave s1 ts g in interleave s2 ts1 g1.
Proof.
  induction s1 as [|i s1 IH]; intros s2 ts g; cbn [app interleave]; auto.
  destruct (nth_error ts i) as [p|]; [|apply IH]. destruct (access p g) as [p' g']. apply IH.
Qed.

Lemma nth_ext_error {A} : forall l l' : list A, (forall i, nth_error l i = nth_error l' i) -> l = l'.
Proof.
  induction l as [|x l IH]; intros [|y l'] H; auto; [specialize (H 0); discriminate|specialize (H 0); discriminate|].
  f_equal; [specialize (H 0); cbn in H; congruence|]. apply IH. intros i. exact (H (S i)).
Qed.

Theorem serial_threads leaf w rs order :
  all_exist w -> leaves_print leaf -> distinct_ids w -> (forall r, In r rs -> exists o, get_obj w r = Some o) ->
  Permutation order (seq 0 (List.length rs)) ->
  exists N, forall n, N <= n ->
    interleave (flat_map (fun i => repeat i n) order) (map (repr_prog leaf w) rs) None =
    (map (fun r => Ret (fresh leaf w r, Done)) rs, None).
Proof.
  intros He Hl Hd Hrs Hp.
  assert (ND : NoDup order) by (eapply Permutation_NoDup; [apply Permutation_sym; exact Hp|apply seq_NoDup]).
  assert (B : forall i, In i order -> exists r, nth_error rs i = Some r).
  { intros i Hi. eapply Permutation_in in Hi; [|exact Hp]. apply in_seq in Hi.
    destruct (nth_error rs i) as [r|] eqn:E; [eauto|]. apply nth_error_None in E. lia. }
  assert (M : exists N, forall n, N <= n -> forall ts,
            (forall i, In i order -> nth_error ts i = option_map (repr_prog leaf w) (nth_error rs i)) ->
            exists ts', interleave (flat_map (fun i => repeat i n) order) ts None = (ts', None) /\
              (forall i, In i order -> nth_error ts' i = option_map (fun r => Ret (fresh leaf w r, Done)) (nth_error rs i)) /\
              (forall i, ~ In i order -> nth_error ts' i = nth_error ts i)).
  { clear Hp. induction order as [|i order IH].
    - exists 0. intros n _ ts _. exists ts. split; [reflexivity|]. split; [intros i []|auto].
    - inversion ND as [|? ? Hni ND']; subst. destruct (IH ND') as [N HN]; [intros j Hj; apply B; now right|].
      destruct (B i) as [r Er]; [now left|].
      assert (Hr : exists o, get_obj w r = Some o) by (apply Hrs; eapply nth_error_In; eauto).
      destruct (repr_correct leaf w He Hd r Hr Hl) as (ob & occs & t & _ & _ & _ & _ & R).
      destruct (block_runs (repr_prog leaf w r) None) as [N' HN']. exists (N + N'). intros n Hn ts Hts.
      assert (Hi : nth_error ts i = Some (repr_prog leaf w r)) by (rewrite (Hts i) by (now left); now rewrite Er).
      cbn [flat_map]. rewrite interleave_app, (HN' n i ts); [|lia|exact Hi]. rewrite R. cbn [fst snd].
      destruct (HN n ltac:(lia) (list_set i (Ret (Ok t, Done)) ts)) as (ts' & E & E1 & E2).
      { intros j Hj. rewrite nth_list_set_other by (intros ->; contradiction). apply Hts. now right. }
      exists ts'. split; [exact E|]. split.
      + intros j [<- | Hj].
        * rewrite E2 by assumption. rewrite nth_list_set_same by (apply nth_error_Some; congruence). rewrite Er. cbn.
          unfold fresh. now rewrite R.
        * now apply E1.
      + intros j Hj. rewrite E2 by (intros H; apply Hj; now right). apply nth_list_set_other. intros ->. apply Hj. now left. }
  destruct M as [N HN]. exists N. intros n Hn. destruct (HN n Hn (map (repr_prog leaf w) rs)) as (ts' & E & E1 & E2).
  { intros i _. apply nth_error_map. }
  rewrite E. f_equal. apply nth_ext_error. intros i. rewrite nth_error_map.
  destruct (in_dec Nat.eq_dec i order) as [Hi|Hi]; [now apply E1|]. rewrite E2 by assumption. rewrite nth_error_map.
  destruct (nth_error rs i) as [r|] eqn:Er; [|reflexivity]. exfalso. apply Hi.
  eapply Permutation_in; [apply Permutation_sym; exact Hp|]. apply in_seq. split; [lia|]. cbn. apply nth_error_Some. congruence.
Qed.
