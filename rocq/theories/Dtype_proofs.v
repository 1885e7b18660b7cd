(** Proofs about DtypeM. *)
From Coq Require Import Relations Permutation.
From Verif Require Import PyBase PyBaseFacts DtypeM Spec_Dtype.
Local Open Scope list_scope.

(** ** The lattice *)
Definition widths := [W8; W16; W32; W64].
Definition all_dtypes : list dtype := TBool :: map TU widths ++ map TI widths ++ [TBF16; TF16; TF32; TF64; TC64; TC128].
Definition all_nodes : list node := NInt :: NFloat :: NComplex :: map N all_dtypes.
Lemma dtype_in d : In d all_dtypes.
Proof. destruct d as [|w|w| | | | | |]; try destruct w; cbn; tauto. Qed.
Lemma node_in n : In n all_nodes.
Proof. destruct n as [| | |d]; [cbn; tauto..|]. right. right. right. apply in_map. apply dtype_in. Qed.
Lemma dtype_eqb_eq a b : dtype_eqb a b = true <-> a = b.
Proof. split; [|intros <-; destruct a as [|w|w| | | | | |]; try destruct w; reflexivity]. destruct a as [|v|v| | | | | |], b as [|w|w| | | | | |]; try destruct v; try destruct w; cbn; intros H; try discriminate; reflexivity. Qed.
Definition node_eqb (a b : node) : bool :=
  match a, b with NInt, NInt | NFloat, NFloat | NComplex, NComplex => true | N d, N e => dtype_eqb d e | _, _ => false end.
Lemma node_eqb_eq a b : node_eqb a b = true <-> a = b.
Proof. destruct a, b; cbn; split; intros H; try discriminate; try reflexivity; [apply dtype_eqb_eq in H; congruence|injection H as <-; apply dtype_eqb_eq; reflexivity]. Qed.

Lemma forall1 (f : node -> bool) : forallb f all_nodes = true -> forall a, f a = true.
Proof. intros H a. rewrite forallb_forall in H. apply H, node_in. Qed.
Lemma forall2 (f : node -> node -> bool) : forallb (fun a => forallb (f a) all_nodes) all_nodes = true -> forall a b, f a b = true.
Proof. intros H a b. apply (forall1 (f a)). exact (forall1 _ H a). Qed.
Lemma forall3 (f : node -> node -> node -> bool) :
  forallb (fun a => forallb (fun b => forallb (f a b) all_nodes) all_nodes) all_nodes = true -> forall a b c, f a b c = true.
Proof. intros H a b c. apply (forall1 (f a b)). exact (forall2 _ H a b). Qed.

Lemma join_comm a b : join a b = join b a.
Proof. apply node_eqb_eq. revert a b. apply forall2. vm_compute. reflexivity. Qed.
Lemma join_assoc a b c : join a (join b c) = join (join a b) c.
Proof. apply node_eqb_eq. revert a b c. apply forall3. vm_compute. reflexivity. Qed.
Lemma join_idem a : join a a = a.
Proof. apply node_eqb_eq. revert a. apply forall1. vm_compute. reflexivity. Qed.
Lemma join_bool a : join (N TBool) a = a.
Proof. destruct a as [| | |d]; try reflexivity. Qed.

Definition arrows : list (node * node) :=
  [(N TBool, NInt); (NInt, N (TU W8)); (NInt, N (TI W8)); (N (TU W8), N (TU W16)); (N (TU W8), N (TI W16)); (N (TU W16), N (TU W32)); (N (TU W16), N (TI W32));
   (N (TU W32), N (TU W64)); (N (TU W32), N (TI W64)); (N (TI W8), N (TI W16)); (N (TI W16), N (TI W32)); (N (TI W32), N (TI W64)); (N (TU W64), NFloat); (N (TI W64), NFloat);
   (NFloat, N TBF16); (NFloat, N TF16); (NFloat, NComplex); (N TBF16, N TF32); (N TF16, N TF32); (N TF32, N TF64); (N TF32, N TC64); (N TF64, N TC128); (NComplex, N TC64); (N TC64, N TC128)].
Lemma arrows_ok a b : In (a, b) arrows -> arrow a b.
Proof. cbn. intros H. repeat (destruct H as [H|H]; [injection H as <- <-; constructor|]). destruct H. Qed.
Fixpoint reach (n : nat) (a b : node) : bool :=
  if node_eqb a b then true else match n with 0 => false | S n => existsb (fun e => if node_eqb (fst e) a then reach n (snd e) b else false) arrows end.
Lemma reach_below n : forall a b, reach n a b = true -> below a b.
Proof.
  induction n as [|n IH]; intros a b H; cbn [reach] in H; destruct (node_eqb a b) eqn:Q; try (apply node_eqb_eq in Q; subst; apply rt_refl); [discriminate|].
  apply existsb_exists in H. destruct H as ([x y] & I & R). destruct (node_eqb (fst (x, y)) a) eqn:E; [|discriminate]. apply node_eqb_eq in E. cbn [fst snd] in *. subst x.
  eapply rt_trans; [apply rt_step; apply arrows_ok; exact I|apply IH; exact R].
Qed.
Lemma below_join a b : below a b <-> join a b = b.
Proof.
  split.
  - intros H. induction H as [x y E|x|x y z _ IH1 _ IH2]; [destruct E; reflexivity|apply join_idem|].
    rewrite <- IH2, join_assoc, IH1. reflexivity.
  - intros H. apply (reach_below 12). assert (Q : implb (node_eqb (join a b) b) (reach 12 a b) = true).
    { clear H. revert a b. apply forall2. vm_compute. reflexivity. }
    rewrite (proj2 (node_eqb_eq _ _) H) in Q. exact Q.
Qed.
Lemma join_lub a b : below a (join a b) /\ below b (join a b) /\ forall c, below a c -> below b c -> below (join a b) c.
Proof.
  rewrite !below_join. split; [rewrite join_assoc, join_idem; reflexivity|]. split; [rewrite (join_comm a b), join_assoc, join_idem; reflexivity|].
  intros c. rewrite !below_join. intros A B. rewrite <- join_assoc, B. exact A.
Qed.
Lemma below_anti a b : below a b -> below b a -> a = b.
Proof. rewrite !below_join. intros A B. rewrite <- A, join_comm. congruence. Qed.

Lemma fold_join l : forall s, fold_left join l s = join s (fold_left join l (N TBool)).
Proof.
  induction l as [|x l IH]; intros s; cbn [fold_left]; [rewrite join_comm, join_bool; reflexivity|].
  rewrite IH. rewrite (IH (join (N TBool) x)). rewrite join_bool, join_assoc. reflexivity.
Qed.
Lemma join_all_cons a l : join_all (a :: l) = join a (join_all l).
Proof. unfold join_all. cbn [fold_left]. rewrite join_bool. apply fold_join. Qed.
Lemma join_all_lub l : least_above l (join_all l).
Proof.
  induction l as [|a l [U L]].
  - split; [intros a []|]. intros m _. apply below_join. apply join_bool.
  - rewrite join_all_cons. destruct (join_lub a (join_all l)) as (A & B & C). split.
    + intros x [<-|I]; [exact A|]. eapply rt_trans; [apply U; exact I|exact B].
    + intros m H. apply C; [apply H; left; reflexivity|]. apply L. intros x I. apply H. right. exact I.
Qed.
Lemma lub_unique l a b : least_above l a -> least_above l b -> a = b.
Proof. intros [U L] [V M]. apply below_anti; [apply L; exact V|apply M; exact U]. Qed.
Lemma join_all_perm l m : Permutation l m -> join_all l = join_all m.
Proof.
  intros P. eapply lub_unique; [apply join_all_lub|]. destruct (join_all_lub m) as [U L]. split.
  - intros a I. apply U. eapply Permutation_in; eauto.
  - intros n H. apply L. intros a I. apply H. eapply Permutation_in; [apply Permutation_sym; exact P|exact I].
Qed.

(** ** result_type *)
Lemma default_of_is x64 k : k <> KBool -> dtype_for x64 (match k with KInt => NInt | KFloat => NFloat | KComplex => NComplex | KBool => N TBool end) = default_of x64 k.
Proof. destruct x64, k; try congruence; reflexivity. Qed.
Lemma node_dtype_is x64 n : a_dt (node_dtype x64 n) = dtype_for x64 n.
Proof. destruct n; [destruct x64; reflexivity..|reflexivity]. Qed.
Definition weak_kind (a : aty) : node := match dkind (a_dt a) with KBool => N TBool | KInt => NInt | KFloat => NFloat | KComplex => NComplex end.
(** on default types the kinds decide *)
Definition kind_node (k : kind) : node := match k with KBool => N TBool | KInt => NInt | KFloat => NFloat | KComplex => NComplex end.
Definition kmax (a b : kind) : kind :=
  match a, b with KComplex, _ | _, KComplex => KComplex | KFloat, _ | _, KFloat => KFloat | KInt, _ | _, KInt => KInt | _, _ => KBool end.
Definition def_node (x64 : bool) (k : kind) : node := N (default_of x64 k).
Lemma def_join x64 a b : join (def_node x64 a) (def_node x64 b) = def_node x64 (kmax a b).
Proof. destruct x64, a, b; reflexivity. Qed.
Lemma kind_join a b : join (kind_node a) (kind_node b) = kind_node (kmax a b).
Proof. destruct a, b; reflexivity. Qed.
Lemma dkind_default x64 k : dkind (default_of x64 k) = k.
Proof. destruct x64, k; reflexivity. Qed.
Lemma weak_case x64 l : (forall a, In a l -> a_weak a = true /\ made x64 a) -> l <> [] ->
  exists k, k <> KBool /\ join_all (map (fun a => N (a_dt a)) l) = def_node x64 k /\ join_all (map node_of l) = kind_node k.
Proof.
  intros H. induction l as [|a l IH]; [congruence|]. intros _. cbn [map]. rewrite !join_all_cons.
  destruct (H a (or_introl eq_refl)) as (W & (C & M)). destruct (M W) as (k & K & E).
  assert (Na : node_of a = kind_node k).
  { unfold node_of. rewrite W, E. unfold weak_node. rewrite dkind_default. destruct k; try congruence; reflexivity. }
  rewrite Na, E. destruct l as [|b l].
  - exists k. split; [exact K|]. change (join_all (map (fun a0 => N (a_dt a0)) [])) with (N TBool). change (join_all (map node_of [])) with (N TBool).
    rewrite !(join_comm _ (N TBool)), !join_bool. split; reflexivity.
  - destruct IH as (k' & K' & E1 & E2); [intros x I; apply H; right; exact I|discriminate|]. exists (kmax k k').
    split; [destruct k, k'; cbn; congruence|]. rewrite E1, E2. change (N (default_of x64 k)) with (def_node x64 k). rewrite def_join, kind_join. split; reflexivity.
Qed.
Lemma lattice_type_is x64 l : (forall a, In a l -> made x64 a) -> l <> [] ->
  a_dt (lattice_type x64 l) = dtype_for x64 (join_all (map node_of l)).
Proof.
  intros H Nn. unfold lattice_type. destruct (forallb a_weak l) eqn:F.
  - rewrite forallb_forall in F. destruct (weak_case x64 l) as (k & K & E1 & E2); [intros a I; split; auto|exact Nn|].
    rewrite E1, E2. unfold def_node. rewrite dkind_default. destruct k; [congruence| | |]; destruct x64; reflexivity.
  - apply node_dtype_is.
Qed.
Lemma result_type_is x64 l : (forall a, In a l -> made x64 a) -> l <> [] ->
  result_type x64 l = Ok (dtype_for x64 (join_all (map node_of l))).
Proof. intros H Nn. unfold result_type. rewrite (lattice_type_is x64 l H Nn). destruct l; [congruence|reflexivity]. Qed.

(** ** canonicalize_dtype *)
Lemma is_inexact_iff d : is_inexact d = true <-> inexact_dtype d.
Proof. destruct d as [|w|w| | | | | |]; unfold is_inexact, inexact_dtype; cbn; intuition discriminate. Qed.
Definition inexact_nodeb (n : node) : bool := node_eqb (join NFloat n) n.
Lemma inexact_nodeb_iff n : inexact_nodeb n = true <-> inexact_node n.
Proof. unfold inexact_nodeb, inexact_node. rewrite node_eqb_eq, below_join. reflexivity. Qed.
Lemma inexact_for x64 n : is_inexact (dtype_for x64 n) = inexact_nodeb n.
Proof. destruct x64; revert n; refine (fun n => _); destruct n as [| | |d]; try reflexivity; destruct d as [|w|w| | | | | |]; try destruct w; reflexivity. Qed.
Lemma promote_f32 x64 d : is_inexact d = false -> promote_types x64 TF32 d = TF32.
Proof. intros H. destruct d as [|w|w| | | | | |]; try discriminate; destruct x64; try destruct w; reflexivity. Qed.
Theorem canonicalize_infers x64 args inexact : (forall a, In (Some a) args -> made x64 a) -> given args <> [] ->
  exists d, canonicalize_dtype x64 args None inexact = Ok d /\ inferred x64 inexact (map node_of (given args)) d /\ (inexact = true -> inexact_dtype d).
Proof.
  intros M G. assert (M' : forall a, In a (given args) -> made x64 a).
  { intros a I. apply M. unfold given in I. apply in_flat_map in I. destruct I as ([b|] & I & J). cbn in J; destruct J as [J|J]; [subst; exact I|destruct J]. cbn in J; destruct J. }
  unfold canonicalize_dtype. change (somes args) with (given args). rewrite (result_type_is x64 _ M' G). cbn [rbind].
  set (n := join_all (map node_of (given args))). rewrite inexact_for. destruct inexact; cbn [andb].
  - destruct (inexact_nodeb n) eqn:Q; cbn [negb].
    + rewrite inexact_for, Q. cbn [negb]. eexists. split; [reflexivity|]. split; [|intros _; apply is_inexact_iff; rewrite inexact_for; exact Q].
      exists n. split; [apply join_all_lub|]. left. split; [|reflexivity]. right. apply inexact_nodeb_iff. exact Q.
    + rewrite promote_f32 by (rewrite inexact_for; exact Q). cbn. eexists. split; [reflexivity|]. split; [|intros _; cbn; tauto].
      exists n. split; [apply join_all_lub|]. right. split; [|reflexivity]. split; [reflexivity|]. rewrite <- inexact_nodeb_iff. congruence.
  - eexists. split; [reflexivity|]. split; [|discriminate]. exists n. split; [apply join_all_lub|]. left. auto.
Qed.
Lemma inferred_unique x64 b l d e : inferred x64 b l d -> inferred x64 b l e -> d = e.
Proof.
  intros (n & L & D) (m & L' & E). rewrite (lub_unique l m n L' L) in *. destruct D as [[D ->]|[[D1 D2] ->]], E as [[E ->]|[[E1 E2] ->]]; try reflexivity.
  - destruct D; [congruence|contradiction].
  - destruct E; [congruence|contradiction].
Qed.
Lemma forallb_perm {A} (f : A -> bool) l m : Permutation l m -> forallb f l = forallb f m.
Proof.
  intros P. destruct (forallb f m) eqn:E.
  - rewrite forallb_forall in *. intros x I. apply E. eapply Permutation_in; eauto.
  - destruct (forallb f l) eqn:E'; [|reflexivity]. rewrite <- E. symmetry. rewrite forallb_forall in *. intros x I. apply E'.
    eapply Permutation_in; [apply Permutation_sym; exact P|exact I].
Qed.
Theorem canonicalize_perm x64 args args' dt inexact : Permutation (given args) (given args') ->
  canonicalize_dtype x64 args dt inexact = canonicalize_dtype x64 args' dt inexact.
Proof.
  intros P. unfold canonicalize_dtype. change (somes args) with (given args). change (somes args') with (given args').
  replace (result_type x64 (given args)) with (result_type x64 (given args')); [reflexivity|].
  destruct (given args) as [|a l] eqn:E, (given args') as [|a' l'] eqn:E'; [reflexivity|apply Permutation_nil in P; discriminate|apply Permutation_sym, Permutation_nil in P; discriminate|].
  unfold result_type, lattice_type. rewrite (forallb_perm _ _ _ P), (join_all_perm _ _ (Permutation_map (fun a => N (a_dt a)) P)), (join_all_perm _ _ (Permutation_map node_of P)). reflexivity.
Qed.
Theorem promote_all x64 args dt inexact :
  promote_dtype x64 args dt inexact =
  rmap (fun d => map (option_map (fun _ => mkAty (canon x64 d) false)) args) (canonicalize_dtype x64 args dt inexact).
Proof. unfold promote_dtype. destruct (canonicalize_dtype _ _ _ _); reflexivity. Qed.

(** ** Layers *)
Lemma canon_idem x64 d : canon x64 (canon x64 d) = canon x64 d.
Proof. destruct x64; [reflexivity|]. destruct d as [|w|w| | | | | |]; try destruct w; reflexivity. Qed.
Lemma join_all_two a b : join_all [a; b] = join a b.
Proof. rewrite !join_all_cons. change (join_all []) with (N TBool). rewrite (join_comm b), join_bool. reflexivity. Qed.
Lemma binop_same x64 d : binop x64 (mkAty (canon x64 d) false) (mkAty (canon x64 d) false) = mkAty (canon x64 d) false.
Proof.
  unfold binop, lattice_type. change (forallb a_weak [mkAty (canon x64 d) false; mkAty (canon x64 d) false]) with false.
  change (map node_of [mkAty (canon x64 d) false; mkAty (canon x64 d) false]) with [N (canon x64 d); N (canon x64 d)].
  rewrite join_all_two, join_idem. cbn [node_dtype]. rewrite canon_idem. reflexivity.
Qed.
Theorem affine_is x64 x kernel bias dt :
  affine_type x64 x kernel bias dt = rmap (fun d => mkAty (canon x64 d) false) (canonicalize_dtype x64 [Some x; Some kernel; bias] dt true).
Proof.
  unfold affine_type. rewrite promote_all. destruct (canonicalize_dtype _ _ _ _) as [d|e]; [|reflexivity]. cbn [rmap rbind map option_map].
  destruct bias as [b|]; cbn [rmap rbind map option_map]; [|reflexivity]. rewrite binop_same. reflexivity.
Qed.
Theorem norm_is x64 x scale bias dt :
  norm_type x64 x scale bias dt = rmap (fun d => mkAty (canon x64 d) false) (canonicalize_dtype x64 [Some x; scale; bias] dt true).
Proof. unfold norm_type. destruct (canonicalize_dtype _ _ _ _); reflexivity. Qed.
Lemma int_dtype_iff d : dkind d = KInt <-> exists w, d = TU w \/ d = TI w.
Proof. split; [destruct d; try discriminate; eauto|intros (w & [-> | ->]); reflexivity]. Qed.
Theorem embed_is x64 x e dt :
  ((exists w, a_dt x = TU w \/ a_dt x = TI w) -> embed_type x64 x e dt = Ok (mkAty (canon x64 (match dt with Some d => d | None => a_dt e end)) false)) /\
  ((forall w, a_dt x <> TU w /\ a_dt x <> TI w) -> embed_type x64 x e dt = Err ValueError).
Proof.
  split.
  - intros H. apply int_dtype_iff in H. unfold embed_type. rewrite H. reflexivity.
  - intros H. unfold embed_type. destruct (dkind (a_dt x)) eqn:K; try reflexivity. apply int_dtype_iff in K. destruct K as (w & [K|K]); destruct (H w); contradiction.
Qed.
Theorem attend_is x64 q e dt : let d := match dt with Some d => d | None => a_dt e end in
  (inexact_dtype d -> attend_type x64 q e dt = Ok (mkAty (canon x64 d) false)) /\
  (~ inexact_dtype d -> attend_type x64 q e dt = Err ValueError).
Proof.
  intros d. unfold attend_type. rewrite promote_all. unfold canonicalize_dtype, embed_dtype. fold d. cbn [rbind andb].
  rewrite <- is_inexact_iff. destruct (is_inexact d) eqn:I; cbn [negb rmap rbind map option_map]; split; intros H; try congruence; try reflexivity.
  rewrite binop_same. reflexivity.
Qed.

(** the running statistics *)
Definition strong (a : aty) : Prop := a_weak a = false.
Lemma made_canon x64 d : canon x64 d = d -> made x64 (mkAty d false).
Proof. intros H. split; [exact H|discriminate]. Qed.
Definition fl (d : dtype) : Prop := is_inexact d = true /\ below (N TF32) (N d).
Lemma average_is x64 d e : fl d -> fl e -> canon x64 d = d -> canon x64 e = e ->
  exists f, average_type x64 (mkAty d false) (mkAty e false) = mkAty f false /\ fl f /\ canon x64 f = f /\ least_above [N d; N e] (N f).
Proof.
  intros (D1 & D2) (E1 & E2) C1 C2. unfold fl. rewrite below_join in D2, E2.
  assert (X : exists f, average_type x64 (mkAty d false) (mkAty e false) = mkAty f false /\ is_inexact f = true /\ join (N TF32) (N f) = N f /\ canon x64 f = f /\ join (N d) (N e) = N f).
  { destruct d as [|v|v| | | | | |]; try discriminate D1; try discriminate D2; destruct e as [|w|w| | | | | |]; try discriminate E1; try discriminate E2;
      destruct x64; try discriminate C1; try discriminate C2; eexists; repeat split; reflexivity. }
  destruct X as (f & A & F1 & F2 & F3 & J). exists f. split; [exact A|]. split; [split; [exact F1|apply below_join; exact F2]|]. split; [exact F3|].
  rewrite <- J. pose proof (join_all_lub [N d; N e]) as L. rewrite join_all_two in L. exact L.
Qed.
Definition stats_dtype (x64 : bool) (x : aty) (dt : option dtype) : dtype := a_dt (fst (stats_type x64 x dt)).
Lemma stats_fl x64 x dt : fl (stats_dtype x64 x dt) /\ fl (real_of (stats_dtype x64 x dt)) /\
  canon x64 (stats_dtype x64 x dt) = stats_dtype x64 x dt /\ canon x64 (real_of (stats_dtype x64 x dt)) = real_of (stats_dtype x64 x dt) /\
  stats_type x64 x dt = (mkAty (stats_dtype x64 x dt) false, mkAty (real_of (stats_dtype x64 x dt)) false).
Proof.
  unfold stats_dtype, stats_type. cbn [fst a_dt].
  set (d := match dt with Some d => d | None => a_dt (lattice_type x64 [x]) end). generalize d. clear. intros d.
  set (e := canon x64 (promote_types x64 d TF32)).
  assert (X : is_inexact e = true /\ join (N TF32) (N e) = N e /\ is_inexact (real_of e) = true /\ join (N TF32) (N (real_of e)) = N (real_of e) /\ canon x64 (real_of e) = real_of e).
  { subst e. destruct d as [|v|v| | | | | |]; destruct x64; try destruct v; repeat split; reflexivity. }
  destruct X as (A & B & C & D & E). unfold fl. rewrite !below_join. repeat split; try assumption. subst e. apply canon_idem.
Qed.
Lemma lattice_one x64 x : made x64 x -> a_dt (lattice_type x64 [x]) = a_dt x.
Proof.
  intros M. rewrite lattice_type_is; [|intros a [<-|[]]; exact M|discriminate]. cbn [map]. rewrite join_all_cons. change (join_all []) with (N TBool). rewrite join_comm, join_bool.
  destruct M as (C & W). unfold node_of. destruct (a_weak x) eqn:Q; [|exact C].
  destruct (W eq_refl) as (k & K & E). rewrite E. unfold weak_node. rewrite dkind_default. destruct k; [congruence| | |]; destruct x64; reflexivity.
Qed.
Lemma stats_batch x64 dt x : made x64 x -> batch_type x64 dt x (stats_dtype x64 x dt).
Proof.
  intros M. unfold stats_dtype, stats_type, batch_type. cbn [fst a_dt]. rewrite (lattice_one x64 x M).
  set (d := match dt with Some d => d | None => a_dt x end). generalize d. clear. intros d.
  assert (X : exists n, join (N d) (N TF32) = N n) by (destruct d as [|v|v| | | | | |]; try destruct v; eexists; reflexivity).
  destruct X as (n & E). exists n. split.
  - rewrite <- E. rewrite <- join_all_two. apply join_all_lub.
  - unfold promote_types. rewrite E. cbn [node_dtype a_dt]. apply canon_idem.
Qed.
Lemma least_snoc l n m p : least_above l n -> least_above [n; m] p -> least_above (l ++ [m]) p.
Proof.
  intros [U L] [V W]. split.
  - intros a I. apply in_app_iff in I. destruct I as [I|[<-|[]]]; [|apply V; cbn; tauto]. eapply rt_trans; [apply U; exact I|apply V; cbn; tauto].
  - intros q H. apply W. intros a [<-|[<-|[]]]; [apply L; intros b I; apply H; apply in_app_iff; tauto|apply H; apply in_app_iff; cbn; tauto].
Qed.
Lemma after_snoc x64 sc bi dt h c : after x64 sc bi dt (h ++ [c]) = fst (bn_call_type x64 (fst c) (after x64 sc bi dt h) (snd c) sc bi dt).
Proof. unfold after. rewrite fold_left_app. reflexivity. Qed.
Lemma magnitude_is d : real_of d = magnitude d.
Proof. reflexivity. Qed.
Theorem statistics x64 sc bi dt h : (forall c, In c h -> made x64 (snd c)) ->
  exists ds m v, Forall2 (batch_type x64 dt) (trained h) ds /\ after x64 sc bi dt h = mkBn (mkAty m false) (mkAty v false) /\
    least_above (N TF32 :: map N ds) (N m) /\ least_above (N TF32 :: map (fun d => N (magnitude d)) ds) (N v).
Proof.
  intros M. enough (X : exists ds m v, Forall2 (batch_type x64 dt) (trained h) ds /\ after x64 sc bi dt h = mkBn (mkAty m false) (mkAty v false) /\
    least_above (N TF32 :: map N ds) (N m) /\ least_above (N TF32 :: map (fun d => N (magnitude d)) ds) (N v) /\ fl m /\ fl v /\ canon x64 m = m /\ canon x64 v = v).
  { destruct X as (ds & m & v & A & B & C & D & _). exists ds, m, v. auto. }
  induction h as [|c h IH] using rev_ind.
  - exists [], TF32, TF32. split; [constructor|]. split; [reflexivity|].
    assert (L : least_above [N TF32] (N TF32)) by (split; [intros a [<-|[]]; apply rt_refl|intros q H; apply H; left; reflexivity]).
    split; [exact L|]. split; [exact L|]. unfold fl. rewrite below_join. destruct x64; repeat split.
  - destruct IH as (ds & m & v & F & A & LM & LV & Fm & Fv & Cm & Cv); [intros x I; apply M; apply in_app_iff; tauto|].
    rewrite after_snoc, A. destruct c as [tr x]. unfold trained in *. rewrite flat_map_app. cbn [flat_map fst snd]. unfold bn_call_type. destruct tr; cbn [fst].
    + destruct (stats_fl x64 x dt) as (S1 & S2 & S3 & S4 & S5). rewrite S5. set (d := stats_dtype x64 x dt) in *. cbn [bn_mean bn_var].
      destruct (average_is x64 m d Fm S1 Cm S3) as (m' & E1 & F1 & C1 & L1). destruct (average_is x64 v (real_of d) Fv S2 Cv S4) as (v' & E2 & F2 & C2 & L2).
      exists (ds ++ [d]), m', v'. rewrite E1, E2. cbn [app]. split; [apply Forall2_app; [exact F|]; constructor; [|constructor]; apply stats_batch; apply (M (true, x)); apply in_app_iff; cbn; tauto|].
      split; [reflexivity|]. rewrite !map_app. cbn [map]. rewrite !app_comm_cons. split; [eapply least_snoc; eauto|]. split; [eapply least_snoc; eauto|]. auto.
    + exists ds, m, v. cbn [app]. rewrite app_nil_r. auto 10.
Qed.
Lemma below_f32 d n : least_above [N d; N TF32] (N n) -> (below (N d) (N TF32) <-> n = TF32).
Proof.
  intros [U L]. split.
  - intros B. assert (E : N n = N TF32) by (apply below_anti; [apply L; intros a [<-|[<-|[]]]; [exact B|apply rt_refl]|apply U; cbn; tauto]). congruence.
  - intros ->. apply U. left. reflexivity.
Qed.
Theorem statistics_float32 x64 sc bi h : (forall c, In c h -> made x64 (snd c)) ->
  let s := after x64 sc bi None h in
  bn_mean s = mkAty TF32 false <-> (forall x, In x (trained h) -> below (N (a_dt x)) (N TF32)).
Proof.
  intros M s. destruct (statistics x64 sc bi None h M) as (ds & m & v & F & A & [U L] & _). subst s. rewrite A. cbn [bn_mean].
  assert (MT : forall x, In x (trained h) -> made x64 x).
  { intros x I. unfold trained in I. apply in_flat_map in I. destruct I as ([t y] & I & J). cbn [fst snd] in J. destruct t; [destruct J as [<-|[]]; exact (M _ I)|destruct J]. }
  assert (K : forall x d, In x (trained h) -> batch_type x64 None x d -> (below (N d) (N TF32) <-> below (N (a_dt x)) (N TF32))).
  { intros x d I (n & LN & ->). pose proof (below_f32 (a_dt x) n LN) as Q. rewrite Q. destruct (MT x I) as (C & _).
    destruct LN as [LU LL].
    assert (CN : canon x64 n = n).
    { destruct x64; [reflexivity|]. assert (E : N n = join (N (a_dt x)) (N TF32)).
      { apply (lub_unique [N (a_dt x); N TF32]); [split; assumption|]. rewrite <- join_all_two. apply join_all_lub. }
      clear - E C. destruct (a_dt x) as [|w|w| | | | | |]; try destruct w; try discriminate C; cbn in E; injection E as ->; reflexivity. }
    rewrite CN. split; [|intros ->; apply rt_refl]. intros B. assert (X : N n = N TF32) by (apply below_anti; [exact B|apply LU; cbn; tauto]). congruence. }
  split.
  - intros E x I. injection E as ->. clear L A. induction F as [|y d l ds B F IH]; [destruct I|]. destruct I as [->|I].
    + apply (K x d (or_introl eq_refl) B). apply U. right. left. reflexivity.
    + apply IH; [intros z J; apply U; destruct J as [<-|J]; [left; reflexivity|right; right; exact J]|intros z J; apply MT; right; exact J|intros z e J; apply K; right; exact J|exact I].
  - intros H. f_equal. assert (E : N m = N TF32); [|congruence]. apply below_anti; [|apply U; left; reflexivity]. apply L. intros a [<-|I]; [apply rt_refl|].
    clear U L A. induction F as [|y d l ds B F IH]; [destruct I|]. destruct I as [<-|I].
    + apply (K y d (or_introl eq_refl) B). apply H. left. reflexivity.
    + apply IH; [intros z J; apply MT; right; exact J|intros z e J; apply K; right; exact J|intros z J; apply H; right; exact J|exact I].
Qed.

Theorem dropout_is x64 off all x : made x64 x ->
  (off = true \/ all = true \/ inexact_dtype (a_dt x) -> exists y, dropout_type x64 off all x = Ok y /\ a_dt y = a_dt x) /\
  (off = false -> all = false -> ~ inexact_dtype (a_dt x) -> dropout_type x64 off all x = Err TypeError).
Proof.
  intros M. unfold dropout_type. destruct off; [split; [intros _; exists x; auto|discriminate]|]. destruct all; [split; [intros _; exists x; auto|discriminate]|].
  assert (Q : a_dt (binop x64 x (py_float x64)) = dtype_for x64 (join (node_of x) NFloat)).
  { unfold binop. rewrite lattice_type_is; [|intros a [<-|[<-|[]]]; [exact M|]|discriminate].
    - cbn [map]. rewrite join_all_two. f_equal. f_equal. destruct x64; reflexivity.
    - split; [destruct x64; reflexivity|]. intros _. exists KFloat. split; [discriminate|reflexivity]. }
  rewrite <- is_inexact_iff. destruct (is_inexact (a_dt x)) eqn:I.
  - assert (E : a_dt (binop x64 x (py_float x64)) = a_dt x).
    { rewrite Q. destruct M as (C & W). unfold node_of. destruct (a_weak x) eqn:Wk.
      - destruct (W eq_refl) as (k & K & E). rewrite E in *. unfold weak_node. rewrite dkind_default. destruct k; [congruence| | |]; destruct x64; try discriminate I; reflexivity.
      - destruct (a_dt x) as [|w|w| | | | | |]; try discriminate I; destruct x64; try discriminate C; reflexivity. }
    rewrite (proj2 (dtype_eqb_eq _ _) E). split; [intros _; eexists; split; [reflexivity|exact E]|congruence].
  - split; [intros [H|[H|H]]; discriminate|]. intros _ _ _. destruct (dtype_eqb _ _) eqn:E; [|reflexivity]. exfalso. apply dtype_eqb_eq in E. rewrite Q in E.
    destruct M as (C & W). unfold node_of in E. destruct (a_weak x) eqn:Wk.
    + destruct (W eq_refl) as (k & K & E'). rewrite E' in *. unfold weak_node in E. rewrite dkind_default in E. destruct k; [congruence| | |]; destruct x64; discriminate.
    + destruct (a_dt x) as [|w|w| | | | | |]; try discriminate I; destruct x64; try destruct w; discriminate E.
Qed.
