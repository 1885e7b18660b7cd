(** Proofs about ScanTreeM. *)
From Coq Require Import ZArith Lia.
From Verif Require Import PyBase ValuesM Spec_Eq FiltersM StateM ModuleM ContextM TransformM ScanM ScanTreeM Spec_Module Spec_Prog Spec_Scan Spec_ScanTree
  Scan_proofs.
Local Open Scope string_scope.
Local Open Scope nat_scope.
Local Open Scope list_scope.

Section TreeInd.
Context {A : Type} (P : tree A -> Prop) (Hl : forall a, P (TLeaf a)) (Hn : P TNone) (Hc : forall k l, Forall P l -> P (TNode k l)).
Fixpoint tree_ind2 (t : tree A) : P t :=
  match t with
  | TLeaf a => Hl a
  | TNone => Hn
  | TNode k l => Hc k l ((fix go l := match l return Forall P l with [] => Forall_nil _ | x :: r => Forall_cons _ (tree_ind2 x) (go r) end) l)
  end.
End TreeInd.
Scheme fits_mut := Minimality for fits Sort Prop with fits_all_mut := Minimality for fits_all Sort Prop.

Lemma kind_eqb_refl k : kind_eqb k k = true.
Proof. destruct k; cbn; auto. destruct (list_eq_dec string_dec ks ks); congruence. Qed.
Lemma kind_eqb_eq a b : kind_eqb a b = true -> a = b.
Proof. destruct a, b; cbn; try discriminate; auto. destruct (list_eq_dec string_dec ks ks0); [intros _; now subst|discriminate]. Qed.

(** ** shapes and paths *)
Lemma shape_sym {A B} (t : tree A) : forall u : tree B, same_shape t u -> same_shape u t.
Proof.
  induction t as [a| |k l IH] using tree_ind2; intros u H; inversion H as [| |k' l1 l2 F]; subst; try constructor.
  clear H. revert l2 F. induction IH as [|x l Hx IH' IHl]; intros l2 F; inversion F; subst; constructor; auto.
Qed.
Lemma shape_trans {A B C} (t : tree A) : forall (u : tree B) (v : tree C), same_shape t u -> same_shape u v -> same_shape t v.
Proof.
  induction t as [a| |k l IH] using tree_ind2; intros u v H1 H2; inversion H1 as [| |k' l1 l2 F]; subst; inversion H2 as [| |k' l1 l3 F2]; subst; try constructor.
  clear H1 H2. revert l2 l3 F F2. induction IH as [|x l Hx IH' IHl]; intros l2 l3 F F2; inversion F; subst; inversion F2; subst; constructor; eauto.
Qed.
Lemma shape_map {A B} (f : A -> B) t : same_shape t (tmap f t).
Proof. induction t as [a| |k l IH] using tree_ind2; cbn; constructor. induction IH; cbn; constructor; auto. Qed.
Lemma path_map {A B} (f : A -> B) p : forall t, at_path (tmap f t) p = option_map (tmap f) (at_path t p).
Proof.
  induction p as [|i p IH]; intros t; [reflexivity|]. cbn. destruct t as [a| |k l]; cbn; auto. rewrite nth_error_map. destruct (nth_error l i); cbn; auto.
Qed.
Lemma Forall2_nth_l {A B} (R : A -> B -> Prop) l l' i x : Forall2 R l l' -> nth_error l i = Some x -> exists y, nth_error l' i = Some y /\ R x y.
Proof. intros F. revert i. induction F; intros [|i] E; try discriminate; cbn in *; eauto. injection E as <-. eauto. Qed.
Lemma shape_path {A B} p : forall (t : tree A) (u : tree B) x, same_shape t u -> at_path t p = Some x -> exists y, at_path u p = Some y /\ same_shape x y.
Proof.
  induction p as [|i p IH]; intros t u x H E; cbn in *; [injection E as <-; eauto|].
  inversion H as [| |k l l' F]; subst; try discriminate. destruct (nth_error l i) as [t'|] eqn:N; [|discriminate].
  destruct (Forall2_nth_l _ _ _ _ _ F N) as (y & -> & S). eauto.
Qed.
Lemma shape_leaf {A B} p (t : tree A) (u : tree B) x : same_shape t u -> at_path t p = Some (TLeaf x) -> exists y, at_path u p = Some (TLeaf y).
Proof. intros H E. destruct (shape_path _ _ _ _ H E) as (y & E' & S). inversion S; subst. eauto. Qed.
Lemma tree_ext {A} (t : tree A) : forall u, same_shape t u -> (forall p v, at_path t p = Some (TLeaf v) -> at_path u p = Some (TLeaf v)) -> t = u.
Proof.
  induction t as [a| |k l IH] using tree_ind2; intros u H E; inversion H as [| |k' l1 l2 F]; subst; auto.
  - specialize (E [] a eq_refl). cbn in E. congruence.
  - f_equal. clear H. assert (E' : forall i t p v, nth_error l i = Some t -> at_path t p = Some (TLeaf v) -> exists u, nth_error l2 i = Some u /\ at_path u p = Some (TLeaf v)).
    { intros i t p v N P. specialize (E (i :: p) v). cbn in E. rewrite N in E. specialize (E P). destruct (nth_error l2 i); [eauto|discriminate]. }
    clear E. revert l2 F E'. induction IH as [|x l Hx IH' IHl]; intros l2 F E'; inversion F as [|? y ? l3 Sx F2]; subst; auto. f_equal.
    + apply Hx; [exact Sx|]. intros p v P. destruct (E' 0 x p v eq_refl P) as (u & N & Q). cbn in N. congruence.
    + apply IHl; [exact F2|]. intros i t p v N P. apply (E' (S i) t p v N P).
Qed.
Lemma leaves_path {A} (t : tree A) : forall a, In a (tleaves t) <-> exists p, at_path t p = Some (TLeaf a).
Proof.
  induction t as [b| |k l IH] using tree_ind2; intros a; cbn [tleaves].
  - split; [intros [<-|[]]; now exists []|]. intros ([|i p] & E); [injection E as ->; now left|discriminate].
  - split; [intros []|]. intros ([|i p] & E); discriminate.
  - rewrite in_flat_map. rewrite Forall_forall in IH. split.
    + intros (x & I & Ha). apply (IH x I) in Ha as [p E]. apply In_nth_error in I as [i N]. exists (i :: p). cbn. now rewrite N.
    + intros ([|i p] & E); [discriminate|]. cbn in E. destruct (nth_error l i) as [x|] eqn:N; [|discriminate]. apply nth_error_In in N. exists x. split; [exact N|]. apply IH; eauto.
Qed.

(** ** axes *)
Lemma axis_leaf ax p ax' : axis_for (TLeaf ax) p ax' <-> ax' = ax.
Proof. split; [intros (q & p' & -> & E); destruct q; cbn in E; congruence|]. intros ->. now exists [], p. Qed.
Lemma axis_none p ax : ~ axis_for TNone p ax.
Proof. intros (q & p' & _ & E). destruct q; discriminate. Qed.
Lemma axis_node k axs i p ax : axis_for (TNode k axs) (i :: p) ax <-> exists x, nth_error axs i = Some x /\ axis_for x p ax.
Proof.
  split.
  - intros (q & p' & E & P). destruct q as [|j q]; [discriminate|]. cbn in E. injection E as <- ->. cbn in P. destruct (nth_error axs i) as [x|]; [|discriminate].
    exists x. split; [reflexivity|]. now exists q, p'.
  - intros (x & N & q & p' & -> & P). exists (i :: q), p'. split; [reflexivity|]. cbn. now rewrite N.
Qed.
Lemma axis_unique p : forall axes a b, axis_for axes p a -> axis_for axes p b -> a = b.
Proof.
  induction p as [|i p IH]; intros axes a b Ha Hb.
  - destruct Ha as (q & p' & E & P), Hb as (q2 & p2 & E2 & P2). symmetry in E, E2. apply app_eq_nil in E as [-> _]. apply app_eq_nil in E2 as [-> _]. cbn in *. congruence.
  - destruct axes as [ax| |k axs]; [apply axis_leaf in Ha, Hb; congruence|now apply axis_none in Ha|]. apply axis_node in Ha as (x & N & Ha), Hb as (y & N2 & Hb). assert (x = y) by congruence. subst y. eauto.
Qed.

(** ** prefixes *)
Lemma fits_all_nth {A B} np (axs : list (tree A)) (l l' : list (tree B)) : fits_all np axs l l' -> forall i,
  (nth_error axs i = None /\ nth_error l i = None /\ nth_error l' i = None) \/
  exists ax t t', nth_error axs i = Some ax /\ nth_error l i = Some t /\ nth_error l' i = Some t' /\ fits np ax t t'.
Proof.
  intros H. induction H as [|ax axs t l t' l' F H IH]; intros [|i]; cbn; [left; auto|left; auto| |apply IH]. right. exists ax, t, t'. auto.
Qed.
Lemma fits_path {A B} np p : forall (axes : tree A) (t t' : tree B) v, fits np axes t t' -> at_path t' p = Some (TLeaf v) -> at_path t p = Some (TLeaf v).
Proof.
  induction p as [|i p IH]; intros axes t t' v H E; inversion H as [|t0 Hn|k axs l l' F]; subst; auto; cbn in E; try discriminate.
  cbn. destruct (fits_all_nth _ _ _ _ F i) as [(_ & _ & N)|(ax & x & x' & _ & -> & N & Fx)]; rewrite N in E; [discriminate|eauto].
Qed.
Lemma fits_axis {B} np p : forall axes (t t' : tree B) v, fits np axes t t' -> at_path t' p = Some (TLeaf v) -> exists ax, axis_for axes p ax.
Proof.
  induction p as [|i p IH]; intros axes t t' v H E; inversion H as [ax|t0 Hn|k axs l l' F]; subst; try (exists ax; now apply axis_leaf); cbn in E; try discriminate.
  destruct (fits_all_nth _ _ _ _ F i) as [(_ & _ & N)|(ax & x & x' & Na & _ & N & Fx)]; rewrite N in E; [discriminate|].
  destruct (IH _ _ _ _ Fx E) as [z Hz]. exists z. apply axis_node. eauto.
Qed.
Lemma fits_shape {A B C} np (axes : tree A) (t t' : tree B) : fits np axes t t' -> forall u : tree C, same_shape t u -> exists u', fits np axes u u' /\ same_shape t' u'.
Proof.
  intros H. induction H as [ax t|t Hn|k axs l l' F IH| |ax axs t l t' l' F IH G IHl] using fits_mut
    with (P0 := fun axs l l' => forall us, Forall2 same_shape l us -> exists us', fits_all np axs us us' /\ Forall2 same_shape l' us').
  - intros u S. exists u. split; [constructor|exact S].
  - intros u S. exists TNone. split; [|constructor]. constructor. destruct Hn as [Hn | ->]; [now left|]. right. now inversion S.
  - intros u S. inversion S as [| |k0 l0 us F2]; subst. destruct (IH us F2) as (us' & G1 & G2). exists (TNode k us'). split; constructor; assumption.
  - intros us F2. inversion F2; subst. exists []. split; constructor.
  - intros us F2. inversion F2 as [|? u ? us2 S F3]; subst. destruct (IH u S) as (u' & A1 & A2). destruct (IHl us2 F3) as (us' & B1 & B2). exists (u' :: us'). split; constructor; assumption.
Qed.

(** ** [tree_map_upto_left] *)
Fixpoint flat_list {A B} np (ls : list (tree A)) (rs : list (tree B)) : result (list (tree (A * tree B))) :=
  match ls, rs with
  | [], [] => Ok []
  | x :: ls', y :: rs' => do t <- flatten_up_to np x y; do ts <- flat_list np ls' rs'; Ok (t :: ts)
  | _, _ => Err ValueError
  end.
Lemma flat_node {A B} np k (ls : list (tree A)) k' (rs : list (tree B)) :
  flatten_up_to np (TNode k ls) (TNode k' rs) = if kind_eqb k k' then do l <- flat_list np ls rs; Ok (TNode k l) else Err ValueError.
Proof.
  cbn [flatten_up_to]. destruct (kind_eqb k k'); [|reflexivity]. f_equal. revert rs. induction ls as [|x ls IH]; intros [|y rs]; cbn; try reflexivity. destruct (flatten_up_to np x y); cbn; [|reflexivity]. now rewrite IH.
Qed.
Lemma mapM_node {A B} (f : A -> result B) k l : tmapM f (TNode k l) = do l' <- rmapM (tmapM f) l; Ok (TNode k l').
Proof. cbn [tmapM]. f_equal. induction l as [|x l IH]; cbn; [reflexivity|]. destruct (tmapM f x); cbn; [|reflexivity]. now rewrite IH. Qed.
Lemma mapM_ok {A B} (f : A -> B) t : tmapM (fun a => Ok (f a)) t = Ok (tmap f t).
Proof. induction t as [a| |k l IH] using tree_ind2; [reflexivity..|]. rewrite mapM_node. cbn [tmap]. induction IH as [|x l Hx IH' IHl]; [reflexivity|]. cbn [rmapM map]. rewrite Hx. cbn [rbind]. destruct (rmapM _ l); cbn in *; [congruence|discriminate]. Qed.
Lemma mapM_ext {A B} (f g : A -> result B) t : (forall a, f a = g a) -> tmapM f t = tmapM g t.
Proof.
  intros H. induction t as [a| |k l IH] using tree_ind2; [cbn; now rewrite H|reflexivity|]. rewrite !mapM_node. f_equal. induction IH as [|x l Hx IH' IHl]; [reflexivity|]. cbn. rewrite Hx, IHl. reflexivity.
Qed.
Lemma mapM_all {A B} (f : A -> result B) t : (forall p v, at_path t p = Some (TLeaf v) -> exists b, f v = Ok b) ->
  exists u, tmapM f t = Ok u /\ same_shape t u /\ forall p v, at_path t p = Some (TLeaf v) -> exists b, f v = Ok b /\ at_path u p = Some (TLeaf b).
Proof.
  induction t as [a| |k l IH] using tree_ind2; intros H.
  - destruct (H [] a eq_refl) as [b E]. exists (TLeaf b). cbn. rewrite E. split; [reflexivity|]. split; [constructor|]. intros [|i p] v P; [injection P as <-; eauto|discriminate].
  - exists TNone. split; [reflexivity|]. split; [constructor|]. intros [|i p] v P; discriminate.
  - assert (G : exists us, rmapM (tmapM f) l = Ok us /\ Forall2 same_shape l us /\
      forall i t p v, nth_error l i = Some t -> at_path t p = Some (TLeaf v) -> exists u b, nth_error us i = Some u /\ f v = Ok b /\ at_path u p = Some (TLeaf b)).
    { assert (H' : forall i t p v, nth_error l i = Some t -> at_path t p = Some (TLeaf v) -> exists b, f v = Ok b) by (intros i t p v N P; apply (H (i :: p)); cbn; now rewrite N). clear H.
      induction IH as [|x l Hx IH' IHl]; [exists []; split; [reflexivity|]; split; [constructor|]; intros [|i] t p v N; discriminate|].
      destruct Hx as (u & E & Sh & Q). { intros p v P. apply (H' 0 x p v eq_refl P). }
      destruct IHl as (us & E2 & Sh2 & Q2). { intros i t p v N P. apply (H' (S i) t p v N P). }
      exists (u :: us). cbn. rewrite E. cbn. rewrite E2. split; [reflexivity|]. split; [constructor; assumption|].
      intros [|i] t p v N P; cbn in N; [injection N as <-; destruct (Q p v P) as (b & ? & ?); exists u, b; auto|eauto]. }
    destruct G as (us & E & S & Q). exists (TNode k us). rewrite mapM_node, E. split; [reflexivity|]. split; [now constructor|].
    intros [|i p] v P; [discriminate|]. cbn in P. destruct (nth_error l i) as [t|] eqn:N; [|discriminate]. destruct (Q i t p v N P) as (u & b & N2 & F & P2). exists b. split; [exact F|]. cbn. now rewrite N2.
Qed.

Section Upto.
Context {B C : Type} (np : bool) (h : Z -> B -> result C).
Definition upto (axes : tree Z) (t : tree B) := tree_map_upto_left np (fun ax node => tmapM (h ax) node) axes t.
Lemma upto_ok axes t t' : fits np axes t t' -> (forall p v ax, at_path t' p = Some (TLeaf v) -> axis_for axes p ax -> exists b, h ax v = Ok b) ->
  exists u, upto axes t = Ok u /\ same_shape t' u /\
    forall p v, at_path t' p = Some (TLeaf v) -> exists ax b, axis_for axes p ax /\ h ax v = Ok b /\ at_path u p = Some (TLeaf b).
Proof.
  set (g := fun ab : Z * tree B => tmapM (h (fst ab)) (snd ab)).
  intros H0. cut ((forall p v ax, at_path t' p = Some (TLeaf v) -> axis_for axes p ax -> exists b, h ax v = Ok b) ->
    exists ft w, flatten_up_to np axes t = Ok ft /\ tmapM g ft = Ok w /\ same_shape t' (tjoin w) /\
    forall p v, at_path t' p = Some (TLeaf v) -> exists ax b, axis_for axes p ax /\ h ax v = Ok b /\ at_path (tjoin w) p = Some (TLeaf b)).
  { intros G H. destruct (G H) as (ft & w & E1 & E2 & E3 & E4). exists (tjoin w). split; [|auto]. unfold upto, tree_map_upto_left. rewrite E1. cbn [rbind]. fold g. now rewrite E2. }
  induction H0 as [ax t|t Hn|k axs l l' F IH| |ax axs t l t' l' F IH G IHl] using fits_mut
    with (P0 := fun axs l l' => (forall i t' p v ax x, nth_error l' i = Some t' -> nth_error axs i = Some x -> at_path t' p = Some (TLeaf v) -> axis_for x p ax -> exists b, h ax v = Ok b) ->
      exists fts ws, flat_list np axs l = Ok fts /\ rmapM (tmapM g) fts = Ok ws /\ Forall2 same_shape l' (map tjoin ws) /\
      forall i t' p v, nth_error l' i = Some t' -> at_path t' p = Some (TLeaf v) -> exists x ax b w, nth_error axs i = Some x /\ axis_for x p ax /\ h ax v = Ok b /\ nth_error ws i = Some w /\ at_path (tjoin w) p = Some (TLeaf b)).
  - intros H. destruct (mapM_all (h ax) t) as (u & E & Sh & Q). { intros p v P. apply (H p v ax P). now apply axis_leaf. }
    exists (TLeaf (ax, t)), (TLeaf u). split; [reflexivity|]. split; [cbn; unfold g; cbn; now rewrite E|]. split; [exact Sh|].
    intros p v P. destruct (Q p v P) as (b & ? & ?). exists ax, b. split; [now apply axis_leaf|auto].
  - intros _. exists TNone, TNone. split; [|split; [reflexivity|split; [constructor|intros [|i p] v P; discriminate]]].
    cbn. destruct np; [reflexivity|]. destruct Hn as [Hn | ->]; [discriminate|reflexivity].
  - intros H. destruct IH as (fts & ws & E1 & E2 & S & Q).
    { intros i t' p v ax x N N2 P X. apply (H (i :: p) v ax); [cbn; now rewrite N|]. apply axis_node. eauto. }
    exists (TNode k fts), (TNode k ws). rewrite flat_node, kind_eqb_refl, E1. split; [reflexivity|]. rewrite mapM_node, E2. split; [reflexivity|]. split; [now constructor|].
    intros [|i p] v P; [discriminate|]. cbn in P. destruct (nth_error l' i) as [t'|] eqn:N; [|discriminate]. destruct (Q i t' p v N P) as (x & ax & b & w & N1 & X & Hh & N2 & P2).
    exists ax, b. split; [apply axis_node; eauto|]. split; [exact Hh|]. cbn. rewrite nth_error_map, N2. exact P2.
  - intros _. exists [], []. split; [reflexivity|]. split; [reflexivity|]. split; [constructor|]. intros [|i] t' p v N; discriminate.
  - intros H. destruct IH as (ft & w & A1 & A2 & A3 & A4). { intros p v a P X. apply (H 0 t' p v a ax eq_refl eq_refl P X). }
    destruct IHl as (fts & ws & B1 & B2 & B3 & B4). { intros i u p v a x N N2 P X. apply (H (S i) u p v a x N N2 P X). }
    exists (ft :: fts), (w :: ws). cbn. rewrite A1. cbn. rewrite B1. split; [reflexivity|]. rewrite A2. cbn. rewrite B2. split; [reflexivity|]. split; [constructor; assumption|].
    intros [|i] u p v N P; cbn in N; [injection N as <-; destruct (A4 p v P) as (a & b & ? & ? & ?); exists ax, a, b, w; auto|]. apply (B4 i u p v N P).
Qed.
End Upto.

(** every tree fits or flattening raises *)
Lemma flat_err {A B} np (axes : tree A) : forall (t : tree B) e, flatten_up_to np axes t = Err e -> e = ValueError.
Proof.
  induction axes as [a| |k axs IH] using tree_ind2; intros t e E.
  - discriminate.
  - cbn in E. destruct np; [discriminate|]. destruct t; congruence.
  - destruct t as [b| |k' l]; [cbn in E; congruence..|]. rewrite flat_node in E. destruct (kind_eqb k k'); [|congruence].
    destruct (flat_list np axs l) as [fl|e'] eqn:Ef; [discriminate|]. cbn in E. injection E as <-.
    revert l Ef. induction IH as [|x axs Hx IH' IHl]; intros [|y l] Ef; cbn in Ef; try congruence.
    destruct (flatten_up_to np x y) as [ft|e2] eqn:E2; cbn in Ef; [|injection Ef as <-; eauto]. destruct (flat_list np axs l) as [fl|e2] eqn:E3; [discriminate|]. cbn in Ef. injection Ef as <-. eauto.
Qed.
Lemma fits_or {A B} np (axes : tree A) : forall t : tree B, (exists t', fits np axes t t') \/ flatten_up_to np axes t = Err ValueError.
Proof.
  induction axes as [a| |k axs IH] using tree_ind2; intros t.
  - left. exists t. constructor.
  - destruct np eqn:E; [left; exists TNone; constructor; now left|]. destruct t; [right; reflexivity|left; exists TNone; constructor; now right|right; reflexivity].
  - destruct t as [b| |k' l]; [right; reflexivity..|]. rewrite flat_node. destruct (kind_eqb k k') eqn:K; [apply kind_eqb_eq in K; subst k'|right; reflexivity].
    assert (G : (exists l', fits_all np axs l l') \/ flat_list np axs l = Err ValueError).
    { revert l. induction IH as [|x axs Hx IH' IHl]; intros [|y l]; [left; exists []; constructor|right; reflexivity..|]. cbn.
      destruct (Hx y) as [[y' F]|E]; [|right; now rewrite E]. destruct (IHl l) as [[l' F2]|E]; [left; exists (y' :: l'); now constructor|].
      right. destruct (flatten_up_to np x y) as [ft|e] eqn:Ef; cbn; [now rewrite E|]. now rewrite (flat_err _ _ _ _ Ef). }
    destruct G as [[l' F]|E]; [left; exists (TNode k l'); now constructor|right; now rewrite E].
Qed.

(** ** cutting the argument *)
Lemma cut_tree_ok J np o in_axes arg arg' axs (layers : list (step_of (tree pyval))) : layers <> [] -> fits np in_axes arg arg' ->
  (forall i l, nth_error layers i = Some l -> tree_slice J in_axes (List.length layers) i arg' (snd l)) ->
  (o_length o = None -> (exists p v, at_path arg' p = Some (TLeaf v)) \/ exists s, In s axs /\ s <> []) ->
  cut_ok o axs (cut_tree J np in_axes arg) layers.
Proof.
  intros Hne Hfit Hsl Hn. assert (H0 : exists l0, nth_error layers 0 = Some l0) by (destruct layers; [congruence|cbn; eauto]). destruct H0 as [l0 E0].
  destruct (Hsl 0 l0 E0) as [_ Q0].
  destruct (upto_ok np (a_slices J) in_axes arg arg' Hfit) as (sl & U1 & U2 & U3).
  { intros p v ax P X. destruct (Q0 p v P) as (ax' & l & x & X' & El & _). rewrite (axis_unique _ _ _ _ X X'). eauto. }
  exists (map (@List.length pyval) (tleaves sl)), (fun i => tmap (fun l => nth i l PyNone) sl).
  split. { unfold cut_tree. fold (upto np (a_slices J) in_axes arg). now rewrite U1. }
  assert (L : forall p l, at_path sl p = Some (TLeaf l) -> exists v ax, at_path arg' p = Some (TLeaf v) /\ axis_for in_axes p ax /\ a_slices J ax v = Ok l).
  { intros p l P. destruct (shape_leaf p sl arg' l (shape_sym _ _ U2) P) as [v Pv]. destruct (U3 p v Pv) as (ax & l' & X & El & P2). exists v, ax. assert (l' = l) by congruence. subst. auto. }
  split.
  { apply Forall_forall. intros n Hi. apply in_map_iff in Hi as (l & <- & Hi). apply leaves_path in Hi as [p P]. destruct (L p l P) as (v & ax & Pv & X & El).
    destruct (Q0 p v Pv) as (ax' & l' & x & X' & El' & Hl & _). rewrite (axis_unique _ _ _ _ X X') in El. congruence. }
  split.
  - intros i l Hi. destruct (Hsl i l Hi) as [S Q]. symmetry. apply tree_ext.
    + eapply shape_trans; [apply shape_sym, shape_map|]. eapply shape_trans; [apply shape_sym; exact U2|exact S].
    + intros p x P. rewrite path_map in P. destruct (at_path sl p) as [y|] eqn:Py; [|discriminate]. cbn in P. destruct y as [ls| |]; try discriminate. cbn in P. injection P as <-.
      destruct (L p ls Py) as (v & ax & Pv & X & El). destruct (Q p v Pv) as (ax' & l' & x & X' & El' & Hl & Hx & Px). rewrite (axis_unique _ _ _ _ X X') in El.
      assert (l' = ls) by congruence. subst. rewrite Px. do 2 f_equal. symmetry. now apply nth_error_nth.
  - intros Hnone. destruct (Hn Hnone) as [(p & v & P)|Hx]; [left|right; exact Hx]. destruct (U3 p v P) as (ax & l & _ & _ & P2).
    intros E. apply map_eq_nil in E. assert (I : In l (tleaves sl)) by (apply leaves_path; eauto). rewrite E in I. contradiction.
Qed.

(** ** putting the outputs together *)
Fixpoint zip_list {A B} (f : A -> B -> A) (ls : list (tree A)) (rs : list (tree B)) : result (list (tree A)) :=
  match ls, rs with
  | [], [] => Ok []
  | x :: ls', y :: rs' => do t <- tzip f x y; do ts <- zip_list f ls' rs'; Ok (t :: ts)
  | _, _ => Err TypeError
  end.
Lemma zip_node {A B} (f : A -> B -> A) k ls k' rs :
  tzip f (TNode k ls) (TNode k' rs) = if kind_eqb k k' then do l <- zip_list f ls rs; Ok (TNode k l) else Err TypeError.
Proof.
  cbn [tzip]. destruct (kind_eqb k k'); [|reflexivity]. f_equal. revert rs. induction ls as [|x ls IH]; intros [|y rs]; cbn; try reflexivity. destruct (tzip f x y); cbn; [|reflexivity]. now rewrite IH.
Qed.
Lemma tzip_ok {A B} (f : A -> B -> A) (s : tree A) : forall t : tree B, same_shape s t ->
  exists u, tzip f s t = Ok u /\ same_shape s u /\ forall p a, at_path s p = Some (TLeaf a) -> exists b, at_path t p = Some (TLeaf b) /\ at_path u p = Some (TLeaf (f a b)).
Proof.
  induction s as [a| |k l IH] using tree_ind2; intros t H; inversion H as [? b| |k' l1 l2 F]; subst.
  - exists (TLeaf (f a b)). split; [reflexivity|]. split; [constructor|]. intros [|i p] v P; [injection P as <-; cbn; eauto|discriminate].
  - exists TNone. split; [reflexivity|]. split; [constructor|]. intros [|i p] v P; discriminate.
  - assert (G : exists us, zip_list f l l2 = Ok us /\ Forall2 same_shape l us /\
      forall i s p a, nth_error l i = Some s -> at_path s p = Some (TLeaf a) -> exists t u b, nth_error l2 i = Some t /\ nth_error us i = Some u /\ at_path t p = Some (TLeaf b) /\ at_path u p = Some (TLeaf (f a b))).
    { clear H. revert l2 F. induction IH as [|x l Hx IH' IHl]; intros l2 F; inversion F as [|? y ? l3 Sh F2]; subst; [exists []; split; [reflexivity|]; split; [constructor|]; intros [|i] s p a N; discriminate|].
      destruct (Hx y Sh) as (u & E & Su & Q). destruct (IHl l3 F2) as (us & E2 & Su2 & Q2). exists (u :: us). cbn. rewrite E. cbn. rewrite E2. split; [reflexivity|]. split; [constructor; assumption|].
      intros [|i] s p a N P; cbn in N; [injection N as <-; destruct (Q p a P) as (b & ? & ?); exists y, u, b; auto|]. apply (Q2 i s p a N P). }
    destruct G as (us & E & Su & Q). exists (TNode k us). rewrite zip_node, kind_eqb_refl, E. split; [reflexivity|]. split; [now constructor|].
    intros [|i p] a P; [discriminate|]. cbn in P. destruct (nth_error l i) as [s|] eqn:N; [|discriminate]. destruct (Q i s p a N P) as (t & u & b & N1 & N2 & P1 & P2). exists b. cbn. rewrite N1, N2. auto.
Qed.
Lemma gather_ok l : forall acc, (forall y, In y l -> same_shape acc y) ->
  exists g, gather acc l = Ok g /\ same_shape acc g /\ forall p a, at_path acc p = Some (TLeaf a) -> exists vs, Forall2 (fun y x => at_path y p = Some (TLeaf x)) l vs /\ at_path g p = Some (TLeaf (a ++ vs)).
Proof.
  induction l as [|y l IH]; intros acc H; cbn [gather].
  - exists acc. split; [reflexivity|]. split; [eapply shape_trans; [apply (shape_map (fun x => x))|apply shape_sym, shape_map]|]. intros p a P. exists []. rewrite app_nil_r. auto.
  - destruct (tzip_ok (fun a b => a ++ [b]) acc y (H y (or_introl eq_refl))) as (u & E & S & Q). rewrite E. cbn [rbind].
    destruct (IH u) as (g & E2 & S2 & Q2). { intros z Hz. eapply shape_trans; [apply shape_sym; exact S|]. apply H. now right. }
    exists g. split; [exact E2|]. split; [eapply shape_trans; eauto|]. intros p a P. destruct (Q p a P) as (b & P1 & P2). destruct (Q2 p _ P2) as (vs & F & P3). exists (b :: vs). split; [constructor; auto|]. now rewrite <- app_assoc in P3.
Qed.
Lemma outputs_ok l : l <> [] -> (forall x y, In x l -> In y l -> same_shape x y) ->
  exists g, scan_outputs l = Ok g /\ (forall y, In y l -> same_shape y g) /\
    forall p a, at_path g p = Some (TLeaf a) -> Forall2 (fun y x => at_path y p = Some (TLeaf x)) l a.
Proof.
  intros Hne Hs. destruct l as [|y l]; [congruence|]. unfold scan_outputs.
  destruct (gather_ok l (tmap (fun v => [v]) y)) as (g & E & S & Q). { intros z Hz. eapply shape_trans; [apply shape_sym, shape_map|]. apply Hs; [now left|now right]. }
  assert (Sy : same_shape y g) by (eapply shape_trans; [apply shape_map|exact S]).
  exists g. split; [exact E|]. split. { intros z Hz. eapply shape_trans; [|exact Sy]. apply Hs; [exact Hz|now left]. }
  intros p a P. destruct (shape_leaf p g y a (shape_sym _ _ Sy) P) as [v Pv]. destruct (Q p [v]) as (vs & F & P2). { rewrite path_map, Pv. reflexivity. }
  assert (a = v :: vs) by (cbn in P2; congruence). subst a. constructor; assumption.
Qed.
Lemma Forall2_In_r {A B} (R : A -> B -> Prop) l l' y : Forall2 R l l' -> In y l' -> exists x, In x l /\ R x y.
Proof. intros F. induction F as [|x z l l' H F IH]; intros []; [subst; exists x; split; [now left|exact H]|]. destruct (IH H0) as (u & ? & ?). exists u. split; [now right|auto]. Qed.
Lemma join_tree_ok J np out_axes yss yss' : yss <> [] -> (forall x y, In x yss -> In y yss -> same_shape x y) -> Forall2 (fits np out_axes) yss yss' ->
  exists big, join_tree J np out_axes yss = Ok big /\ tree_stack J out_axes yss' big.
Proof.
  intros Hne Hs Hf. destruct (outputs_ok yss Hne Hs) as (g & E & S & Q). unfold join_tree. rewrite E. cbn [rbind].
  destruct yss as [|y0 ys0]; [congruence|]. inversion Hf as [|? y0' ? ys0' F0 F1]; subst.
  destruct (fits_shape _ _ _ _ F0 g (S y0 (or_introl eq_refl))) as (g' & Fg & Sg).
  assert (Ss : forall y y', In (y, y') (combine (y0 :: ys0) (y0' :: ys0')) -> same_shape y' g').
  { intros y y' I. assert (F : fits np out_axes y y'). { revert I. clear - Hf. intros I. remember (y0 :: ys0) as L. remember (y0' :: ys0') as L'. clear - Hf I. induction Hf; cbn in I; [contradiction|]. destruct I as [I|I]; [injection I as <- <-; assumption|auto]. }
    destruct (fits_shape _ _ _ _ F0 y) as (y2 & G & Sy). { apply Hs; [now left|]. eapply in_combine_l; exact I. }
    assert (y2 = y'). { revert G F. clear. intros G F. revert y' F.
      induction G as [ax t|t Hn|k axs l l' F0 IH| |ax axs t l t' l' F0 IH G IHl] using fits_mut with (P0 := fun axs l l' => forall l2, fits_all np axs l l2 -> l' = l2); intros y' F; inversion F; subst; auto; f_equal; auto. }
    subst y2. eapply shape_trans; [apply shape_sym; exact Sy|exact Sg]. }
  destruct (upto_ok np (fun ax v => Ok (a_stack J ax v)) out_axes g g' Fg) as (big & U1 & U2 & U3); [eauto|].
  exists big. split.
  { rewrite <- U1. unfold upto, tree_map_upto_left. destruct (flatten_up_to np out_axes g) as [ft|e]; [|reflexivity]. cbn [rbind]. f_equal. apply mapM_ext. intros [ax node]. cbn. symmetry. apply mapM_ok. }
  split.
  - intros y' Hy. destruct (In_nth_error _ _ Hy) as [i Hi]. assert (exists y, nth_error (y0 :: ys0) i = Some y) as [y Hy'].
    { destruct (nth_error (y0 :: ys0) i) as [y|] eqn:N; [eauto|]. apply nth_error_None in N. rewrite (Forall2_len _ _ _ Hf) in N. apply nth_error_None in N. congruence. }
    eapply shape_trans; [|exact U2]. apply (Ss y y').
    revert i Hi Hy'. clear. generalize (y0 :: ys0) (y0' :: ys0'). intros l. induction l as [|a l IH]; intros [|b l'] [|i] H1 H2; try discriminate; cbn in *; [left; congruence|right; eauto].
  - intros p v P. destruct (shape_leaf p big g' v (shape_sym _ _ U2) P) as [a Pa]. destruct (U3 p a Pa) as (ax & b & X & Hb & P2). exists ax, a. split; [exact X|].
    assert (v = a_stack J ax a) by congruence. split; [|assumption]. pose proof (Q p a (fits_path _ _ _ _ _ _ Fg Pa)) as F2.
    assert (Gn : forall y y' x, In (y, y') (combine (y0 :: ys0) (y0' :: ys0')) -> fits np out_axes y y' -> at_path y p = Some (TLeaf x) -> at_path y' p = Some (TLeaf x)).
    { intros y y' x I F Px. destruct (shape_leaf p g' y' a (shape_sym _ _ (Ss y y' I)) Pa) as [x' Px']. rewrite Px'. rewrite <- (fits_path _ _ _ _ _ _ F Px'). exact Px. }
    revert Hf Gn F2. clear. generalize (y0 :: ys0) (y0' :: ys0'). intros l l' Hf. revert a. induction Hf as [|y y' l l' F Hf IH]; intros a Gn F2; inversion F2; subst; constructor.
    + eapply Gn; [now left|exact F|assumption].
    + apply IH; [|assumption]. intros u u' x I. apply Gn. now right.
Qed.
Lemma join_tree_err J np out_axes yss : yss <> [] -> (forall x y, In x yss -> In y yss -> same_shape x y) ->
  (forall y y', In y yss -> ~ fits np out_axes y y') -> join_tree J np out_axes yss = Err ValueError.
Proof.
  intros Hne Hs Hf. destruct (outputs_ok yss Hne Hs) as (g & E & S & _). unfold join_tree. rewrite E. cbn [rbind]. unfold tree_map_upto_left.
  destruct (fits_or np out_axes g) as [[g' F]|Er]; [|now rewrite Er]. destruct yss as [|y yss]; [congruence|].
  destruct (fits_shape _ _ _ _ F y (shape_sym _ _ (S y (or_introl eq_refl)))) as (y' & Fy & _). exfalso. apply (Hf y y'); [now left|exact Fy].
Qed.
