(** Proofs about sharding metadata and logical axis rules. *)
From Coq Require Import ZArith.
From Verif Require Import PyBase PyBaseFacts ValuesM Spec_Eq ValuesFacts StateM SpmdM Spec_Spmd.
Local Open Scope string_scope.
Local Open Scope list_scope.

(** ** add_axis / remove_axis *)

Lemma val_sharding_val s : val_sharding (map axis_val s) = Some s.
Proof. induction s as [|[a|] s IH]; cbn; auto; now rewrite IH. Qed.
Lemma val_sharding_inv l : forall s, val_sharding l = Some s -> l = map axis_val s.
Proof.
  induction l as [|v l IH]; intros s H; cbn in H.
  - inversion H. reflexivity.
  - destruct (val_axis v) as [a|] eqn:A; [|discriminate]. destruct (val_sharding l) as [s'|]; [|discriminate].
    inversion H; subst. cbn. rewrite <- (IH s' eq_refl). f_equal. destruct v; inversion A; reflexivity.
Qed.
Lemma pad_length n s : List.length (pad_to n s) = Nat.max n (List.length s).
Proof. unfold pad_to. rewrite app_length, repeat_length. lia. Qed.
Lemma pad_id n s : n <= List.length s -> pad_to n s = s.
Proof. intros H. unfold pad_to. replace (n - List.length s) with 0 by lia. cbn. apply app_nil_r. Qed.

Lemma firstn_exact {A} n (l m : list A) : List.length l = n -> firstn n (l ++ m) = l.
Proof. intros <-. rewrite firstn_app, Nat.sub_diag, firstn_all. apply app_nil_r. Qed.
Lemma skipn_exact {A} n (l m : list A) : List.length l = n -> skipn n (l ++ m) = m.
Proof. intros <-. rewrite skipn_app, Nat.sub_diag, skipn_all. reflexivity. Qed.

Lemma remove_add_entry index n s : (0 <= index)%Z ->
  remove_axis_entry index n (add_axis_entry index n s) = Ok (pad_to (Z.to_nat index) s).
Proof.
  intros H. unfold remove_axis_entry, add_axis_entry, py_insert, py_pop, insert_pos, index_pos.
  set (k := Z.to_nat index). set (l := pad_to k s).
  assert (K : k <= List.length l) by (unfold l; rewrite pad_length; lia).
  destruct (Z.ltb_spec index 0); [lia|]. cbv zeta. rewrite Nat.min_l by exact K.
  rewrite app_length, firstn_length, Nat.min_l by exact K. cbn [List.length]. rewrite skipn_length.
  destruct (Z.ltb_spec index 0); [lia|].
  destruct (Z.leb_spec (Z.of_nat (k + S (List.length l - k))) index); [lia|]. fold k.
  assert (F : List.length (firstn k l) = k) by (rewrite firstn_length; lia).
  rewrite nth_error_app2 by lia. rewrite F, Nat.sub_diag. cbn [nth_error rbind].
  rewrite String.eqb_refl. f_equal. rewrite firstn_exact by exact F.
  change (S k) with (1 + k). rewrite skipn_app, F.
  rewrite skipn_all2 by lia. replace (1 + k - k) with 1 by lia. cbn. apply firstn_skipn.
Qed.
Lemma add_remove_entry index n s s' : (0 <= index)%Z -> remove_axis_entry index n s = Ok s' ->
  add_axis_entry index n s' = s.
Proof.
  intros H R. unfold remove_axis_entry, py_pop, index_pos in R.
  destruct (Z.ltb_spec index 0); [lia|]. destruct (Z.ltb_spec index 0); [lia|].
  destruct (Z.leb_spec (Z.of_nat (List.length s)) index); [discriminate|].
  set (k := Z.to_nat index) in *.
  destruct (nth_error s k) as [x|] eqn:E; [|discriminate]. cbn [rbind] in R. destruct x as [m|]; [|discriminate].
  destruct (String.eqb_spec m n) as [->|]; [|discriminate]. assert (R' : firstn k s ++ skipn (S k) s = s') by congruence. subst s'.
  assert (F : List.length (firstn k s) = k) by (rewrite firstn_length; lia).
  assert (L : k <= List.length (firstn k s ++ skipn (S k) s)) by (rewrite app_length; lia).
  unfold add_axis_entry, py_insert, insert_pos. fold k.
  rewrite pad_id by exact L. destruct (Z.ltb_spec index 0); [lia|]. cbv zeta. rewrite Nat.min_l by exact L.
  rewrite firstn_exact, skipn_exact by exact F.
  apply nth_error_split in E as (l1 & l2 & -> & E). rewrite <- E. rewrite firstn_exact by reflexivity. f_equal.
  replace (S (List.length l1)) with (List.length (l1 ++ [Some n])) by (rewrite app_length; cbn; lia).
  change (l1 ++ Some n :: l2) with (l1 ++ [Some n] ++ l2). rewrite app_assoc.
  now rewrite skipn_exact.
Qed.

(** replacing the sharding of a well formed container *)
Definition with_sharding (c : container) (v : pyval) : container :=
  mkCont (c_cls c) (dset "sharding" v (c_meta c)) (c_val c).
Lemma replace_sharding c old v : wf_container c -> dget "sharding" (c_meta c) = Some old ->
  container_replace c None [("sharding", v)] = Ok (with_sharding c v).
Proof.
  intros (ND & NV & IC & ST & VA) D. unfold container_replace. cbn [rbind keys map fst forallb].
  unfold dmem. rewrite D. cbn [andb]. unfold container_call, container_init, init_meta. cbn [dupdate fold_left fst snd].
  destruct (smem "Static" (c_cls c)) eqn:S; [rewrite (ST eq_refl) in D; discriminate|].
  destruct (smem "Variable" (c_cls c)) eqn:V; [|reflexivity].
  destruct (VA eq_refl eq_refl) as (s & t & E). unfold with_sharding. rewrite E. cbn [dset]. rewrite String.eqb_refl. cbn [dget].
  rewrite String.eqb_refl. cbn [rbind ddel]. rewrite String.eqb_refl. reflexivity.
Qed.
Lemma with_sharding_wf c old v : wf_container c -> dget "sharding" (c_meta c) = Some old -> wf_container (with_sharding c v).
Proof.
  intros (ND & NV & IC & ST & VA) D. unfold wf_container, with_sharding. cbn [c_cls c_meta].
  assert (K : keys (dset "sharding" v (c_meta c)) = keys (c_meta c)).
  { rewrite keys_dset. unfold dmem. now rewrite D. }
  rewrite K. repeat split; auto.
  - intros S. rewrite (ST S) in D. discriminate.
  - intros S V. destruct (VA S V) as (s & t & E). rewrite E. exists v, t. cbn [dset]. now rewrite String.eqb_refl.
Qed.
Lemma with_sharding_twice c u v : with_sharding (with_sharding c u) v = with_sharding c v.
Proof.
  unfold with_sharding. cbn. f_equal. generalize (c_meta c). induction l as [|[k x] l IH]; cbn [dset].
  - now rewrite String.eqb_refl.
  - destruct (String.eqb "sharding" k) eqn:E; cbn [dset]; rewrite E; auto. now rewrite IH.
Qed.
Lemma with_sharding_id c v : dget "sharding" (c_meta c) = Some v -> with_sharding c v = c.
Proof. intros D. unfold with_sharding. rewrite dset_id by exact D. now destruct c. Qed.

Lemma sharding_of_none a : no_sharding a -> sharding_of a = Ok None.
Proof.
  destruct a as [v|c]; [reflexivity|]. cbn. destruct (smem "Node" (c_cls c)) eqn:N; [|reflexivity].
  apply smem_In in N. intros [H|[H|H]]; [contradiction|now rewrite H|now rewrite H].
Qed.
Lemma sharding_of_some c s : In "Node" (c_cls c) -> dget "sharding" (c_meta c) = Some (sharding_val s) ->
  sharding_of (ACont c) = Ok (Some (c, s)).
Proof.
  intros N D. cbn. apply smem_In in N. rewrite N, D. cbn. now rewrite val_sharding_val.
Qed.
Lemma add_axis1_some index n c s : wf_container c -> In "Node" (c_cls c) ->
  dget "sharding" (c_meta c) = Some (sharding_val s) ->
  add_axis1 index n (ACont c) = Ok (ACont (with_sharding c (sharding_val (add_axis_entry index n s)))).
Proof.
  intros W N D. unfold add_axis1. rewrite (sharding_of_some c s N D). cbn [rbind].
  rewrite (replace_sharding c _ _ W D). reflexivity.
Qed.
Lemma remove_axis1_some index n c s : wf_container c -> In "Node" (c_cls c) ->
  dget "sharding" (c_meta c) = Some (sharding_val s) ->
  remove_axis1 index n (ACont c) =
    rmap (fun s' => ACont (with_sharding c (sharding_val s'))) (remove_axis_entry index n s).
Proof.
  intros W N D. unfold remove_axis1. rewrite (sharding_of_some c s N D). cbn [rbind].
  destruct (remove_axis_entry index n s) as [s'|e]; [|reflexivity]. cbn [rbind rmap].
  rewrite (replace_sharding c _ _ W D). reflexivity.
Qed.

(** Entries the model covers: no sharding, or one that is a tuple of names *)
Definition covered (a : attr) : Prop := wf_attr a /\ (no_sharding a \/ exists s, has_sharding a s).
(** entry [a] with its sharding padded to [n] *)
Definition padded (n : nat) (a b : attr) : Prop :=
  (no_sharding a /\ b = a) \/
  (exists c s, a = ACont c /\ has_sharding a s /\ b = ACont (with_sharding c (sharding_val (pad_to n s)))).

Lemma remove_add1 index n a : (0 <= index)%Z -> covered a ->
  exists b c, add_axis1 index n a = Ok b /\ remove_axis1 index n b = Ok c /\ padded (Z.to_nat index) a c.
Proof.
  intros H [W [NS|(s & c & -> & N & D)]].
  - exists a, a. unfold add_axis1, remove_axis1. rewrite (sharding_of_none a NS). cbn. repeat split; auto. left; auto.
  - cbn in W. eexists. exists (ACont (with_sharding c (sharding_val (pad_to (Z.to_nat index) s)))).
    split; [apply add_axis1_some; eauto|]. split.
    + rewrite remove_axis1_some with (s := add_axis_entry index n s).
      * rewrite remove_add_entry by exact H. cbn. now rewrite with_sharding_twice.
      * eapply with_sharding_wf; eauto.
      * exact N.
      * cbn. apply dget_dset_same.
    + right. exists c, s. repeat split; auto. exists c. auto.
Qed.
Lemma state_map_two f g P s : (forall k a, In (k, a) s -> exists b c, f a = Ok b /\ g b = Ok c /\ P a c) ->
  exists t u, state_map f s = Ok t /\ state_map g t = Ok u /\
    Forall2 (fun x y : string * attr => fst x = fst y /\ P (snd x) (snd y)) s u.
Proof.
  induction s as [|[k a] s IH]; intros H.
  - exists [], []. cbn. auto.
  - destruct (H k a (or_introl eq_refl)) as (b & c & F & G & PA).
    destruct IH as (t & u & E1 & E2 & F2). { intros k' a' I. apply (H k' a'). now right. }
    exists ((k, b) :: t), ((k, c) :: u). cbn. rewrite F, E1. cbn. rewrite G, E2. cbn. auto.
Qed.
Theorem remove_add_axis s index n : (0 <= index)%Z -> (forall k a, In (k, a) s -> covered a) ->
  exists t u, add_axis s index (Some n) = Ok t /\ remove_axis t index (Some n) = Ok u /\
    Forall2 (fun x y : string * attr => fst x = fst y /\ padded (Z.to_nat index) (snd x) (snd y)) s u.
Proof. intros H C. apply state_map_two. intros k a I. apply remove_add1; eauto. Qed.
Theorem remove_add_axis_id s index n : (0 <= index)%Z -> (forall k a, In (k, a) s -> covered a) ->
  (forall k a sh, In (k, a) s -> has_sharding a sh -> Z.to_nat index <= List.length sh) ->
  exists t, add_axis s index (Some n) = Ok t /\ remove_axis t index (Some n) = Ok s.
Proof.
  intros H C L. destruct (remove_add_axis s index n H C) as (t & u & A & B & F). exists t. split; auto.
  rewrite B. f_equal. clear A B C.
  assert (F' : Forall2 (fun x y : string * attr => fst x = fst y /\ padded (Z.to_nat index) (snd x) (snd y)) s u) by exact F.
  induction F' as [|[k a] [k' b] s u [E1 E2] F' IH]; [reflexivity|].
  cbn in E1, E2. subst k'. f_equal.
  - f_equal. destruct E2 as [[_ ->]|(c & sh & -> & HS & ->)]; [reflexivity|].
    rewrite pad_id by (eapply L; [now left|exact HS]).
    destruct HS as (c' & [= <-] & N & D). now rewrite with_sharding_id.
  - apply IH; [intros k0 a0 sh I; apply (L k0); now right|]. now inversion F.
Qed.

Lemma add_remove1 index n a b : (0 <= index)%Z -> covered a -> remove_axis1 index n a = Ok b -> add_axis1 index n b = Ok a.
Proof.
  intros H [W [NS|(s & c & -> & N & D)]] R.
  - unfold remove_axis1 in R. rewrite (sharding_of_none a NS) in R. cbn in R. inversion R; subst b.
    unfold add_axis1. now rewrite (sharding_of_none a NS).
  - cbn in W. rewrite (remove_axis1_some index n c s W N D) in R.
    destruct (remove_axis_entry index n s) as [s'|e] eqn:E; [|discriminate]. cbn in R. inversion R; subst b.
    rewrite add_axis1_some with (s := s').
    + rewrite (add_remove_entry index n s s' H E), with_sharding_twice, with_sharding_id; auto.
    + eapply with_sharding_wf; eauto.
    + exact N.
    + cbn. apply dget_dset_same.
Qed.
Theorem add_remove_axis s index n t : (0 <= index)%Z -> (forall k a, In (k, a) s -> covered a) ->
  remove_axis s index (Some n) = Ok t -> add_axis t index (Some n) = Ok s.
Proof.
  intros H. cbn. revert t. induction s as [|[k a] s IH]; intros t C R; cbn in R.
  - inversion R. reflexivity.
  - destruct (remove_axis1 index n a) as [b|e] eqn:E; [|discriminate]. cbn in R.
    destruct (state_map (remove_axis1 index n) s) as [t'|e] eqn:M; [|discriminate]. cbn in R. inversion R; subst t.
    cbn. rewrite (add_remove1 index n a b H (C k a (or_introl eq_refl)) E). cbn.
    rewrite (IH t'); auto. intros k' a' I. apply (C k' a'). now right.
Qed.

(** ** logical_to_mesh_axes *)

Lemma dim_index_some name dims : forall p, dim_index name dims = Some p -> nth_error dims p = Some (Some name).
Proof.
  induction dims as [|d dims IH]; intros p H; [discriminate|]. cbn in H.
  destruct d as [s|].
  - destruct (String.eqb_spec name s) as [->|NE]; [inversion H; reflexivity|].
    destruct (dim_index name dims) as [q|]; [|discriminate]. inversion H; subst. cbn. auto.
  - destruct (dim_index name dims) as [q|]; [|discriminate]. inversion H; subst. cbn. auto.
Qed.
Lemma dim_index_none name dims : dim_index name dims = None -> ~ In (Some name) dims.
Proof.
  induction dims as [|d dims IH]; intros H; [intros []|]. cbn in H.
  assert (T : dim_index name dims = None /\ d <> Some name).
  { destruct d as [s|].
    - destruct (String.eqb_spec name s) as [->|NE]; [discriminate|].
      destruct (dim_index name dims); [discriminate|]. split; congruence.
    - destruct (dim_index name dims); [discriminate|]. split; congruence. }
  destruct T as [T1 T2]. intros [E|I]; [congruence|now apply IH].
Qed.
Lemma has_dups_spec dims : has_dups dims = false <-> distinct_names dims.
Proof.
  induction dims as [|[s|] dims IH]; cbn [has_dups].
  - split; auto. intros _ [|i] j s H; discriminate.
  - split.
    + destruct (dim_index s dims) eqn:D; [discriminate|]. intros H. apply IH in H. apply dim_index_none in D.
      intros [|i] [|j] s' A B; cbn in A, B; auto.
      * inversion A; subst. apply nth_error_In in B. contradiction.
      * inversion B; subst. apply nth_error_In in A. contradiction.
      * f_equal. eapply H; eauto.
    + intros H. destruct (dim_index s dims) as [p|] eqn:D.
      * apply dim_index_some in D. specialize (H 0 (S p) s eq_refl D). discriminate.
      * apply IH. intros i j s' A B. specialize (H (S i) (S j) s' A B). congruence.
  - rewrite IH. split; intros H.
    + intros [|i] [|j] s' A B; try discriminate. f_equal. eapply H; eauto.
    + intros i j s' A B. specialize (H (S i) (S j) s' A B). congruence.
Qed.
Lemma mesh_leaves_uses m x : In x (mesh_leaves m) <-> uses m x.
Proof.
  unfold uses. destruct m as [|s|l]; cbn.
  - split; [intros []|]. intros [H|(l & H & _)]; discriminate.
  - split; [intros [<-|[]]; now left|]. intros [[= ->]|(l & H & _)]; [now left|discriminate].
  - split; [intros H; right; eauto|]. intros [H|(l' & [= ->] & H)]; [discriminate|exact H].
Qed.
Lemma free_spec m res : mesh_assignment_free m res = true <->
  forall e, In e res -> match e with Assigned m1 => disjoint m1 m | Unassigned => True end.
Proof.
  unfold mesh_assignment_free. rewrite Bool.negb_true_iff. split.
  - intros H e IN. destruct e as [|m1]; [exact I|]. intros x X Y.
    assert (T : existsb (fun x => smem x (mesh_leaves m)) (flat_map entry_leaves res) = true).
    { apply existsb_exists. exists x. split; [|now apply smem_In, mesh_leaves_uses].
      apply in_flat_map. exists (Assigned m1). split; [exact IN|now apply mesh_leaves_uses]. }
    congruence.
  - intros H. apply Bool.not_true_iff_false. intros T. apply existsb_exists in T as (x & X & Y).
    apply in_flat_map in X as (e & IN & X). apply smem_In, mesh_leaves_uses in Y.
    specialize (H e IN). destruct e as [|m1]; [destruct X|]. apply mesh_leaves_uses in X. exact (H x X Y).
Qed.

Record mesh_inv (dims : list (option string)) (rules : logical_rules) (fired : nat -> bool)
    (res : list mesh_entry) : Prop := mkMeshInv {
  mi_len : List.length res = List.length dims;
  mi_fires : fires dims rules fired;
  mi_some : forall i m, nth_error res i = Some (Assigned m) ->
     exists d, nth_error dims i = Some d /\ assigned_by rules fired d m;
  mi_none : forall i, nth_error res i = Some Unassigned ->
     exists d, nth_error dims i = Some d /\ forall m, ~ assigned_by rules fired d m }.

Definition upd (f : nat -> bool) (n : nat) (b : bool) : nat -> bool := fun k => if Nat.eqb k n then b else f k.
Lemma fires_snoc dims rules fired name m b :
  fires dims rules fired ->
  (b = true <-> In (Some name) dims /\
     forall j name' m', nth_error rules j = Some (name', m') -> fired j = true ->
       name' <> name /\ disjoint m' m) ->
  fires dims (rules ++ [(name, m)]) (upd fired (List.length rules) b).
Proof.
  intros F B k nm mm K. unfold upd at 1.
  assert (OLD : forall j n' m', j < List.length rules -> nth_error (rules ++ [(name, m)]) j = Some (n', m') ->
            nth_error rules j = Some (n', m')).
  { intros j n' m' L E. now rewrite nth_error_app1 in E. }
  destruct (Nat.lt_ge_cases k (List.length rules)) as [L|L].
  - destruct (Nat.eqb_spec k (List.length rules)); [lia|]. rewrite nth_error_app1 in K by exact L.
    rewrite (F k nm mm K). split; intros [I H]; split; auto; intros j n' m' J E X.
    + apply (H j n' m' J). apply OLD; [lia|exact E]. unfold upd in X. destruct (Nat.eqb_spec j (List.length rules)); [lia|exact X].
    + apply (H j n' m' J). rewrite nth_error_app1 by lia. exact E.
      unfold upd. destruct (Nat.eqb_spec j (List.length rules)); [lia|exact X].
  - assert (KE : k < List.length (rules ++ [(name, m)])) by (apply nth_error_Some; congruence).
    rewrite app_length in KE. cbn in KE. assert (k = List.length rules) by lia. subst k.
    rewrite Nat.eqb_refl. rewrite nth_error_app2, Nat.sub_diag in K by lia. cbn in K. inversion K; subst nm mm.
    rewrite B. split; intros [I H]; split; auto.
    + intros j n' m' J E X. apply (H j). apply OLD; [lia|exact E]. unfold upd in X. destruct (Nat.eqb_spec j (List.length rules)); [lia|exact X].
    + intros j n' m' E X. assert (J : j < List.length rules) by (apply nth_error_Some; congruence).
      apply (H j n' m' J). rewrite nth_error_app1 by lia. exact E.
      unfold upd. destruct (Nat.eqb_spec j (List.length rules)); [lia|exact X].
Qed.
Lemma assigned_snoc rules fired name m b d m' :
  assigned_by (rules ++ [(name, m)]) (upd fired (List.length rules) b) d m' <->
  assigned_by rules fired d m' \/ (b = true /\ d = Some name /\ m' = m).
Proof.
  split.
  - intros (k & nm & -> & K & X). unfold upd in X. destruct (Nat.lt_ge_cases k (List.length rules)) as [L|L].
    + rewrite nth_error_app1 in K by exact L. destruct (Nat.eqb_spec k (List.length rules)); [lia|].
      left. exists k, nm. auto.
    + assert (KE : k < List.length (rules ++ [(name, m)])) by (apply nth_error_Some; congruence).
      rewrite app_length in KE. cbn in KE. assert (k = List.length rules) by lia. subst k.
      rewrite Nat.eqb_refl in X. rewrite nth_error_app2, Nat.sub_diag in K by lia. cbn in K. inversion K; subst. right. auto.
  - intros [(k & nm & -> & K & X)|(-> & -> & ->)].
    + assert (L : k < List.length rules) by (apply nth_error_Some; congruence).
      exists k, nm. rewrite nth_error_app1 by exact L. unfold upd. destruct (Nat.eqb_spec k (List.length rules)); [lia|auto].
    + exists (List.length rules), name. rewrite nth_error_app2, Nat.sub_diag by lia. unfold upd. rewrite Nat.eqb_refl. auto.
Qed.

Lemma mesh_step dims rules fired res name m : distinct_names dims -> mesh_inv dims rules fired res ->
  exists b, mesh_inv dims (rules ++ [(name, m)]) (upd fired (List.length rules) b) (apply_rule dims res (name, m)).
Proof.
  intros DN [LN F S N]. unfold apply_rule. cbn [fst snd].
  assert (KEEP : (forall x, x = true <-> x = true /\ True) -> forall cond : Prop,
     (false = true <-> cond) -> fires dims (rules ++ [(name, m)]) (upd fired (List.length rules) false) ->
     mesh_inv dims (rules ++ [(name, m)]) (upd fired (List.length rules) false) res).
  { intros _ _ _ FF. constructor; auto.
    - intros i m' E. destruct (S i m' E) as (d & D & A). exists d. split; auto. apply assigned_snoc. now left.
    - intros i E. destruct (N i E) as (d & D & A). exists d. split; auto. intros m' X.
      apply assigned_snoc in X as [X|(X & _)]; [exact (A m' X)|discriminate]. }
  assert (SKIP : ~ (In (Some name) dims /\ forall j name' m', nth_error rules j = Some (name', m') -> fired j = true ->
       name' <> name /\ disjoint m' m) ->
     exists b, mesh_inv dims (rules ++ [(name, m)]) (upd fired (List.length rules) b) res).
  { intros NC. exists false. apply (KEEP ltac:(tauto) False ltac:(split; [discriminate|tauto])).
    apply fires_snoc; auto. split; [discriminate|contradiction]. }
  destruct (dim_index name dims) as [pos|] eqn:DI.
  2:{ apply SKIP. intros [I _]. now apply dim_index_none in DI. }
  apply dim_index_some in DI.
  destruct (nth_error res pos) as [[|m0]|] eqn:RP.
  - destruct (mesh_assignment_free m res) eqn:MF.
    + exists true. rewrite free_spec in MF.
      assert (OKR : forall j name' m', nth_error rules j = Some (name', m') -> fired j = true ->
                name' <> name /\ disjoint m' m).
      { intros j n' m' E X. assert (A : assigned_by rules fired (Some n') m') by (exists j, n'; auto). split.
        - intros ->. destruct (N pos RP) as (d & D & NA). rewrite DI in D. inversion D; subst d. exact (NA m' A).
        - assert (I : In (Some n') dims) by (apply (F j n' m' E); exact X).
          apply In_nth_error in I as [i I].
          assert (LI : i < List.length res) by (rewrite LN; apply nth_error_Some; congruence).
          destruct (nth_error res i) as [[|m1]|] eqn:RI; [| |apply nth_error_None in RI; lia].
          + destruct (N i RI) as (d & D & NA). rewrite I in D. inversion D; subst d. exfalso. exact (NA m' A).
          + destruct (S i m1 RI) as (d & D & A1). rewrite I in D. inversion D; subst d.
            destruct A1 as (k & nk & EK & RK & XK). inversion EK; subst nk.
            assert (EQ : k = j).
            { destruct (Nat.lt_trichotomy k j) as [L|[L|L]]; auto; exfalso.
              - apply (F j n' m' E) in X as [_ X]. destruct (X k n' m1 L RK XK) as [X1 _]. congruence.
              - apply (F k n' m1 RK) in XK as [_ XK]. destruct (XK j n' m' L E X) as [X1 _]. congruence. }
            subst k. rewrite E in RK. inversion RK; subst m1. apply nth_error_In in RI. exact (MF _ RI). }
      constructor.
      * now rewrite list_set_length.
      * apply fires_snoc; auto. split; auto. intros _. split; auto. now apply nth_error_In in DI.
      * intros i m' E. destruct (Nat.eq_dec pos i) as [<-|NE].
        -- rewrite nth_list_set_same in E by (apply nth_error_Some; congruence). inversion E; subst m'.
           exists (Some name). split; auto. apply assigned_snoc. right. auto.
        -- rewrite nth_list_set_other in E by exact NE. destruct (S i m' E) as (d & D & A). exists d. split; auto.
           apply assigned_snoc. now left.
      * intros i E. destruct (Nat.eq_dec pos i) as [<-|NE].
        -- rewrite nth_list_set_same in E by (apply nth_error_Some; congruence). discriminate.
        -- rewrite nth_list_set_other in E by exact NE. destruct (N i E) as (d & D & A). exists d. split; auto.
           intros m' X. apply assigned_snoc in X as [X|(_ & -> & _)]; [exact (A m' X)|].
           apply NE. eapply DN; eauto.
    + apply SKIP. intros [_ H]. apply Bool.not_true_iff_false in MF. apply MF. apply free_spec.
      intros e I. destruct e as [|m1]; [exact Logic.I|]. apply In_nth_error in I as [i I].
      destruct (S i m1 I) as (d & D & k & nk & -> & RK & XK). apply (H k nk m1 RK XK).
  - apply SKIP. intros [_ H]. destruct (S pos m0 RP) as (d & D & k & nk & -> & RK & XK).
    rewrite DI in D. inversion D; subst nk. destruct (H k name m0 RK XK) as [X _]. congruence.
  - exfalso. apply nth_error_None in RP. rewrite LN in RP.
    assert (pos < List.length dims) by (apply nth_error_Some; congruence). lia.
Qed.
Lemma mesh_all dims rules : distinct_names dims ->
  exists fired, mesh_inv dims rules fired (fold_left (apply_rule dims) rules (repeat Unassigned (List.length dims))).
Proof.
  intros DN. induction rules as [|[name m] rules IH] using rev_ind.
  - exists (fun _ => false). constructor.
    + cbn. apply repeat_length.
    + intros [|k] name m H; discriminate.
    + intros i m H. cbn in H. apply nth_error_In, repeat_spec in H. discriminate.
    + intros i H. cbn in H. assert (L : i < List.length (repeat Unassigned (List.length dims))) by (apply nth_error_Some; congruence).
      rewrite repeat_length in L. destruct (nth_error dims i) as [d|] eqn:D; [|apply nth_error_None in D; lia].
      exists d. split; auto. intros m (k & n & _ & E & _). destruct k; discriminate.
  - destruct IH as (fired & IH). rewrite fold_left_app. cbn [fold_left].
    destruct (mesh_step dims rules fired _ name m DN IH) as (b & H). eauto.
Qed.
Theorem fired_unique dims rules f g : fires dims rules f -> fires dims rules g ->
  forall k, k < List.length rules -> f k = g k.
Proof.
  intros F G k. induction k as [k IH] using lt_wf_ind. intros L.
  destruct (nth_error rules k) as [[name m]|] eqn:E; [|apply nth_error_None in E; lia].
  apply Bool.eq_iff_eq_true. rewrite (F k name m E), (G k name m E).
  split; intros [I H]; split; auto; intros j n' m' J EJ X; apply (H j n' m' J EJ).
  - rewrite IH; auto. apply nth_error_Some. congruence.
  - rewrite <- IH; auto. apply nth_error_Some. congruence.
Qed.
Theorem logical_axes_spec current dims rules out :
  logical_to_mesh_axes current (Some dims) rules = Ok (Some out) ->
  exists fired, fires dims (match rules with Some r => r | None => current end) fired /\
    List.length out = List.length dims /\
    forall i d m, nth_error dims i = Some d -> nth_error out i = Some m ->
      assigned_by (match rules with Some r => r | None => current end) fired d m \/
      ((forall m', ~ assigned_by (match rules with Some r => r | None => current end) fired d m') /\ m = MNone).
Proof.
  unfold logical_to_mesh_axes, logical_to_mesh_entries.
  set (rs := match rules with Some r => r | None => current end).
  destruct (has_dups dims) eqn:HD; [discriminate|]. cbn [rbind option_map]. intros [= <-].
  apply has_dups_spec in HD. destruct (mesh_all dims rs HD) as (fired & [LN F S N]).
  replace (match rules with Some r => r | None => current end) with rs by (destruct rules; reflexivity).
  exists fired. split; auto. split; [now rewrite map_length|].
  intros i d m D O. rewrite nth_error_map in O.
  destruct (nth_error (fold_left (apply_rule dims) rs (repeat Unassigned (List.length dims))) i) as [[|m1]|] eqn:E; [| |discriminate];
    cbn in O; inversion O; subst m.
  - right. destruct (N i E) as (d' & D' & A). assert (d' = d) by congruence. subst d'. auto.
  - left. destruct (S i m1 E) as (d' & D' & A). assert (d' = d) by congruence. subst d'. exact A.
Qed.
Lemma assigned_axis_once rules fired dims : fires dims rules fired -> distinct_names dims ->
  forall i j d e m m' x, nth_error dims i = Some d -> nth_error dims j = Some e ->
  assigned_by rules fired d m -> assigned_by rules fired e m' ->
  uses m x -> uses m' x -> i = j.
Proof.
  intros F DN i j d e m m' x D E (k & n & -> & K & FK) (l & n' & -> & L & FL) X Y.
  destruct (Nat.lt_trichotomy k l) as [H|[->|H]].
  - exfalso. apply (F l n' m' L) in FL as [_ FL]. destruct (FL k n m H K FK) as [_ DJ]. exact (DJ x X Y).
  - rewrite K in L. inversion L; subst. eapply DN; eauto.
  - exfalso. apply (F k n m K) in FK as [_ FK]. destruct (FK l n' m' H L FL) as [_ DJ]. exact (DJ x Y X).
Qed.

Lemma add_axis_entry_at index n s : (0 <= index)%Z ->
  let k := Z.to_nat index in
  add_axis_entry index n s = firstn k (pad_to k s) ++ [Some n] ++ skipn k (pad_to k s).
Proof.
  intros H k. unfold add_axis_entry, py_insert, insert_pos. fold k. destruct (Z.ltb_spec index 0); [lia|].
  cbv zeta. rewrite Nat.min_l by (rewrite pad_length; lia). reflexivity.
Qed.
Lemma negative_axis s last n : last <> Some n ->
  remove_axis_entry (-1) n (add_axis_entry (-1) n (s ++ [last])) = Err AssertionError.
Proof.
  intros NE. unfold remove_axis_entry, add_axis_entry, py_insert, py_pop, insert_pos, index_pos.
  change (Z.to_nat (-1)) with 0. rewrite pad_id by lia.
  destruct (Z.ltb_spec (-1) 0); [|lia]. cbv zeta.
  rewrite (app_length s [last]). cbn [List.length].
  replace (Z.to_nat (Z.of_nat (List.length s + 1) + -1)) with (List.length s) by lia.
  rewrite firstn_exact, skipn_exact by reflexivity. rewrite app_length. cbn [List.length].
  destruct (Z.ltb_spec (Z.of_nat (List.length s + 2) + -1) 0); [lia|].
  destruct (Z.leb_spec (Z.of_nat (List.length s + 2)) (Z.of_nat (List.length s + 2) + -1)); [lia|].
  replace (Z.to_nat (Z.of_nat (List.length s + 2) + -1)) with (S (List.length s)) by lia.
  rewrite nth_error_app2 by lia. replace (S (List.length s) - List.length s) with 1 by lia. cbn [nth_error rbind].
  destruct last as [m|]; [|reflexivity]. destruct (String.eqb_spec m n); [congruence|reflexivity].
Qed.

Lemma axis_once current dims rules out :
  logical_to_mesh_axes current (Some dims) rules = Ok (Some out) ->
  forall i j m m' x, nth_error out i = Some m -> nth_error out j = Some m' ->
  uses m x -> uses m' x -> i = j.
Proof.
  intros H i j m m' x I J X Y.
  assert (DN : distinct_names dims).
  { apply has_dups_spec. unfold logical_to_mesh_axes, logical_to_mesh_entries in H. destruct (has_dups dims); [discriminate|reflexivity]. }
  apply logical_axes_spec in H as (fired & F & L & E).
  assert (G : forall i m, nth_error out i = Some m -> exists d, nth_error dims i = Some d).
  { intros i0 m0 H0. destruct (nth_error dims i0) as [d|] eqn:D; [eauto|]. apply nth_error_None in D.
    assert (i0 < List.length out) by (apply nth_error_Some; congruence). lia. }
  destruct (G i m I) as (d & D). destruct (G j m' J) as (e & D').
  destruct (E i d m D I) as [A|[_ ->]]; [|destruct X as [X|(l & X & _)]; discriminate].
  destruct (E j e m' D' J) as [B|[_ ->]]; [|destruct Y as [Y|(l & Y & _)]; discriminate].
  exact (assigned_axis_once _ fired dims F DN i j d e m m' x D D' A B X Y).
Qed.
Lemma duplicates_spec current dims rules :
  (distinct_names dims -> exists out, logical_to_mesh_axes current (Some dims) rules = Ok (Some out)) /\
  (~ distinct_names dims -> logical_to_mesh_axes current (Some dims) rules = Err ValueError).
Proof.
  rewrite <- has_dups_spec. unfold logical_to_mesh_axes, logical_to_mesh_entries.
  destruct (has_dups dims); cbn; split; intros H; try congruence; eauto.
Qed.

Lemma constraint_spec mesh current dims rules fb fired :
  let rs := match rules with Some r => r | None => current end in
  let matched d := exists m, assigned_by rs fired d m in
  rs <> [] -> distinct_names dims -> fires dims rs fired ->
  exists out, logical_to_mesh_axes current (Some dims) rules = Ok (Some out) /\
  (Forall matched dims \/ fb = AxisIsUnsharded ->
     with_logical_constraint mesh current (Some dims) rules fb = Ok (if mesh then Constrain (Some out) else AsIs)) /\
  (~ Forall matched dims -> fb = RaiseError ->
     with_logical_constraint mesh current (Some dims) rules fb = Err ValueError) /\
  (~ Forall matched dims -> fb = NoConstraint ->
     with_logical_constraint mesh current (Some dims) rules fb = Ok AsIs).
Proof.
  intros rs matched NE DN F. destruct (mesh_all dims rs DN) as (f2 & [LN F2 S N]).
  set (es := fold_left (apply_rule dims) rs (repeat Unassigned (List.length dims))) in *.
  assert (RE : forall r0, r0 = rs -> logical_to_mesh_entries current (Some dims) (Some r0) = Ok (Some es)).
  { intros r0 ->. unfold logical_to_mesh_entries. apply has_dups_spec in DN. rewrite DN. reflexivity. }
  assert (RE2 : logical_to_mesh_entries current (Some dims) rules = Ok (Some es)).
  { unfold logical_to_mesh_entries. apply has_dups_spec in DN. rewrite DN. unfold es, rs. destruct rules; reflexivity. }
  assert (SAME : forall d m, assigned_by rs f2 d m <-> assigned_by rs fired d m).
  { intros d m. split; intros (k & n & E & K & X); exists k, n; repeat split; auto;
      assert (LK : k < List.length rs) by (apply nth_error_Some; congruence).
    - now rewrite <- (fired_unique dims rs f2 fired F2 F k LK).
    - now rewrite (fired_unique dims rs f2 fired F2 F k LK). }
  assert (UN : existsb is_unassigned es = false <-> Forall matched dims).
  { rewrite <- Bool.not_true_iff_false, existsb_exists. split.
    - intros H. apply Forall_forall. intros d I. apply In_nth_error in I as [i I].
      assert (LI : i < List.length es) by (rewrite LN; apply nth_error_Some; congruence).
      destruct (nth_error es i) as [[|m]|] eqn:E; [| |apply nth_error_None in E; lia].
      + exfalso. apply H. exists Unassigned. split; [now apply nth_error_In in E|reflexivity].
      + destruct (S i m E) as (d' & D & A). assert (d' = d) by congruence. subst d'. exists m. now apply SAME.
    - intros H (e & I & U). destruct e; [|discriminate]. apply In_nth_error in I as [i I].
      destruct (N i I) as (d & D & A). rewrite Forall_forall in H. destruct (H d (nth_error_In _ _ D)) as (m & M).
      apply (A m). now apply SAME. }
  exists (map fill_none es). split; [unfold logical_to_mesh_axes; now rewrite RE2|].
  assert (W : with_logical_constraint mesh current (Some dims) rules fb =
              constraint_one_fallback mesh current (Some dims) fb (Some rs)).
  { unfold with_logical_constraint. fold rs. replace (match rules with None => current | Some r => r end) with rs by (unfold rs; destruct rules; reflexivity).
    destruct rs; [contradiction|reflexivity]. }
  rewrite W. unfold constraint_one_fallback. rewrite (RE rs eq_refl). cbn [rbind]. split; [|split].
  - intros [A| ->]; [|reflexivity]. apply UN in A. rewrite A. destruct fb; reflexivity.
  - intros A ->. destruct (existsb is_unassigned es); [reflexivity|]. exfalso. apply A. now apply UN.
  - intros A ->. destruct (existsb is_unassigned es); [reflexivity|]. exfalso. apply A. now apply UN.
Qed.
Lemma constraint_untouched mesh current dims rules fb :
  match rules with Some r => r | None => current end = [] \/ dims = None ->
  with_logical_constraint mesh current dims rules fb = Ok AsIs.
Proof.
  unfold with_logical_constraint. intros [H| ->].
  - replace (match rules with None => current | Some r => r end) with (@nil (string * mesh_names)) by (rewrite <- H; destruct rules; reflexivity).
    reflexivity.
  - destruct rules as [[|? ?]|]; destruct current; reflexivity.
Qed.

(** ** get_partition_spec *)
Lemma has_sharding_fun a s s' : has_sharding a s -> has_sharding a s' -> s = s'.
Proof.
  intros (c & E & _ & D) (c' & E' & _ & D'). subst a. injection E' as <-. rewrite D in D'. injection D' as D'.
  assert (K : val_sharding (map axis_val s) = val_sharding (map axis_val s')) by now rewrite D'. rewrite !val_sharding_val in K. congruence.
Qed.
Lemma spec_of_fun hs a p q : spec_of hs a p -> spec_of hs a q -> p = q.
Proof.
  assert (X : forall s, has_sharding a s -> no_sharding a -> False).
  { intros s (c & -> & N & D) [H|[H|H]]; [contradiction|congruence|]. rewrite D in H. discriminate. }
  assert (Y : forall s, has_sharding a s -> s <> [] -> no_sharding a \/ has_sharding a [] -> False).
  { intros s H1 H2 [H|H]; [eauto|]. apply H2. eapply has_sharding_fun; eauto. }
  assert (Z : forall v v', state_value a v -> state_value a v' -> v = v').
  { intros v v' [->|(c & -> & _ & <-)] [E|(c' & E & _ & <-)]; congruence. }
  intros [s H1 H2|v H1 H2 H3|v H1 H2 H3] [s' G1 G2|v' G1 G2 G3|v' G1 G2 G3]; auto; try (exfalso; eauto; fail).
  - f_equal. eapply has_sharding_fun; eauto.
  - pose proof (Z _ _ H2 G2). congruence.
  - pose proof (Z _ _ H2 G2). congruence.
Qed.
Lemma partition_spec1_ok hs a : covered a -> (exists v, state_value a v) -> exists p, partition_spec1 hs a = Ok p /\ spec_of hs a p.
Proof.
  intros [W S] (v & V). destruct V as [->|(c & -> & N & <-)].
  - cbn. eexists. split; [reflexivity|]. destruct (hs v) eqn:E; [eapply spec_array|eapply spec_none]; eauto; (left; exact I) || (left; reflexivity).
  - unfold partition_spec1. pose proof (proj2 (smem_In "Node" (c_cls c)) N) as M. rewrite M. destruct S as [NS|(s & c' & E & _ & D)].
    + rewrite (sharding_of_none _ NS). cbn [rbind]. eexists. split; [reflexivity|]. destruct (hs (c_val c)) eqn:E; [eapply spec_array|eapply spec_none]; eauto; right; eauto.
    + injection E as <-. rewrite (sharding_of_some c s N D). cbn [rbind]. assert (H : has_sharding (ACont c) s) by (exists c; auto). destruct s as [|x s].
      * eexists. split; [reflexivity|]. destruct (hs (c_val c)) eqn:E; [eapply spec_array|eapply spec_none]; eauto; right; eauto.
      * eexists. split; [reflexivity|]. apply spec_sharded; [exact H|discriminate].
Qed.
Lemma get_partition_spec_ok hs s : (forall k a, In (k, a) s -> covered a /\ exists v, state_value a v) ->
  exists t, get_partition_spec hs s = Ok t /\ Forall2 (fun x y => fst x = fst y /\ spec_of hs (snd x) (snd y)) s t.
Proof.
  unfold get_partition_spec. induction s as [|[k a] s IH]; intros H.
  - exists []. split; [reflexivity|constructor].
  - destruct (H k a (or_introl eq_refl)) as [C V]. destruct (partition_spec1_ok hs a C V) as (p & E & P).
    destruct IH as (t & Et & F). { intros k' a' I. apply (H k' a'). now right. }
    exists ((k, p) :: t). cbn [rmapM fst snd]. rewrite E. cbn [rbind]. rewrite Et. cbn [rbind]. split; [reflexivity|]. constructor; auto.
Qed.
Lemma add_axis1_spec index n a b : (0 <= index)%Z -> covered a -> add_axis1 index n a = Ok b ->
  (no_sharding a /\ b = a) \/
  exists sh sh', has_sharding a sh /\ has_sharding b sh' /\ sh' = add_axis_entry index n sh /\ covered b /\ (forall v, state_value a v -> state_value b v).
Proof.
  intros H [W [NS|(s & c & -> & N & D)]] E.
  - left. unfold add_axis1 in E. rewrite (sharding_of_none a NS) in E. cbn in E. split; auto. congruence.
  - right. cbn in W. rewrite (add_axis1_some _ _ _ _ W N D) in E. injection E as <-. set (sh' := add_axis_entry index n s).
    assert (HS : has_sharding (ACont (with_sharding c (sharding_val sh'))) sh') by (eexists; split; [reflexivity|]; split; [exact N|cbn; apply dget_dset_same]).
    exists s, sh'. split; [exists c; auto|]. split; [exact HS|]. split; [reflexivity|]. split.
    + split; [cbn; eapply with_sharding_wf; eauto|]. right. eauto.
    + intros v [X|(c' & X & _ & <-)]; [discriminate|]. injection X as <-. right. eexists. split; [reflexivity|]. split; [exact N|reflexivity].
Qed.
Lemma add_axis_spec hs s index n t ps : (0 <= index)%Z -> (forall k a, In (k, a) s -> covered a /\ exists v, state_value a v) ->
  add_axis s index (Some n) = Ok t -> get_partition_spec hs s = Ok ps ->
  exists ps', get_partition_spec hs t = Ok ps' /\ map fst ps' = map fst ps /\
    forall i k a p, nth_error s i = Some (k, a) -> nth_error ps i = Some (k, p) ->
      (forall sh, has_sharding a sh -> nth_error ps' i = Some (k, Some (add_axis_entry index n sh))) /\
      (no_sharding a -> nth_error ps' i = Some (k, p)).
Proof.
  intros Hi. unfold add_axis, get_partition_spec. revert t ps. induction s as [|[k a] s IH]; intros t ps H A P.
  - cbn in A, P. injection A as <-. injection P as <-. exists []. split; [reflexivity|]. split; [reflexivity|]. intros [|i]; discriminate.
  - cbn [state_map rmapM fst snd] in A, P. destruct (H k a (or_introl eq_refl)) as [C [v V]].
    destruct (add_axis1 index n a) as [b|] eqn:Eb; [|discriminate]. cbn [rbind] in A. destruct (state_map _ s) as [t'|] eqn:Et; [|discriminate]. cbn [rbind] in A. injection A as <-.
    destruct (partition_spec1 hs a) as [p|] eqn:Ep; [|discriminate]. cbn [rbind] in P. destruct (rmapM _ s) as [ps0|] eqn:E0; [|discriminate]. cbn [rbind] in P. injection P as <-.
    destruct (IH t' ps0) as (ps' & E' & K & G); auto. { intros k' a' I. apply (H k' a'). now right. }
    cbn [rmapM fst snd]. assert (L : forall sh', sh' <> [] -> has_sharding b sh' -> covered b -> state_value b v -> partition_spec1 hs b = Ok (Some sh')).
    { intros sh' N1 HS Cb Vb. destruct (partition_spec1_ok hs b Cb (ex_intro _ v Vb)) as (q & Eq & Q). rewrite Eq. f_equal.
      eapply spec_of_fun; [exact Q|]. now apply spec_sharded. }
    destruct (add_axis1_spec _ _ _ _ Hi C Eb) as [[NS ->]|(sh & sh' & HS & HS' & Esh & Cb & Vb)].
    + rewrite Ep. cbn [rbind]. rewrite E'. cbn [rbind]. eexists. split; [reflexivity|]. split; [cbn; now rewrite K|].
      intros [|i] k' a' p' I1 I2; [|now apply G]. cbn in I1, I2. injection I1 as <- <-. injection I2 as <-. split; [|auto].
      intros sh (c & -> & N & D). exfalso. destruct NS as [X|[X|X]]; [contradiction|congruence|]. rewrite D in X. discriminate.
    + rewrite (L sh'); auto. 2:{ rewrite Esh. rewrite add_axis_entry_at by exact Hi. cbv zeta. intros X. apply app_eq_nil in X as [_ X]. discriminate. }
      cbn [rbind]. rewrite E'. cbn [rbind]. eexists. split; [reflexivity|]. split; [cbn; now rewrite K|].
      intros [|i] k' a' p' I1 I2; [|now apply G]. cbn in I1, I2. injection I1 as <- <-. injection I2 as <-. split.
      * intros sh0 H0. rewrite (has_sharding_fun _ _ _ H0 HS). cbn. congruence.
      * intros NS. exfalso. destruct HS as (c & -> & N & D). destruct NS as [X|[X|X]]; [contradiction|congruence|]. rewrite D in X. discriminate.
Qed.
