(** Proofs about LogicalM. *)
From Coq Require Import ZArith.
From Verif Require Import PyBase PyBaseFacts ValuesM Spec_Eq ValuesFacts StateM SpmdM LogicalM Spec_Spmd Spmd_proofs Spec_Logical ModuleM.
Local Open Scope string_scope.
Local Open Scope list_scope.

Lemma val_strs_map l : val_strs (map PyStr l) = Some l.
Proof. induction l as [|x l IH]; cbn; [reflexivity|]. rewrite IH. reflexivity. Qed.
Lemma val_names_val m : val_names (names_val m) = Some m.
Proof. destruct m; cbn; [reflexivity..|]. rewrite val_strs_map. reflexivity. Qed.
Lemma val_rules_val r : val_rules (rules_val r) = Some r.
Proof.
  destruct r as [l|]; [|reflexivity]. cbn. enough (E : val_rule_list (map (fun nm => PyTuple [PyStr (fst nm); names_val (snd nm)]) l) = Some l) by (rewrite E; reflexivity).
  induction l as [|[n m] l IH]; [reflexivity|]. cbn [map val_rule_list fst snd]. rewrite val_names_val, IH. reflexivity.
Qed.

Lemma layout_exists current dims rules : distinct_names dims ->
  exists out, logical_to_mesh_axes current (Some dims) rules = Ok (Some out) /\
    laid_out dims (match rules with Some r => r | None => current end) out.
Proof.
  intros D. destruct (proj1 (duplicates_spec current dims rules) D) as (out & E). exists out. split; [exact E|].
  exact (logical_axes_spec current dims rules out E).
Qed.
Lemma constraint_asked current spec rules :
  asked spec True (match rules with Some r => r | None => current end)
    (with_logical_constraint true current spec rules AxisIsUnsharded).
Proof.
  set (rs := match rules with Some r => r | None => current end).
  destruct spec as [dims|].
  2:{ rewrite constraint_untouched by (right; reflexivity). apply asked_no_rules. right. reflexivity. }
  destruct rs as [|x rs'] eqn:R.
  { rewrite constraint_untouched by (left; exact R). apply asked_no_rules. left. reflexivity. }
  assert (E : with_logical_constraint true current (Some dims) rules AxisIsUnsharded =
    do r <- logical_to_mesh_axes current (Some dims) rules; Ok (Constrain r)).
  { unfold with_logical_constraint. fold rs. rewrite R. unfold constraint_one_fallback, logical_to_mesh_axes, logical_to_mesh_entries.
    replace (match rules with None => current | Some r => r end) with (x :: rs'). destruct (has_dups dims); reflexivity. }
  rewrite E. destruct (has_dups dims) eqn:H.
  - assert (N : ~ distinct_names dims) by (intros D; apply has_dups_spec in D; congruence).
    rewrite (proj2 (duplicates_spec current dims rules) N). cbn [rbind].
    eapply asked_twice; eauto. discriminate.
  - apply has_dups_spec in H. destruct (layout_exists current dims rules H) as (out & L & O). rewrite L. cbn [rbind].
    eapply asked_layout; eauto; [discriminate|]. fold rs in O. rewrite R in O. exact O.
Qed.
Lemma asked_mono spec (P Q : Prop) rs r : (P <-> Q) -> asked spec P rs r -> asked spec Q rs r.
Proof.
  intros H A. destruct A.
  - apply asked_no_mesh. tauto.
  - apply asked_no_rules. assumption.
  - eapply asked_layout; eauto. tauto.
  - eapply asked_twice; eauto. tauto.
Qed.
Lemma mesh_given_spec mesh : mesh_given mesh = true <-> mesh <> PyNone.
Proof. destruct mesh; cbn; split; intros; congruence. Qed.
Lemma mesh_or g mesh : g || mesh_given mesh = true <-> (g = true \/ mesh <> PyNone).
Proof. rewrite Bool.orb_true_iff, mesh_given_spec. tauto. Qed.

Theorem new_asked g current s mesh rules :
  asked s (g = true \/ mesh <> PyNone) (match rules with Some r => r | None => current end) (constrain_new g current s mesh rules).
Proof.
  unfold constrain_new. destruct (g || mesh_given mesh) eqn:M.
  - eapply asked_mono; [|apply constraint_asked]. apply mesh_or in M. tauto.
  - apply asked_no_mesh. intros H. apply mesh_or in H. congruence.
Qed.

Lemma spec1_of has_shape c fn s mesh rules : partitioned c fn s mesh rules ->
  partition_spec1 has_shape (ACont c) = Ok (match s with Some (x :: t) => Some (x :: t) | _ => if has_shape (c_val c) then Some [] else None end).
Proof.
  intros (N & _ & S & _). unfold partition_spec1. rewrite (proj2 (smem_In _ _) N).
  destruct s as [s|].
  - rewrite (sharding_of_some c s N S). cbn [rbind]. destruct s; reflexivity.
  - rewrite sharding_of_none by (right; right; exact S). reflexivity.
Qed.
Theorem read_asked has_shape g current c fn s mesh rules : partitioned c fn s mesh rules ->
  exists p r, spec_of has_shape (ACont c) p /\
    asked p (g = true \/ mesh <> PyNone) (match rules with Some r => r | None => current end) r /\
    unbox has_shape g current c = rmap (fun k => (c_val c, k)) r.
Proof.
  intros P. pose proof (spec1_of has_shape c fn s mesh rules P) as S1. destruct P as (N & U & S & M & R).
  set (p := match s with Some (x :: t) => Some (x :: t) | _ => if has_shape (c_val c) then Some [] else None end) in *.
  assert (SP : spec_of has_shape (ACont c) p).
  { assert (V : state_value (ACont c) (c_val c)) by (right; exists c; auto).
    assert (Q : s = None \/ s = Some [] -> no_sharding (ACont c) \/ has_sharding (ACont c) []).
    { intros [-> | ->]; [left; right; right; exact S|right; exists c; auto]. }
    subst p. destruct s as [[|x t]|]; [destruct (has_shape (c_val c)) eqn:H| |destruct (has_shape (c_val c)) eqn:H];
      try (eapply spec_array; eauto); try (eapply spec_none; eauto).
    apply spec_sharded; [|discriminate]. exists c. auto. }
  unfold unbox. rewrite M, R, S, val_rules_val, S1. cbn [rbind].
  destruct (g || mesh_given mesh) eqn:G.
  - exists p, (with_logical_constraint true current p rules AxisIsUnsharded). split; [exact SP|]. split.
    + eapply asked_mono; [|apply constraint_asked]. apply mesh_or in G. tauto.
    + destruct (with_logical_constraint _ _ _ _ _); reflexivity.
  - exists p, (Ok AsIs). split; [exact SP|]. split; [|reflexivity]. apply asked_no_mesh. intros H. apply mesh_or in H. congruence.
Qed.
Theorem read_as_created has_shape g current c fn s mesh rules : partitioned c fn (Some s) mesh rules -> s <> [] ->
  unbox has_shape g current c = rmap (fun k => (c_val c, k)) (constrain_new g current (Some s) mesh rules).
Proof.
  intros P H. pose proof (spec1_of has_shape c fn _ mesh rules P) as S1. destruct P as (N & U & S & M & R).
  unfold unbox, constrain_new. rewrite M, R, S, val_rules_val, S1. cbn [rbind].
  destruct (g || mesh_given mesh); [|reflexivity]. destruct s as [|x t]; [congruence|].
  destruct (with_logical_constraint _ _ _ _ _); reflexivity.
Qed.

(** ** Making the variable *)
Lemma logical_metadata_ok fn s mesh rules md : (forall k, In k (keys md) -> ~ In k logical_names) ->
  logical_metadata fn s mesh rules md =
  Ok ([("unbox_fn", fn_val fn); ("sharding", match s with Some s => sharding_val s | None => PyNone end); ("mesh", mesh); ("rules", rules_val rules)] ++ md).
Proof.
  intros H. unfold logical_metadata. destruct (existsb _ _) eqn:E; [|reflexivity].
  apply existsb_exists in E. destruct E as (k & I & M). apply smem_In in M. destruct (H k I M).
Qed.
Lemma logical_metadata_bad fn s mesh rules md k : In k (keys md) -> In k logical_names ->
  logical_metadata fn s mesh rules md = Err TypeError.
Proof.
  intros I J. unfold logical_metadata. replace (existsb _ _) with true; [reflexivity|]. symmetry. apply existsb_exists.
  exists k. split; [exact I|]. apply smem_In. exact J.
Qed.
Lemma nodup_meta fn s mesh rules md : NoDup (keys md) -> (forall k, In k (keys md) -> ~ In k logical_names) ->
  NoDup (keys ([("unbox_fn", fn_val fn); ("sharding", match s with Some s => sharding_val s | None => PyNone end); ("mesh", mesh); ("rules", rules_val rules)] ++ md)).
Proof.
  intros N H. cbn. assert (F : forall k, In k logical_names -> ~ In k (keys md)) by (intros k A B; exact (H k B A)).
  repeat constructor; try exact N; cbn; intros K; repeat (destruct K as [K|K]; [discriminate|]); revert K; apply F; cbn; tauto.
Qed.
Lemma dupdate_head {A} k (m : dict A) : forall x t, exists x' t', dupdate ((k, x) :: t) m = (k, x') :: t'.
Proof.
  induction m as [|[j v] m IH]; intros x t; [exists x, t; reflexivity|]. rewrite dupdate_cons. cbn [fst snd dset].
  destruct (String.eqb j k) eqn:Q; [apply String.eqb_eq in Q; subst j|]; apply IH.
Qed.
Theorem variable_made c fn s mesh rules md kw y (meta : dict pyval) :
  smem "Static" c = false -> In "Variable" c -> In "Node" c -> In "Container" c ->
  NoDup (keys kw) -> ~ In "value" (keys kw) ->
  NoDup (keys md) -> ~ In "value" (keys md) ->
  logical_metadata fn s mesh rules md = Ok meta ->
  exists v, container_call c (CMeta y meta) kw = Ok v /\ c_cls v = c /\ c_val v = y /\ wf_container v /\
    partitioned v fn s mesh rules /\
    (forall k x, In (k, x) md -> dget k (c_meta v) = Some x) /\
    (forall k x, In (k, x) kw -> ~ In k (keys meta) -> dget k (c_meta v) = Some x).
Proof.
  intros St Va No Co Nk Vk Nm Vm L.
  assert (H : forall k, In k (keys md) -> ~ In k logical_names).
  { intros k I J. rewrite (logical_metadata_bad fn s mesh rules md k I J) in L. discriminate. }
  rewrite logical_metadata_ok in L by exact H. injection L as <-. pose proof (nodup_meta fn s mesh rules md Nm H) as ND.
  set (meta := [("unbox_fn", fn_val fn); ("sharding", match s with Some s => sharding_val s | None => PyNone end); ("mesh", mesh); ("rules", rules_val rules)] ++ md) in *.
  unfold container_call, container_init, init_meta. rewrite St, (proj2 (smem_In _ _) Va).
  set (md0 := match dget "sharding" kw with Some s => ("sharding", s) :: ddel "sharding" kw | None => ("sharding", PyNone) :: kw end).
  assert (E : (match dget "sharding" kw with Some s => Ok (("sharding", s) :: ddel "sharding" kw) | None => Ok (("sharding", PyNone) :: kw) end) = Ok md0)
    by (unfold md0; destruct (dget "sharding" kw); reflexivity).
  rewrite E. cbn [rbind].
  assert (N0 : NoDup (keys md0)).
  { unfold md0. destruct (dget "sharding" kw) eqn:D; cbn; constructor.
    - apply dget_None. apply dget_ddel_same. exact Nk.
    - apply NoDup_keys_ddel. exact Nk.
    - apply dget_None. exact D.
    - exact Nk. }
  assert (K0 : forall k, k <> "sharding" -> dget k md0 = dget k kw).
  { intros k Hk. unfold md0. destruct (dget "sharding" kw) eqn:D; cbn;
      rewrite (proj2 (String.eqb_neq _ _) (fun e => Hk e)) || rewrite (proj2 (String.eqb_neq _ _) (fun e => Hk (eq_sym e))); try reflexivity.
    apply dget_ddel_other. exact Hk. }
  assert (NV : ~ In "value" (keys (dupdate md0 meta))).
  { rewrite In_keys_dupdate. intros [K|K].
    - unfold meta in K. cbn in K. repeat (destruct K as [K|K]; [discriminate|]). exact (Vm K).
    - apply dget_Some_keys in K. destruct K as (x & K). rewrite K0 in K by discriminate. apply dget_In_keys in K. exact (Vk K). }
  rewrite ddel_absent by exact NV. eexists. split; [reflexivity|]. cbn [c_cls c_val c_meta].
  assert (G : forall k, dget k (dupdate md0 meta) = match dget k meta with Some x => Some x | None => dget k md0 end).
  { intros k. rewrite dget_dupdate_rev. rewrite (dget_perm k (rev meta) meta); [reflexivity| |].
    - apply (Permutation.Permutation_NoDup (l := keys meta)); [|exact ND]. unfold keys. apply Permutation.Permutation_map. apply Permutation.Permutation_rev.
    - apply Permutation.Permutation_sym. apply Permutation.Permutation_rev. }
  split; [reflexivity|]. split; [reflexivity|]. split.
  { split; [apply NoDup_keys_dupdate; exact N0|]. split; [exact NV|]. split; [exact Co|].
    split; [intros Q; cbn [c_cls] in Q; rewrite St in Q; discriminate|].
    intros _ _. cbn [c_meta].
    assert (X : exists x t, md0 = ("sharding", x) :: t) by (unfold md0; destruct (dget "sharding" kw); eauto).
    destruct X as (x & t & X). rewrite X. apply dupdate_head. }
  split.
  { split; [exact No|]. cbn [c_meta]. rewrite !G. unfold meta. repeat split. }
  split.
  - intros k x I. rewrite G. assert (K : In k (keys md)) by (apply in_map_iff; exists (k, x); auto).
    unfold meta. rewrite dget_app.
    assert (O : dget k [("unbox_fn", fn_val fn); ("sharding", match s with Some s => sharding_val s | None => PyNone end); ("mesh", mesh); ("rules", rules_val rules)] = None).
    { apply dget_None. intros J. apply (H k K). cbn in J. cbn. tauto. }
    rewrite O, (In_dget k x md Nm I). reflexivity.
  - intros k x I J. rewrite G. rewrite (proj2 (dget_None k meta) J), K0; [apply In_dget; assumption|].
    intros ->. apply J. unfold meta. cbn. tauto.
Qed.

(** ** Writing the attribute *)
Theorem assigned_keeps c fn s mesh rules v : wf_container c -> partitioned c fn s mesh rules ->
  exists d, assign_value (Some (ACont c)) (ARaw v) = Ok (ACont d) /\ c_val d = v /\ c_cls d = c_cls c /\ wf_container d /\ partitioned d fn s mesh rules.
Proof.
  intros W P. cbn [assign_value]. rewrite (replace_value c (ARaw v) W). cbn.
  eexists. split; [reflexivity|]. split; [reflexivity|]. split; [reflexivity|]. split; [apply wf_container_val; exact W|exact P].
Qed.
Theorem other_function c d fn gn s mesh rules s' mesh' rules' :
  partitioned c fn s mesh rules -> partitioned d gn s' mesh' rules' -> fn <> gn ->
  is_equivalent c d = false /\ assign_value (Some (ACont c)) (ACont d) = Err ValueError.
Proof.
  intros (_ & U & _) (_ & U' & _) H.
  assert (E : is_equivalent c d = false).
  { destruct (is_equivalent c d) eqn:E; [|reflexivity]. exfalso. unfold is_equivalent in E. apply Bool.andb_true_iff in E. destruct E as [_ E].
    unfold dict_eqb in E. apply Bool.andb_true_iff in E. destruct E as [_ E]. rewrite forallb_forall in E.
    apply dget_In in U. apply E in U. cbn [fst snd] in U. rewrite U' in U. apply pyval_eqb_eq, py_eq_obj in U. congruence. }
  split; [exact E|]. cbn [assign_value container_replace]. unfold container_replace. rewrite E. reflexivity.
Qed.
Lemma same_equivalent c y y' meta kw v v' : container_call c (CMeta y meta) kw = Ok v -> container_call c (CMeta y' meta) kw = Ok v' ->
  wf_container v -> is_equivalent v v' = true.
Proof.
  unfold container_call, container_init. destruct (init_meta c kw); [|discriminate]. cbn [rbind]. intros E E' W.
  injection E as E. injection E' as E'. assert (Q : is_equivalent v v' = is_equivalent v v) by (subst v v'; reflexivity).
  rewrite Q. apply is_equivalent_refl. exact W.
Qed.

(** ** Trees *)
Fixpoint tree_size {A} (t : spec_tree A) : nat :=
  match t with TNode l => S (list_sum (map (fun kt => S (tree_size (snd kt))) l)) | _ => 1 end.
Fixpoint tree_maps {A B} (f : A -> result B) (l : list (string * spec_tree A)) : result (list (string * spec_tree B)) :=
  match l with
  | [] => Ok []
  | (k, u) :: l' => do v <- tree_map f u; do l2 <- tree_maps f l'; Ok ((k, v) :: l2)
  end.
Lemma tree_map_node {A B} (f : A -> result B) l : tree_map f (TNode l) = rmap TNode (tree_maps f l).
Proof. cbn [tree_map]. f_equal. induction l as [|[k t] l IH]; [reflexivity|]. cbn [tree_maps]. rewrite <- IH. reflexivity. Qed.
Lemma tree_map_ok {A B} (f : A -> result B) (R : A -> B -> Prop) :
  forall n t, tree_size t < n -> (forall a, spec_in a t -> exists b, f a = Ok b /\ R a b) ->
  exists u, tree_map f t = Ok u /\ tree_rel R t u.
Proof.
  induction n as [|n IH]; intros t L H; [lia|]. destruct t as [|a|l].
  - exists TNone. split; [reflexivity|constructor].
  - destruct (H a (si_leaf a)) as (b & E & Rb). exists (TSpec b). cbn. rewrite E. split; [reflexivity|constructor; exact Rb].
  - rewrite tree_map_node. cbn [tree_size] in L.
    enough (Q : exists m, tree_maps f l = Ok m /\ trees_rel R l m).
    { destruct Q as (m & E & T). exists (TNode m). rewrite E. split; [reflexivity|constructor; exact T]. }
    assert (H' : forall k t, In (k, t) l -> forall a, spec_in a t -> exists b, f a = Ok b /\ R a b).
    { intros k t I a J. apply H. eapply si_node; eauto. }
    clear H. induction l as [|[k t] l IHl]; [exists []; split; [reflexivity|constructor]|].
    cbn in L. destruct (IH t) as (u & E & T); [lia|exact (H' k t (or_introl eq_refl))|].
    destruct IHl as (m & E' & T'); [unfold list_sum; lia|intros k' t' I; apply (H' k' t'); right; exact I|].
    exists ((k, u) :: m). cbn [tree_maps]. rewrite E. cbn [rbind]. rewrite E'. split; [reflexivity|constructor; assumption].
Qed.
Lemma tree_map_dec {A B} (f : A -> result B) (e : exn) : (forall a, (exists b, f a = Ok b) \/ f a = Err e) ->
  forall n t, tree_size t < n -> (exists u, tree_map f t = Ok u) \/ tree_map f t = Err e.
Proof.
  intros D. induction n as [|n IH]; intros t L; [lia|]. destruct t as [|a|l].
  - left. cbn. eauto.
  - cbn. destruct (D a) as [(b & ->) | ->]; [left; cbn; eauto|right; reflexivity].
  - rewrite tree_map_node. cbn [tree_size] in L.
    enough (Q : (exists m, tree_maps f l = Ok m) \/ tree_maps f l = Err e).
    { destruct Q as [(m & ->) | ->]; [left; cbn; eauto|right; reflexivity]. }
    induction l as [|[k t] l IHl]; [left; cbn; eauto|]. cbn in L. cbn [tree_maps].
    destruct (IH t) as [(u & ->) | ->]; [lia| |right; reflexivity]. cbn [rbind].
    destruct IHl as [(m & ->) | ->]; [unfold list_sum; lia|left; cbn [rbind]; eauto|right; reflexivity].
Qed.
Lemma tree_map_err {A B} (f : A -> result B) (e : exn) : (forall a, (exists b, f a = Ok b) \/ f a = Err e) ->
  forall a t, spec_in a t -> f a = Err e -> tree_map f t = Err e.
Proof.
  intros D a t H F. induction H as [|k t l I J IH]; [cbn; rewrite F; reflexivity|].
  rewrite tree_map_node. enough (Q : tree_maps f l = Err e) by (rewrite Q; reflexivity).
  induction l as [|[k' t'] l IHl]; [destruct I|]. cbn [tree_maps].
  destruct I as [I|I].
  - injection I as -> ->. rewrite IH. reflexivity.
  - destruct (tree_map_dec f e D (S (tree_size t')) t') as [(u & ->) | ->]; [lia| |reflexivity]. cbn [rbind].
    rewrite IHl by exact I. reflexivity.
Qed.

Theorem mesh_tree current rules t : let rs := match rules with Some r => r | None => current end in
  ((forall s, spec_in s t -> distinct_names s) ->
     exists u, logical_to_mesh current rules t = Ok u /\ tree_rel (fun s m => laid_out s rs m) t u) /\
  ((exists s, spec_in s t /\ ~ distinct_names s) -> logical_to_mesh current rules t = Err ValueError).
Proof.
  intros rs. split.
  - intros H. apply (tree_map_ok _ _ (S (tree_size t))); [lia|]. intros s I.
    destruct (layout_exists current s rules (H s I)) as (out & E & L). exists out. rewrite E. split; [reflexivity|exact L].
  - intros (s & I & N). unfold logical_to_mesh. eapply tree_map_err; [|exact I|].
    + intros a. destruct (has_dups a) eqn:Q.
      * right. rewrite (proj2 (duplicates_spec current a rules)); [reflexivity|]. intros D. apply has_dups_spec in D. congruence.
      * left. apply has_dups_spec in Q. destruct (layout_exists current a rules Q) as (out & E & _). rewrite E. cbn. eauto.
    + rewrite (proj2 (duplicates_spec current s rules) N). reflexivity.
Qed.
Scheme tree_rel_mut := Induction for tree_rel Sort Prop with trees_rel_mut := Induction for trees_rel Sort Prop.
Lemma tree_rel_pair {A B C} (R : A -> B -> Prop) (f : B -> C) t u : tree_rel R t u ->
  exists v, tree_map (fun b => Ok (f b)) u = Ok v /\ tree_rel (fun a c => exists b, c = f b /\ R a b) t v.
Proof.
  intros H. refine (tree_rel_mut A B R
    (fun t u _ => exists v, tree_map (fun b => Ok (f b)) u = Ok v /\ tree_rel (fun a c => exists b, c = f b /\ R a b) t v)
    (fun l m _ => exists v, tree_maps (fun b => Ok (f b)) m = Ok v /\ trees_rel (fun a c => exists b, c = f b /\ R a b) l v) _ _ _ _ _ t u H).
  - exists TNone. split; [reflexivity|constructor].
  - intros a b r. exists (TSpec (f b)). split; [reflexivity|constructor; eauto].
  - intros l m _ (v & E & T). exists (TNode v). rewrite tree_map_node, E. split; [reflexivity|constructor; exact T].
  - exists []. split; [reflexivity|constructor].
  - intros k t0 u0 l m _ (v & E & T) _ (vs & E' & T'). exists ((k, v) :: vs). cbn [tree_maps]. rewrite E. cbn [rbind]. rewrite E'.
    split; [reflexivity|constructor; assumption].
Qed.
Theorem sharding_tree current rules mesh t : let rs := match rules with Some r => r | None => current end in
  (forall s, spec_in s t -> distinct_names s) ->
  exists u, logical_to_mesh_sharding current rules mesh t = Ok u /\
    tree_rel (fun s mm => fst mm = mesh /\ laid_out s rs (snd mm)) t u.
Proof.
  intros rs H. destruct (proj1 (mesh_tree current rules t) H) as (u & E & T).
  destruct (tree_rel_pair _ (fun m => (mesh, m)) t u T) as (v & E' & T'). exists v. unfold logical_to_mesh_sharding. rewrite E. cbn [rbind].
  split; [exact E'|]. revert T'. clear. fold rs.
  intros T'. refine (tree_rel_mut _ _ _
    (fun t u _ => tree_rel (fun s mm => fst mm = mesh /\ laid_out s rs (snd mm)) t u)
    (fun l m _ => trees_rel (fun s mm => fst mm = mesh /\ laid_out s rs (snd mm)) l m) _ _ _ _ _ t v T'); try (intros; constructor; assumption).
  intros a b (m & -> & L). constructor. split; [reflexivity|exact L].
Qed.

(** the shardings of a State: partition specs, then rules, then a mesh *)
Theorem state_shardings has_shape current rules mesh (s : state) : let rs := match rules with Some r => r | None => current end in
  (forall k a, In (k, a) s -> covered a /\ exists v, state_value a v) ->
  (forall k a dims, In (k, a) s -> has_sharding a dims -> distinct_names dims) ->
  exists t u, get_partition_spec has_shape s = Ok t /\ logical_to_mesh_sharding current rules mesh (spec_state t) = Ok (TNode u) /\
    Forall2 (fun x y => fst x = fst y /\ exists p, spec_of has_shape (snd x) p /\
      match p with None => snd y = TNone | Some dims => exists out, snd y = TSpec (mesh, out) /\ laid_out dims rs out end) s u.
Proof.
  intros rs C D. destruct (get_partition_spec_ok has_shape s C) as (t & E & F). exists t.
  assert (H : forall dims, spec_in dims (spec_state t) -> distinct_names dims).
  { intros dims I. unfold spec_state in I. inversion I as [|k tr l J I']. subst. apply in_map_iff in J. destruct J as ([k' p] & J & K).
    cbn [fst snd] in J. injection J as <- <-. destruct p as [q|]; inversion I'; subst.
    assert (X : exists a, In (k', a) s /\ spec_of has_shape a (Some q)).
    { clear - F K. induction F as [|[k a] [k2 p2] s t (E & S) F IH]; [destruct K|]. cbn [fst snd] in *. destruct K as [K|K].
      - injection K as -> ->. subst k. exists a. split; [left; reflexivity|exact S].
      - destruct (IH K) as (a' & I & S'). exists a'. split; [right; exact I|exact S']. }
    destruct X as (a & Ia & S). inversion S; subst; [eapply D; eauto|]. intros i j x Q. destruct i; discriminate. }
  destruct (sharding_tree current rules mesh (spec_state t) H) as (u & E' & T). fold rs in T.
  unfold spec_state in T. inversion T as [| |l m T']. subst. exists m. split; [exact E|]. split; [exact E'|].
  clear - F T'. revert m T'. induction F as [|[k a] [k2 p2] s t (E & S) F IH]; intros m T'.
  - inversion T'. constructor.
  - cbn [map fst snd] in *. inversion T' as [|k' t1 u1 l1 m1 T1 T2]. subst. constructor; [|apply IH; exact T2].
    cbn [fst snd]. split; [reflexivity|]. exists p2. split; [exact S|]. destruct p2 as [dims|]; inversion T1; subst; [|reflexivity].
    destruct b as [mm out]. cbn [fst snd] in *. destruct H0 as (-> & L). exists out. split; [reflexivity|exact L].
Qed.
