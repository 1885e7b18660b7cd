(** Alias2_proofs: whole programs on container objects. *)
From Verif Require Import PyBase PyBaseFacts ValuesM FiltersM StateM ModuleM AliasM Spec_Alias Alias_proofs.
From Coq Require Import Permutation.
Local Open Scope string_scope.
Local Open Scope list_scope.

(** ** simulation of one statement *)
Definition fvalid (f : conf rworld rattr rdef) : Prop :=
  let n := List.length (rw_cells (f_world f)) in
  wvalid (f_world f) /\ (forall d, In d (f_defs f) -> defall (rvalid n) d) /\ svalid n (f_states f) /\ (forall a, In a (f_vals f) -> rvalid n a).

Lemma defall_imp (P Q : rattr -> Prop) d : (forall a, P a -> Q a) -> defall P d -> defall Q d.
Proof.
  intro H. induction d as [i|c i subs st ini IH] using rdef_ind'; [trivial|]. rewrite !defall_DDef. intros [H1 H2]. split.
  - intros n d j. rewrite Forall_forall in IH. apply (IH (n, d) j), (H1 n d j).
  - intros n a j. apply H, (H2 n a j).
Qed.

Lemma with_world_view f w' : fvalid f -> grows (f_world f) w' -> vconf (with_world f w') = with_world (vconf f) (view w') /\ fvalid (with_world f w').
Proof.
  intros (V & Vd & Vs & Va) G. pose proof (grows_len _ _ G) as L. destruct G as [[e E] Vw]. split.
  - unfold vconf, with_world. cbn. rewrite E. f_equal.
    + apply map_ext_in. intros d i. apply vdef_ext, Vd, i.
    + apply map_ext_in. intros s i. apply vmap_look_ext, Vs, i.
    + apply map_ext_in. intros a i. apply look_ext, Va, i.
  - split; [apply Vw, V|]. cbn. split; [|split].
    + intros d i. refine (defall_imp _ _ _ _ (Vd d i)). intro a. apply rvalid_mono, L.
    + intros s i x a j. apply (rvalid_mono _ _ _ L). apply (Vs s i x a j).
    + intros a i. apply (rvalid_mono _ _ _ L). apply (Va a i).
Qed.

(** definitions: the static fields are attributes that are not nodes *)
Lemma make_fields_In cs nt (rec : nat -> list nat -> result (rdef * list nat)) (P : rattr -> Prop) l :
  (forall n a, In (n, a) l -> is_node nt (look cs a) = false -> P a) ->
  (forall r mi d m2, rec r mi = Ok (d, m2) -> defall P d) ->
  forall mi subs st m2, rmake_fields rec nt cs l mi = Ok (subs, st, m2) -> subsall P subs /\ forall n a, In (n, a) st -> P a.
Proof.
  intros Hl Hr. induction l as [|[n b] t IH]; intros mi subs st m2 E; cbn [rmake_fields] in E.
  - inversion E; subst. split; [intros ? ? []|intros ? ? []].
  - specialize (IH (fun n a j => Hl n a (or_intror j))).
    assert (D : (do (subs, st, mi2) <- rmake_fields rec nt cs t mi;
        if negb (is_node nt (look cs b)) && negb (starts_with "_module__" n) then Ok (subs, (n, b) :: st, mi2) else Ok (subs, st, mi2)) = Ok (subs, st, m2)
        -> subsall P subs /\ forall n a, In (n, a) st -> P a).
    { intro E'. destruct (rmake_fields rec nt cs t mi) as [[[su st'] m3]|e] eqn:Et; [|discriminate]. cbn [rbind] in E'.
      destruct (IH _ _ _ _ Et) as [I1 I2]. destruct (negb (is_node nt (look cs b))) eqn:Nb; cbn [andb] in E'.
      - destruct (negb (starts_with "_module__" n)); inversion E'; subst; (split; [exact I1|]); [|exact I2].
        intros n' a [i|i]; [|apply (I2 n' a i)]. inversion i; subst. apply (Hl n' a (or_introl eq_refl)). destruct (is_node nt (look cs a)); [discriminate|reflexivity].
      - inversion E'; subst. auto. }
    destruct b as [v|k]; [destruct v|]; try (apply D; exact E).
    destruct (rec r mi) as [[d m1]|e] eqn:Er; [|discriminate]. cbn [rbind] in E.
    destruct (rmake_fields rec nt cs t m1) as [[[su st'] m3]|e] eqn:Et; [|discriminate]. cbn in E. inversion E; subst.
    destruct (IH _ _ _ _ Et) as [I1 I2]. split; [|exact I2]. intros n' d' [i|i]; [inversion i; subst; apply (Hr _ _ _ _ Er)|apply (I1 n' d' i)].
Qed.
Lemma make_def_In w (P : rattr -> Prop) fuel :
  (forall r o n a, rget_obj w r = Some o -> In (n, a) (ro_vars o) -> is_node (rw_nodes w) (look (rw_cells w) a) = false -> P a) ->
  forall r mi d m2, rmake_def fuel w r mi = Ok (d, m2) -> defall P d.
Proof.
  intro H. induction fuel as [|n IH]; intros r mi d m2 E; [discriminate|]. cbn in E.
  destruct (rget_obj w r) as [o|] eqn:G; [|discriminate]. destruct (index_of (ro_id o) mi); [inversion E; subst; exact Logic.I|].
  destruct (rmake_fields (rmake_def n w) (rw_nodes w) (rw_cells w) (sort_by_key (ro_vars o)) (mi ++ [ro_id o])) as [[[su st] m3]|e] eqn:Ef; [|discriminate].
  cbn in E. inversion E; subst. apply defall_DDef. refine (make_fields_In _ _ _ P _ _ IH _ _ _ _ Ef).
  intros n' a j. apply (H r o n' a G). apply (Permutation_in _ (sort_perm (ro_vars o)) j).
Qed.
Lemma def_In w (P : rattr -> Prop) r d :
  (forall r o n a, rget_obj w r = Some o -> In (n, a) (ro_vars o) -> is_node (rw_nodes w) (look (rw_cells w) a) = false -> P a) ->
  rget_module_def w r = Ok d -> defall P d.
Proof.
  intros H E. unfold rget_module_def in E. destruct (rmake_def _ w r []) as [[d' m]|e] eqn:Em; [|discriminate]. cbn [rbind] in E.
  pose proof (make_def_In w P _ H _ _ _ _ Em) as D. destruct d'; [discriminate|]. inversion E; subst. exact D.
Qed.

(** partition, filter: the entries are entries of the State *)
Lemma put_at_In {A} i path (v : A) : forall l s x b, In s (gput_at i path v l) -> In (x, b) s -> (x = path /\ b = v) \/ exists s', In s' l /\ In (x, b) s'.
Proof.
  induction i as [|i IH]; intros [|d t] s x b H J; [destruct H| |destruct H|]; cbn in H; destruct H as [H|H].
  - subst s. destruct (In_dset' _ _ _ _ _ J) as [K|K]; [auto|]. right. exists d. split; [left; reflexivity|exact K].
  - right. exists s. split; [right; exact H|exact J].
  - subst s. right. exists d. split; [left; reflexivity|exact J].
  - destruct (IH t s x b H J) as [K|(s' & K1 & K2)]; [auto|]. right. exists s'. split; [right; exact K1|exact K2].
Qed.
Lemma split_In w s fs l : rsplit_state w s fs = Ok l -> forall d x b, In d l -> In (x, b) d -> In (x, b) s.
Proof.
  unfold rsplit_state. destruct (ellipsis_misplaced fs); [discriminate|]. destruct (rmapM to_predicate fs) as [ps|e]; [|discriminate].
  cbn. intros E d x b. inversion E as [E']. clear E. unfold rsplit_loop in E'.
  assert (H : forall items acc, (forall d x b, In d acc -> In (x, b) d -> In (x, b) s) -> (forall x b, In (x, b) items -> In (x, b) s) ->
     forall d x b, In d (fold_left (fun acc kv => gput_at (route ps (fst kv) (look (rw_cells w) (snd kv))) (fst kv) (snd kv) acc) items acc) -> In (x, b) d -> In (x, b) s).
  { induction items as [|[n a] t IH]; intros acc H1 H2 d' x' b' I J; [apply (H1 d' x' b' I J)|]. cbn [fold_left fst snd] in I.
    refine (IH _ _ _ d' x' b' I J).
    - intros d2 x2 b2 I2 J2. destruct (put_at_In _ _ _ _ _ _ _ I2 J2) as [[e1 e2]|(s' & K1 & K2)]; [subst; apply H2; left; reflexivity|apply (H1 s' x2 b2 K1 K2)].
    - intros x2 b2 I2. apply H2. right. exact I2. }
  subst l. apply H; [|trivial]. intros d' x' b' i. rewrite (repeat_spec _ _ _ i). intros [].
Qed.
Lemma removelast_In {A} (l : list A) x : In x (removelast l) -> In x l.
Proof. induction l as [|y [|z t] IH]; [trivial|intros []|]. intros [e|e]; [left; exact e|right; apply IH, e]. Qed.
Lemma rfilter_In w s fs l : rfilter w s fs = Ok l -> forall d x b, In d l -> In (x, b) d -> In (x, b) s.
Proof.
  unfold rfilter. destruct (rsplit_state w s fs) as [l'|e] eqn:E; [|discriminate]. cbn. intros E' d x b i j. inversion E'; subst.
  apply in_map_iff in i. destruct i as (d' & E2 & i). subst d. apply In_gmk in j. apply (split_In w s fs l' E d' x b (removelast_In _ _ i) j).
Qed.
Lemma part_In w s fs l : rpartition w s fs = Ok l -> forall d x b, In d l -> In (x, b) d -> In (x, b) s.
Proof.
  unfold rpartition. destruct fs as [|f t]; [intros E d x b i j; inversion E; subst; destruct i as [i|[]]; subst; exact j|].
  destruct (rsplit_state w s (f :: t)) as [l'|e] eqn:E; [|discriminate]. cbn [rbind]. destruct (last l' []); [|discriminate].
  intros E' d x b i j. inversion E'; subst.
  apply in_map_iff in i. destruct i as (d' & E2 & i). subst d. apply In_gmk in j. apply (split_In w s _ l' E d' x b (removelast_In _ _ i) j).
Qed.
Lemma or_In {A} (s t : dict A) x : In x (gstate_or s t) -> In x s \/ In x t.
Proof.
  unfold gstate_or. destruct t as [|y t']; [auto|]. unfold gstate_merge. intro i. apply In_gmk in i.
  destruct (In_fold _ _ _ i) as [[]|(s' & [E|[E|[]]] & j)]; subst; auto.
Qed.
Lemma sub_In {A} (s t : dict A) x : In x (gstate_sub s t) -> In x s.
Proof. unfold gstate_sub. destruct t; [trivial|]. intro i. apply List.filter_In in i. apply i. Qed.

Lemma vars_of_map {A B} (g : A -> B) l xs : vars_of (map g l) xs = option_map (map g) (vars_of l xs).
Proof.
  induction xs as [|x t IH]; [reflexivity|]. cbn. rewrite nth_error_map, IH. destruct (nth_error l x); [|reflexivity].
  destruct (vars_of l t); reflexivity.
Qed.
Lemma vars_of_In {A} (l : list A) xs ys : vars_of l xs = Some ys -> forall y, In y ys -> In y l.
Proof.
  revert ys. induction xs as [|x t IH]; intros ys E y i; cbn in E; [inversion E; subst; destruct i|].
  destruct (nth_error l x) eqn:N; [|discriminate]. destruct (vars_of l t) as [bs|]; [|discriminate]. inversion E; subst.
  destruct i as [i|i]; [subst; apply (nth_error_In _ _ N)|apply (IH bs eq_refl y i)].
Qed.
Lemma arg_view (f : conf rworld rattr rdef) a : arg_of by_value (vconf f) a = option_map (look (rw_cells (f_world f))) (arg_of objects f a).
Proof.
  destruct a as [v|x|m]; [reflexivity| |]; cbn.
  - apply nth_error_map.
  - destruct (nth_error (f_mods f) m); reflexivity.
Qed.
Lemma arg_valid f a x : fvalid f -> arg_of objects f a = Some x -> rvalid (List.length (rw_cells (f_world f))) x.
Proof.
  intros (_ & _ & _ & Va). destruct a as [v|y|m]; cbn.
  - intro E. inversion E. exact Logic.I.
  - intro E. apply Va, (nth_error_In _ _ E).
  - destruct (nth_error (f_mods f) m); [|discriminate]. intro E. inversion E. exact Logic.I.
Qed.
Lemma show_view (f : conf rworld rattr rdef) s : show_state by_value (view (f_world f)) (vmap (look (rw_cells (f_world f))) s) = show_state objects (f_world f) s.
Proof. unfold show_state, vmap. rewrite map_map. apply map_ext. reflexivity. Qed.

Definition sim (f : conf rworld rattr rdef) (x : conf rworld rattr rdef * out) (y : conf world attr mdef * out) : Prop :=
  y = (vconf (fst x), snd x) /\ fvalid (fst x) /\ exists e, rw_cells (f_world (fst x)) = rw_cells (f_world f) ++ e.
Lemma sim_same f o : fvalid f -> sim f (f, o) (vconf f, o).
Proof. intro V. split; [reflexivity|]. split; [exact V|]. exists []. symmetry. apply app_nil_r. Qed.
Lemma sim_world f w' o : fvalid f -> grows (f_world f) w' -> sim f (with_world f w', o) (with_world (vconf f) (view w'), o).
Proof.
  intros V G. destruct (with_world_view f w' V G) as [E V']. split; [cbn [fst snd]; rewrite E; reflexivity|]. split; [exact V'|]. destruct G as [G _]. exact G.
Qed.
Lemma sim_states f ss o : fvalid f -> svalid (List.length (rw_cells (f_world f))) ss ->
  sim f (add_states f ss, o) (add_states (vconf f) (map (vmap (look (rw_cells (f_world f)))) ss), o).
Proof.
  intros (V & Vd & Vs & Va) H. split; [|split].
  - cbn [fst snd]. f_equal. unfold vconf, add_states. cbn. rewrite map_app. reflexivity.
  - split; [exact V|]. cbn. split; [exact Vd|]. split; [|exact Va]. intros s i. apply in_app_or in i. destruct i as [i|i]; [apply Vs, i|apply H, i].
  - exists []. symmetry. apply app_nil_r.
Qed.
Lemma sim_val f a o : fvalid f -> rvalid (List.length (rw_cells (f_world f))) a ->
  sim f (add_val f a, o) (add_val (vconf f) (look (rw_cells (f_world f)) a), o).
Proof.
  intros (V & Vd & Vs & Va) H. split; [|split].
  - cbn [fst snd]. f_equal. unfold vconf, add_val. cbn. rewrite map_app. reflexivity.
  - split; [exact V|]. cbn. split; [exact Vd|]. split; [exact Vs|]. intros b i. apply in_app_or in i. destruct i as [i|[i|[]]]; [apply Va, i|subst; exact H].
  - exists []. symmetry. apply app_nil_r.
Qed.
Lemma sim_mod f w' r o : fvalid f -> grows (f_world f) w' -> sim f (add_mod f w' r, o) (add_mod (vconf f) (view w') r, o).
Proof.
  intros V G. destruct (with_world_view f w' V G) as [E (V1 & V2 & V3 & V4)]. split; [|split].
  - cbn [fst snd]. f_equal. unfold vconf, add_mod, with_world in *. cbn in *. inversion E. reflexivity.
  - split; [exact V1|]. cbn in *. auto.
  - destruct G as [G _]. exact G.
Qed.
Lemma sim_def f d : fvalid f -> defall (rvalid (List.length (rw_cells (f_world f)))) d -> fvalid (add_def f d).
Proof.
  intros (V & Vd & Vs & Va) H. split; [exact V|]. cbn. split; [|auto]. intros b i. apply in_app_or in i. destruct i as [i|[i|[]]]; [apply Vd, i|subst; exact H].
Qed.

Lemma new_view w c : new_module (view w) c = (fst (rnew_module w c), view (snd (rnew_module w c))) /\ grows w (snd (rnew_module w c)).
Proof.
  split.
  - unfold new_module, rnew_module, view. cbn. rewrite map_length, map_app. reflexivity.
  - split; [exists []; symmetry; apply app_nil_r|]. intros V o i x a j. cbn in i. apply in_app_or in i. destruct i as [i|[i|[]]]; [apply (V o i x a j)|subst; destruct j].
Qed.
Lemma alloc_grows w c : grows w (snd (ralloc w c)).
Proof.
  split; [exists [c]; reflexivity|]. intros V o i x a j. cbn in *. apply (rvalid_mono (List.length (rw_cells w))); [rewrite app_length; lia|]. apply (V o i x a j).
Qed.
Lemma alloc_view w c : wvalid w -> view (snd (ralloc w c)) = view w.
Proof. intro V. unfold view, ralloc. cbn. f_equal. apply vheap_ext, V. Qed.
Lemma trace_grows w t : grows w (mkRworld (rw_heap w) (rw_cells w) (rw_uuid w) t (rw_nodes w)).
Proof. split; [exists []; symmetry; apply app_nil_r|]. trivial. Qed.

Lemma step_sim f k : fvalid f -> is_write k = false -> sim f (step objects f k) (step by_value (vconf f) k).
Proof.
  intros V NW. pose proof V as (Vw & Vd & Vs & Va). destruct k; try discriminate; cbn [step].
  - (* KNew *)
    cbn [o_new by_value objects]. destruct (new_view (f_world f) c) as [E G]. change (f_world (vconf f)) with (view (f_world f)). rewrite E.
    destruct (rnew_module (f_world f) c) as [r w1]. cbn [fst snd] in *. apply sim_mod; assumption.
  - (* KCont *)
    destruct (container_call c (CVal v) md) as [x|e]; [|apply sim_same, V].
    cbn [o_cont by_value objects]. pose proof (alloc_grows (f_world f) x) as G. pose proof (alloc_view (f_world f) x Vw) as E.
    destruct (with_world_view f _ V G) as [E2 V2].
    change (f_world (vconf f)) with (view (f_world f)). rewrite <- E.
    destruct (ralloc (f_world f) x) as [a w1] eqn:R. cbn [fst snd] in *. rewrite <- E2.
    assert (Ea : ACont x = look (rw_cells w1) a).
    { inversion R; subst. cbn. rewrite nth_error_app2 by lia. rewrite Nat.sub_diag. reflexivity. }
    assert (Va' : rvalid (List.length (rw_cells w1)) a).
    { inversion R; subst. cbn. rewrite app_length. cbn. lia. }
    rewrite Ea. destruct (sim_val (with_world f w1) a ODone V2 Va') as (S1 & S2 & S3). split; [exact S1|]. split; [exact S2|]. cbn. destruct G as [G _]. exact G.
  - (* KSet *)
    change (f_mods (vconf f)) with (f_mods f). destruct (nth_error (f_mods f) m) as [r|]; [|apply sim_same, V].
    rewrite arg_view. destruct (arg_of objects f a) as [x|] eqn:Ex; cbn [option_map]; [|apply sim_same, V].
    cbn [o_set by_value objects]. change (f_world (vconf f)) with (view (f_world f)).
    destruct (set_view (f_world f) r name x Vw (arg_valid f a x V Ex)) as [E G]. rewrite E.
    destruct (rsetattr (f_world f) r name x) as [w1|e]; cbn [rmap]; [|apply sim_same, V]. apply sim_world; auto.
  - (* KDel *)
    change (f_mods (vconf f)) with (f_mods f). destruct (nth_error (f_mods f) m) as [r|]; [|apply sim_same, V].
    cbn [o_del by_value objects]. change (f_world (vconf f)) with (view (f_world f)). destruct (del_view (f_world f) r name) as [E G]. rewrite E.
    destruct (rdelattr (f_world f) r name) as [w1|e]; cbn [rmap]; [|apply sim_same, V]. apply sim_world; [exact V|]. apply (G w1 eq_refl).
  - (* KGet *)
    change (f_mods (vconf f)) with (f_mods f). destruct (nth_error (f_mods f) m) as [r|]; [|apply sim_same, V].
    cbn [o_get by_value objects]. change (f_world (vconf f)) with (view (f_world f)).
    assert (E : getattr (view (f_world f)) r name = rgetattr (f_world f) r name).
    { unfold getattr, rgetattr. rewrite view_obj. destruct (rget_obj (f_world f) r) as [o|]; [|reflexivity]. cbn [option_map vobj m_vars]. rewrite vmap_dget.
      destruct (dget name (ro_vars o)); reflexivity. }
    rewrite E. destruct (rgetattr (f_world f) r name); apply sim_same, V.
  - (* KState *)
    change (f_mods (vconf f)) with (f_mods f). destruct (nth_error (f_mods f) m) as [r|]; [|apply sim_same, V].
    cbn [o_state by_value objects]. change (f_world (vconf f)) with (view (f_world f)). rewrite state_view.
    destruct (rget_state (f_world f) r) as [s|e] eqn:Es; cbn [rmap]; [|apply sim_same, V]. rewrite show_view.
    apply (sim_states f [s]); [exact V|]. intros s' [i|[]]. subst s'. intros x a i.
    apply (state_In (f_world f) (rvalid (List.length (rw_cells (f_world f)))) r s (fun r o n a g j => valid_slot _ r o n a Vw g j) Es x a i).
  - (* KPart *)
    change (f_mods (vconf f)) with (f_mods f). destruct (nth_error (f_mods f) m) as [r|]; [|apply sim_same, V].
    cbn [o_def o_state o_part by_value objects]. change (f_world (vconf f)) with (view (f_world f)). rewrite def_view.
    destruct (rget_module_def (f_world f) r) as [d|e] eqn:Ed; cbn [rmap]; [|apply sim_same, V].
    rewrite state_view. destruct (rget_state (f_world f) r) as [s|e] eqn:Es; cbn [rmap]; [|apply sim_same, V].
    rewrite <- part_view. destruct (rpartition (f_world f) s fs) as [ss|e] eqn:Ep; cbn [rmap]; [|apply sim_same, V].
    assert (Vd' : fvalid (add_def f d)).
    { apply sim_def; [exact V|]. refine (def_In (f_world f) _ r d _ Ed). intros r0 o n a g j _. apply (valid_slot _ r0 o n a Vw g j). }
    replace (add_def (vconf f) (vdef (rw_cells (f_world f)) d)) with (vconf (add_def f d)) by (unfold vconf, add_def; cbn; rewrite map_app; reflexivity).
    apply (sim_states (add_def f d) ss); [exact Vd'|]. intros s' i x a j. cbn.
    apply (state_In (f_world f) (rvalid (List.length (rw_cells (f_world f)))) r s (fun r o n a g j => valid_slot _ r o n a Vw g j) Es x a).
    apply (part_In _ _ _ _ Ep s' x a i j).
  - (* KFilter *)
    change (f_states (vconf f)) with (map (vmap (look (rw_cells (f_world f)))) (f_states f)). rewrite nth_error_map.
    destruct (nth_error (f_states f) s) as [x|] eqn:N; cbn [option_map]; [|apply sim_same, V].
    cbn [o_filter by_value objects]. rewrite <- filter_view. change (rw_cells (f_world f)) with (rw_cells (f_world f)).
    destruct (rfilter (f_world f) x fs) as [ss|e] eqn:Ef; cbn [rmap]; [|apply sim_same, V].
    apply sim_states; [exact V|]. intros s' i y a j. apply (Vs x (nth_error_In _ _ N) y a). apply (rfilter_In _ _ _ _ Ef s' y a i j).
  - (* KOr *)
    change (f_states (vconf f)) with (map (vmap (look (rw_cells (f_world f)))) (f_states f)). rewrite !nth_error_map.
    destruct (nth_error (f_states f) s) as [x|] eqn:N; cbn [option_map]; [|apply sim_same, V].
    destruct (nth_error (f_states f) t) as [y|] eqn:N2; cbn [option_map]; [|apply sim_same, V].
    rewrite <- vmap_or. apply (sim_states f [gstate_or x y]); [exact V|]. intros s' [i|[]]. subst s'. intros n a i. apply or_In in i.
    destruct i as [i|i]; [apply (Vs x (nth_error_In _ _ N) n a i)|apply (Vs y (nth_error_In _ _ N2) n a i)].
  - (* KSub *)
    change (f_states (vconf f)) with (map (vmap (look (rw_cells (f_world f)))) (f_states f)). rewrite !nth_error_map.
    destruct (nth_error (f_states f) s) as [x|] eqn:N; cbn [option_map]; [|apply sim_same, V].
    destruct (nth_error (f_states f) t) as [y|] eqn:N2; cbn [option_map]; [|apply sim_same, V].
    rewrite <- vmap_sub. apply (sim_states f [gstate_sub x y]); [exact V|]. intros s' [i|[]]. subst s'. intros n a i. apply sub_In in i.
    apply (Vs x (nth_error_In _ _ N) n a i).
  - (* KMerge *)
    change (f_states (vconf f)) with (map (vmap (look (rw_cells (f_world f)))) (f_states f)).
    change (f_defs (vconf f)) with (map (vdef (rw_cells (f_world f))) (f_defs f)). rewrite nth_error_map, vars_of_map.
    destruct (nth_error (f_defs f) d) as [x|] eqn:N; cbn [option_map]; [|apply sim_same, V].
    destruct (vars_of (f_states f) ss) as [l|] eqn:N2; cbn [option_map]; [|apply sim_same, V].
    cbn [o_merge by_value objects]. change (f_world (vconf f)) with (view (f_world f)).
    destruct (merge_view (f_world f) x l Vw (Vd x (nth_error_In _ _ N)) (fun s i => Vs s (vars_of_In _ _ _ N2 s i))) as [E G]. rewrite E.
    destruct (rmerge (f_world f) x l) as [[r w1]|e]; cbn [rmap fst snd]; [|apply sim_same, V]. apply sim_mod; [exact V|]. apply (G r w1 eq_refl).
  - (* KUpdate *)
    change (f_mods (vconf f)) with (f_mods f). destruct (nth_error (f_mods f) m) as [r|]; [|apply sim_same, V].
    change (f_states (vconf f)) with (map (vmap (look (rw_cells (f_world f)))) (f_states f)). rewrite vars_of_map.
    destruct (vars_of (f_states f) ss) as [l|] eqn:N2; cbn [option_map]; [|apply sim_same, V].
    cbn [o_update by_value objects]. change (f_world (vconf f)) with (view (f_world f)).
    destruct (update_state_view (f_world f) r l Vw (fun s i => Vs s (vars_of_In _ _ _ N2 s i))) as [E G]. rewrite E.
    destruct (rupdate_state (f_world f) r l) as [w1 [u|e]]; cbn [fst snd] in *; apply sim_world; assumption.
  - (* KPop *)
    change (f_mods (vconf f)) with (f_mods f). destruct (nth_error (f_mods f) m) as [r|]; [|apply sim_same, V].
    cbn [o_pop by_value objects]. change (f_world (vconf f)) with (view (f_world f)). destruct (pop_view fuel (f_world f) r fs) as (E & C & G).
    destruct (pop_state fuel (view (f_world f)) r fs) as [w2 x2]. injection E as E1 E3. rewrite E3, E1.
    pose proof (pop_In (rvalid (List.length (rw_cells (f_world f)))) fuel (f_world f) r fs) as PI.
    destruct (rpop_state fuel (f_world f) r fs) as [w1 [ss|e]]; cbn [fst snd rmap] in *.
    + destruct (with_world_view f w1 V G) as [E2 V2]. rewrite <- E2, <- C.
      destruct (sim_states (with_world f w1) ss ODone V2) as (S1 & S2 & S3).
      { intros s i n a j. cbn. rewrite C. apply (PI ss) with (s := s) (n := n); [|reflexivity|exact i|exact j]. exact Vw. }
      split; [exact S1|]. split; [exact S2|]. cbn. destruct G as [G _]. exact G.
    + apply sim_world; assumption.
  - (* KItem *)
    change (f_states (vconf f)) with (map (vmap (look (rw_cells (f_world f)))) (f_states f)). rewrite nth_error_map.
    destruct (nth_error (f_states f) s) as [x|] eqn:N; cbn [option_map]; [|apply sim_same, V].
    rewrite vmap_dget. destruct (dget path x) as [a|] eqn:Dg; cbn [option_map]; [|apply sim_same, V].
    apply sim_val; [exact V|]. apply (Vs x (nth_error_In _ _ N) path a). apply dget_In. exact Dg.
  - (* KAttr *)
    change (f_mods (vconf f)) with (f_mods f). destruct (nth_error (f_mods f) m) as [r|]; [|apply sim_same, V].
    cbn [o_attr by_value objects]. change (f_world (vconf f)) with (view (f_world f)). unfold rvars. rewrite view_obj.
    destruct (rget_obj (f_world f) r) as [o|] eqn:G; cbn [option_map]; [|apply sim_same, V]. cbn [vobj m_vars]. rewrite vmap_dget.
    destruct (dget name (ro_vars o)) as [a|] eqn:Dg; cbn [option_map]; [|apply sim_same, V].
    apply sim_val; [exact V|]. apply (valid_slot _ r o name a Vw G). apply dget_In. exact Dg.
  - (* KShow *)
    change (f_vals (vconf f)) with (map (look (rw_cells (f_world f))) (f_vals f)). rewrite nth_error_map.
    destruct (nth_error (f_vals f) x) as [a|]; apply sim_same, V.
  - (* KPrint *)
    change (f_states (vconf f)) with (map (vmap (look (rw_cells (f_world f)))) (f_states f)). rewrite nth_error_map.
    destruct (nth_error (f_states f) s) as [x|] eqn:N; cbn [option_map]; [|apply sim_same, V].
    change (f_world (vconf f)) with (view (f_world f)). rewrite show_view. apply sim_same, V.
  - (* KTrace *)
    cbn [o_trace by_value objects]. apply (sim_world f (mkRworld (rw_heap (f_world f)) (rw_cells (f_world f)) (rw_uuid (f_world f)) t (rw_nodes (f_world f))) ODone V), trace_grows.
Qed.

Lemma run_sim p : forall f, fvalid f -> no_writes p ->
  run by_value (vconf f) p = (vconf (fst (run objects f p)), snd (run objects f p)) /\ fvalid (fst (run objects f p))
  /\ exists e, rw_cells (f_world (fst (run objects f p))) = rw_cells (f_world f) ++ e.
Proof.
  induction p as [|k t IH]; intros f V NW.
  - split; [reflexivity|]. split; [exact V|]. exists []. symmetry. apply app_nil_r.
  - cbn [run]. destruct (step_sim f k V (NW k (or_introl eq_refl))) as (E & V1 & e & C). rewrite E.
    destruct (step objects f k) as [f1 o]. cbn [fst snd] in *.
    destruct (IH f1 V1 (fun k' i => NW k' (or_intror i))) as (E2 & V2 & e2 & C2). rewrite E2.
    destruct (run objects f1 t) as [f2 os]. cbn [fst snd] in *. split; [reflexivity|]. split; [exact V2|].
    exists (e ++ e2). rewrite C2, C, app_assoc. reflexivity.
Qed.

(** variables stay *)
Lemma step_env {W A D} (O : ops W A D) f k : exists ms ds ss vs,
  f_mods (fst (step O f k)) = f_mods f ++ ms /\ f_defs (fst (step O f k)) = f_defs f ++ ds /\
  f_states (fst (step O f k)) = f_states f ++ ss /\ f_vals (fst (step O f k)) = f_vals f ++ vs.
Proof.
  assert (Z : exists ms ds ss vs, f_mods f = f_mods f ++ ms /\ f_defs f = f_defs f ++ ds /\ f_states f = f_states f ++ ss /\ f_vals f = f_vals f ++ vs)
    by (exists [], [], [], []; rewrite !app_nil_r; auto).
  destruct k; cbn [step];
  repeat match goal with |- context [match ?x with _ => _ end] => destruct x end;
  cbn; try exact Z; do 4 eexists; repeat split; (reflexivity || (symmetry; apply app_nil_r)).
Qed.
