(** C81: copies of Modules made by python's [copy] module. *)
From Verif Require Import PyBase PyBaseFacts ValuesM Spec_Eq ValuesFacts StateM ModuleM Spec_State Spec_Module Graph_facts Dfs_proofs Bisim_proofs RoundTrip_proofs Clone_proofs Write_proofs Laws_proofs TransformM Ex_Module CopyM Spec_Copy Copy_proofs.
Local Open Scope string_scope.
Local Open Scope nat_scope.
Local Open Scope list_scope.

(** [copy.deepcopy] returns; the result is a one-to-one copy of everything the
    module mentions, also inside tuples and containers; existing objects do not
    change; the new ones have new, distinct ids. *)
Theorem C81_deepcopy :
  forall (tc : nat -> nat) (w : world) (r : nat), wf_world w -> r < List.length (w_heap w) -> closed w r ->
  exists m w' f, deepcopy tc w r = Ok (m, w') /\ deep_copy w r w' m f /\ wf_world w' /\
    (forall p, look w' m p = seen_ren f (look w r p)) /\
    (forall p, follow w' m p = option_map f (follow w r p)).
Proof.
  intros tc w r Hw Hr Hc. destruct (deepcopy_ok w r tc Hc) as (m & w' & f & E & Hd & _ & Hl & Hu). exists m, w', f. split; [exact E|]. split; [exact Hd|].
  split; [eapply heap_le; eauto|]. rewrite <- (dc_root _ _ _ _ _ Hd). split; intros p; [eapply look_copy|eapply follow_copy]; eauto; constructor.
Qed.
Print Assumptions C81_deepcopy.

(** Where modules occur as attributes only, the copy cannot be told from the
    original by its values, its sharing, its state or its definition. *)
Theorem C81_deepcopy_same :
  forall (tc : nat -> nat) (w : world) (r : nat), wf_world w -> r < List.length (w_heap w) -> plain_below w r ->
  exists m w', deepcopy tc w r = Ok (m, w') /\ wf_world w' /\ (forall p, look w' m p = look w r p) /\
    (forall p q, follow w' m p = follow w' m q <-> follow w r p = follow w r q) /\
    get_state w' m = get_state w r /\ get_module_def w' m = get_module_def w r.
Proof.
  intros tc w r Hw Hr Hp. pose proof (plain_closed _ _ Hw Hr Hp) as Hc. destruct (C81_deepcopy tc w r Hw Hr Hc) as (m & w' & f & E & Hd & Hw' & _).
  pose proof (deep_bisim _ _ _ _ _ Hw Hc Hd Hp) as HB. destruct (get_obj_ex _ _ Hr) as [o Ho].
  assert (R0 : reaches w r r /\ m = f r) by (split; [eapply reaches_refl; eauto|symmetry; apply Hd]).
  assert (Hnt : w_nodes w = w_nodes w') by (symmetry; apply Hd).
  exists m, w'. split; [exact E|]. split; [exact Hw'|]. split; [intros p; symmetry; exact (bisim_look _ _ _ p HB _ _ R0)|]. split.
  - intros p q. symmetry. exact (bisim_alias _ _ _ _ _ p q HB R0).
  - split; symmetry; [exact (bisim_get_state _ _ _ _ _ Hw Hw' HB Hnt R0)|exact (bisim_module_def _ _ _ _ _ Hw Hw' HB Hnt R0)].
Qed.
Print Assumptions C81_deepcopy_same.

(** But the copy carries copies of jax's main traces, which are never current: no
    attribute of a copied module can ever be assigned, at no trace level. *)
Theorem C81_deepcopy_frozen :
  forall (tc : nat -> nat) (w : world) (r m : nat) (w' : world), wf_world w -> r < List.length (w_heap w) -> closed w r ->
  deepcopy tc w r = Ok (m, w') ->
  forall t, (forall x, fst t <> tc x) ->
  forall y o, get_obj w' y = Some o -> get_obj w y = None ->
  forall n a, setattr (set_trace w' t) y n a = Err TraceContextError.
Proof.
  intros tc w r m w' Hw Hr Hc E t Ht y o Hy Hn n a. destruct (deepcopy_ok w r tc Hc) as (m1 & w1 & f & E1 & Hd & Htr & _). rewrite E in E1. injection E1 as <- <-.
  destruct (dc_only _ _ _ _ _ Hd y o Hy Hn) as (x & Hx & <-). destruct (get_obj_ex _ _ (Hc x Hx)) as [p Hp]. destruct (Htr x p Hx Hp) as (o' & Ho' & Et).
  assert (o' = o) by congruence. subst o'. apply (setattr_guard (set_trace w' t) (f x) n a o); [exact Hy|]. cbn. rewrite Et. intros Q. apply (Ht (fst (m_trace p))). rewrite <- Q. reflexivity.
Qed.
Print Assumptions C81_deepcopy_frozen.
(** the copy satisfies the same conditions on names *)
Lemma C81_deepcopy_names :
  forall (tc : nat -> nat) (w : world) (r m : nat) (w' : world), wf_world w -> r < List.length (w_heap w) -> plain_below w r -> names_ok w r ->
  deepcopy tc w r = Ok (m, w') -> m < List.length (w_heap w') /\ names_ok w' m.
Proof.
  intros tc w r m w' Hw Hr Hp Hnm E. pose proof (plain_closed _ _ Hw Hr Hp) as Hc. destruct (C81_deepcopy tc w r Hw Hr Hc) as (m1 & w1 & f & E1 & Hd & Hw' & _).
  rewrite E in E1. injection E1 as <- <-. pose proof (deep_bisim _ _ _ _ _ Hw Hc Hd Hp) as HB. destruct (get_obj_ex _ _ Hr) as [o Ho].
  assert (R0 : reaches w r r /\ m = f r) by (split; [eapply reaches_refl; eauto|symmetry; apply Hd]).
  assert (Hnt : w_nodes w' = w_nodes w) by apply Hd. split.
  { destruct R0 as [_ ->]. destruct (bi_obj _ _ _ HB r (f r) (conj (reaches_refl _ _ _ Ho) eq_refl)) as (? & p & _ & Q & _). eapply get_obj_lt; exact Q. }
  intros y p n b Hy Hpy Hd2. destruct (bisim_reaches _ _ _ _ _ y (bisim_sym _ _ _ HB) R0 Hy) as (z & _ & Hz & ->).
  destruct (bi_obj _ _ _ HB z (f z) (conj Hz eq_refl)) as (q & q' & A & B & C & D & F).
  assert (q' = p) by congruence. subst q'. specialize (F n). rewrite Hd2 in F.
  destruct (dget n (m_vars q)) as [a0|] eqn:Ea; [|destruct b as [[]|]; destruct F].
  destruct (Hnm z q n a0 Hz A Ea) as (N1 & N2 & N3).
  assert (K : is_submodule b = is_submodule a0 /\ (is_submodule b = false -> b = a0)).
  { destruct (is_submodule a0) eqn:S0.
    - apply is_sub_inv in S0. destruct S0 as [y0 ->]. apply orel_mod in F. destruct F as (y1 & [= ->] & _). split; [reflexivity|discriminate].
    - apply (orel_val _ _ _ S0) in F. injection F as ->. auto. }
  destruct K as [K1 K2]. split; [intros S1; apply N1; congruence|]. split.
  + intros (p1 & P1 & P2 & P3 & P4). assert (p1 = p) by congruence. subst p1. apply N2. pose proof (K2 P3) as K3. subst b. exists q. split; [exact A|]. split; [exact Ea|]. split; [exact P3|]. rewrite Hnt in P4. exact P4.
  + intros (p1 & P1 & P2 & P3 & P4). assert (p1 = p) by congruence. subst p1. apply N3. pose proof (K2 P3) as K3. subst b. exists q. split; [exact A|]. split; [exact Ea|]. split; [exact P3|]. rewrite Hnt in P4. exact P4.
Qed.
(** nor updated *)
Theorem C81_deepcopy_update :
  forall (tc : nat -> nat) (w : world) (r m : nat) (w' : world) (s : state), wf_world w -> r < List.length (w_heap w) -> plain_below w r -> names_ok w r ->
  get_state w r = Ok s -> s <> [] -> deepcopy tc w r = Ok (m, w') ->
  forall t, (forall x, fst t <> tc x) ->
  forall x, update_state (set_trace w' t) m (UStates x) = (set_trace w' t, Err TraceContextError).
Proof.
  intros tc w r m w' s Hw Hr Hp Hnm Hs Hne E t Ht x. pose proof (plain_closed _ _ Hw Hr Hp) as Hc. destruct (C81_deepcopy tc w r Hw Hr Hc) as (m1 & w1 & f & E1 & Hd & Hw' & _).
  destruct (C81_deepcopy_same tc w r Hw Hr Hp) as (m2 & w2 & E2 & _ & _ & _ & Gs & _). rewrite E in E1, E2. injection E1 as <- <-. injection E2 as <- <-.
  pose proof (deep_bisim _ _ _ _ _ Hw Hc Hd Hp) as HB. destruct (get_obj_ex _ _ Hr) as [o Ho].
  assert (R0 : reaches w r r /\ m = f r) by (split; [eapply reaches_refl; eauto|symmetry; apply Hd]).
  assert (Hnt : w_nodes w' = w_nodes w) by apply Hd.
  set (v := set_trace w' t).
  assert (Gv : forall y, get_obj v y = get_obj w' y) by reflexivity.
  assert (Wv : wf_world v). { destruct Hw' as [A B]. constructor; [exact A|]. intros y p Hy. destruct (B y p Hy) as [X1 X2 X3 X4 X5]. constructor; auto. }
  assert (Fv : forall q y, follow v y q = follow w' y q). { induction q as [|k q IH]; intros y; cbn; rewrite Gv; [reflexivity|]. destruct (get_obj w' y) as [p|]; [|reflexivity]. destruct (dget k (m_vars p)) as [[[]|]|]; try reflexivity. apply IH. }
  assert (Rv : forall y, reaches v m y -> exists z, reaches w r z /\ y = f z).
  { intros y [q Hq]. rewrite Fv in Hq. destruct (bisim_reaches _ _ _ _ _ y (bisim_sym _ _ _ HB) R0) as (z & _ & Hz); [exists q; exact Hq|]. exists z. exact Hz. }
  assert (Vm : m < List.length (w_heap v)). { destruct R0 as [_ ->]. destruct (bi_obj _ _ _ HB r (f r) (conj (reaches_refl _ _ _ Ho) eq_refl)) as (? & p & _ & Q & _). change (w_heap v) with (w_heap w'). eapply get_obj_lt; exact Q. }
  apply (update_state_guard v m (UStates x) s Wv Vm).
  - intros y p n b Hy Hpy Hd2. apply (proj2 (C81_deepcopy_names tc w r m w' Hw Hr Hp Hnm E) y p n b); [|exact Hpy|exact Hd2].
    destruct Hy as [q Hq]. exists q. rewrite <- Fv. exact Hq.
  - destruct (get_obj_ex _ _ Vm) as [pm Hpm]. rewrite <- Hs, <- Gs. apply (twin_state w' v m m pm Hw' Hpm Hpm eq_refl); auto.
  - exact Hne.
  - discriminate.
  - intros y p Hy Hpy. destruct (Rv y Hy) as (z & Hz & ->). destruct (deepcopy_ok w r tc Hc) as (m3 & w3 & f3 & E3 & Hd3 & Htr & _). rewrite E in E3. injection E3 as <- <-.
    pose proof (reaches_touches _ _ _ Hw Hz) as Tz. destruct (dc_only _ _ _ _ _ Hd3 (f z) p Hpy (dc_fresh _ _ _ _ _ Hd z Tz)) as (x3 & Hx3 & Ex3).
    destruct (get_obj_ex _ _ (Hc x3 Hx3)) as [q Hq]. destruct (Htr x3 q Hx3 Hq) as (o' & Ho' & Et). rewrite Ex3 in Ho'. assert (o' = p) by (rewrite Gv in Hpy; congruence). subst o'.
    cbn. rewrite Et. intros Q. apply (Ht (fst (m_trace q))). rewrite <- Q. reflexivity.
Qed.
Print Assumptions C81_deepcopy_update.
(** so the claim that a deep copy can be used like the original is false of every
    module that could be assigned to before *)
Theorem C81_deepcopy_usable_refuted :
  exists w r, wf_world w /\ live w r /\ plain_below w r /\ names_ok w r /\ (exists w2, setattr w r "w" (ARaw PyNone) = Ok w2) /\
    forall tc, (forall x, tc x <> fst (w_trace w)) ->
    exists m w', deepcopy tc w r = Ok (m, w') /\ setattr w' m "w" (ARaw PyNone) = Err TraceContextError.
Proof.
  destruct ex_cyc_ok as (A & B & C & D). exists ex_cyc, 0.
  assert (P0 : plain_below ex_cyc 0).
  { intros x o n a _ Ho Hd Hs. do 5 (destruct x as [|x]; [cbn in Ho; injection Ho as <-; cbn in Hd;
      repeat match type of Hd with (if ?b then _ else _) = _ => destruct b; [injection Hd as <-; first [reflexivity|discriminate Hs]|] end; discriminate Hd|]). destruct x; discriminate. }
  split; [exact A|]. split; [exact C|]. split; [exact P0|]. split; [exact B|]. split; [eexists; vm_compute; reflexivity|].
  intros tc Ht. destruct (C81_deepcopy tc ex_cyc 0 A D (plain_closed _ _ A D P0)) as (m & w' & f & E & Hd & _). exists m, w'. split; [exact E|].
  pose proof (t_self ex_cyc 0) as T0. destruct (dc_same _ _ _ _ _ Hd 0 _ T0 eq_refl) as (o' & Ho' & _). rewrite (dc_root _ _ _ _ _ Hd) in Ho'.
  pose proof (dc_fresh _ _ _ _ _ Hd 0 T0) as F0. rewrite (dc_root _ _ _ _ _ Hd) in F0.
  pose proof (C81_deepcopy_frozen tc ex_cyc 0 m w' A D (plain_closed _ _ A D P0) E (w_trace ex_cyc) (fun x Q => Ht x (eq_sym Q)) m o' Ho' F0 "w" (ARaw PyNone)) as Q.
  replace (set_trace w' (w_trace ex_cyc)) with w' in Q; [exact Q|]. unfold set_trace. rewrite <- (proj1 (dc_world _ _ _ _ _ Hd)). destruct w'; reflexivity.
Qed.
Print Assumptions C81_deepcopy_usable_refuted.

(** Cloning the copy gives a module that is usable again. *)
Theorem C81_deepcopy_clone :
  forall (tc : nat -> nat) (w : world) (r : nat), wf_world w -> r < List.length (w_heap w) -> plain_below w r -> names_ok w r ->
  exists m w' m2 w2, deepcopy tc w r = Ok (m, w') /\ clone w' m = Ok (m2, w2) /\ (forall p, look w2 m2 p = look w r p) /\ live w2 m2.
Proof.
  intros tc w r Hw Hr Hp Hnm. destruct (C81_deepcopy_same tc w r Hw Hr Hp) as (m & w' & E & Hw' & Lk & _ & Gs & Gd).
  destruct (C81_deepcopy tc w r Hw Hr (plain_closed _ _ Hw Hr Hp)) as (m1 & w1 & f & E1 & Hd & _). rewrite E in E1. injection E1 as <- <-.
  destruct (C81_deepcopy_names tc w r m w' Hw Hr Hp Hnm E) as [Vm Nm].
  destruct (clone_faithful w' m Hw' Vm Nm) as (m2 & w2 & E2 & F). exists m, w', m2, w2. split; [exact E|]. split; [exact E2|]. split.
  - intros p. rewrite (fc_look _ _ _ _ _ F). apply Lk.
  - intros x o Hx Ho. rewrite (fc_trace _ _ _ _ _ F x o Hx Ho). destruct (clone_bisim w' m Hw' Vm Nm) as (d & L & w3 & objs & _ & E3 & Hm). rewrite E2 in E3. injection E3 as _ <-. symmetry. apply Hm.
Qed.
Print Assumptions C81_deepcopy_clone.

(** [copy.copy]: a new object with the same attributes.  It looks like the original,
    its state and definition are those of the original, and assigning to one leaves
    the other as it is. *)
Theorem C81_copy :
  forall (w : world) (r : nat) (o : mobj), wf_world w -> get_obj w r = Some o ->
  exists c w', py_copy w r = Ok (c, w') /\ get_obj w c = None /\ get_obj w' c = Some o /\
    (forall y p, get_obj w y = Some p -> get_obj w' y = Some p) /\
    (forall p, look w' c p = look w r p) /\ get_state w' c = get_state w r /\ get_module_def w' c = get_module_def w r /\
    (forall n a w2 p, setattr w' c n a = Ok w2 -> look w2 r p = look w r p) /\
    (forall n a w2 p, setattr w' r n a = Ok w2 -> ~ (exists q, q <> [] /\ follow w r q = Some r) -> look w2 c p = look w r p).
Proof.
  intros w r o Hw Ho. destruct (shallow_ok w r o Ho) as (w' & E & He & Hc & Hother & Hnt & Hl). pose proof (get_obj_lt _ _ _ Ho) as Hr.
  assert (Hk : forall y p, get_obj w y = Some p -> get_obj w' y = Some p) by (intros y p Hy; eapply extends_get; eauto).
  exists (List.length (w_heap w)), w'. split; [exact E|]. split; [apply nth_error_None; lia|]. split; [exact Hc|]. split; [exact Hk|].
  split; [exact (twin_look w w' r _ o Hw Hk Ho Hc)|]. split; [apply (twin_state w w' r _ o); auto; lia|]. split; [apply (twin_def w w' r _ o); auto; lia|]. split.
  - intros n a w2 p H. apply (kept_look w w2 Hw); [|exact Hr]. intros y q Hy. apply setattr_inv in H. destruct H as (o1 & a1 & A & _ & _ & _ & ->).
    rewrite get_put_other; [apply Hk; exact Hy|]. intros <-. apply get_obj_lt in Hy. lia.
  - intros n a w2 p H Hcyc. apply setattr_inv in H. destruct H as (o1 & a1 & A & _ & _ & _ & ->).
    assert (Hc2 : get_obj (put_obj w' r (set_vars o1 (dset n a1 (m_vars o1)))) (List.length (w_heap w)) = Some o) by (rewrite get_put_other; [exact Hc|lia]).
    set (w2 := put_obj _ _ _) in *.
    assert (G : forall q x, x < List.length (w_heap w) -> ~ (exists q', follow w x q' = Some r) -> look w2 x q = look w x q).
    { induction q as [|k q IH]; intros x Hx Hn; destruct (get_obj_ex _ _ Hx) as [ox Hox].
      - cbn. assert (x <> r) by (intros ->; apply Hn; exists []; cbn; now rewrite Ho). unfold w2. rewrite get_put_other by congruence. now rewrite (Hk _ _ Hox), Hox.
      - cbn. assert (x <> r) by (intros ->; apply Hn; exists []; cbn; now rewrite Ho). unfold w2 at 1. rewrite get_put_other by congruence. rewrite (Hk _ _ Hox), Hox.
        destruct (dget k (m_vars ox)) as [[[|b|z|s|l|y|cc i]|cc]|] eqn:Ek; try reflexivity. apply IH; [exact (wfo_refs _ _ (wf_objs _ Hw _ _ Hox) _ _ Ek)|].
        intros [q' Hq']. apply Hn. exists (k :: q'). cbn. rewrite Hox, Ek. exact Hq'. }
    destruct p as [|k p]; cbn; rewrite Hc2, Ho; [reflexivity|]. destruct (dget k (m_vars o)) as [[[|b|z|s|l|y|cc i]|cc]|] eqn:Ek; try reflexivity.
    apply G; [exact (wfo_refs _ _ (wf_objs _ Hw _ _ Ho) _ _ Ek)|]. intros [q' Hq']. apply Hcyc. exists (k :: q'). split; [discriminate|]. cbn. rewrite Ho, Ek. exact Hq'.
Qed.
Print Assumptions C81_copy.

(** But copy and original have one id, by which nnx recognises modules: in a module
    that holds both, whatever has become of the copy since does not show. *)
Definition holder (w : world) (a b : nat) : world :=
  mkWorld (w_heap w ++ [mkMobj (Mod_cls "Net") (S (w_uuid w)) false (w_trace w) [("a", sub a); ("b", sub b)]]) (S (w_uuid w)) (w_trace w) (w_nodes w).
Theorem C81_copy_invisible :
  forall (w : world) (r c : nat) (w' : world) (o : mobj), wf_world w -> get_obj w r = Some o -> py_copy w r = Ok (c, w') ->
  forall d, get_state (holder (put_obj w' c (set_vars o d)) r c) (S c) = get_state (holder w' r c) (S c).
Proof.
  intros w r c w' o Hw Ho E d. destruct (shallow_ok w r o Ho) as (w1 & E1 & He & Hc & Hother & Hnt & Hl). rewrite E in E1. injection E1 as -> <-.
  pose proof (get_obj_lt _ _ _ Ho) as Hr. set (c := List.length (w_heap w)) in *.
  assert (G : forall v, List.length (w_heap v) = S c -> w_nodes v = w_nodes w -> (forall y p, get_obj w y = Some p -> get_obj v y = Some p) ->
    (exists p, get_obj v c = Some p /\ m_id p = m_id o) ->
    get_state (holder v r c) (S c) = do (xs, _) <- iter_state_rec (S (S c)) w r [S (w_uuid v)] ["a"]; Ok (mk_state xs)).
  { intros v Lv Nv Kv (p & Hp & Hid). unfold get_state, iter_state, dfs_fuel.
    assert (Hg : forall y q, get_obj v y = Some q -> get_obj (holder v r c) y = Some q).
    { intros y q Hy. unfold holder. rewrite snoc_get. pose proof (get_obj_lt _ _ _ Hy). destruct (Nat.eqb_spec y (List.length (w_heap v))); [lia|exact Hy]. }
    assert (Hs : get_obj (holder v r c) (S c) = Some (mkMobj (Mod_cls "Net") (S (w_uuid v)) false (w_trace v) [("a", sub r); ("b", sub c)])).
    { unfold holder. rewrite snoc_get, Lv, Nat.eqb_refl. reflexivity. }
    assert (Lh : List.length (w_heap (holder v r c)) = S (S c)) by (unfold holder; cbn; rewrite app_length, Lv; cbn; lia).
    rewrite Lh. remember (S (S c)) as N eqn:EN. cbn [iter_state_rec]. rewrite Hs. cbn [m_id m_vars nmem existsb app].
    change (sort_by_key [("a", sub r); ("b", sub c)]) with [("a", sub r); ("b", sub c)]. cbn [iter_fields sub app].
    rewrite (iter_kept w (holder v r c) Hw) by (auto; unfold holder; cbn; congruence).
    destruct (iter_state_rec N w r [S (w_uuid v)] ["a"]) as [[xs s1]|e] eqn:Ei; cbn [rbind]; [|reflexivity].
    pose proof (proj2 (iter_seen _ _ _ _ _ _ _ Ei) o Ho) as Hin.
    rewrite EN. cbn [iter_state_rec]. rewrite (Hg c p Hp), Hid, (proj2 (nmem_In (m_id o) s1) Hin). cbn [rbind app]. now rewrite app_nil_r. }
  assert (U : w_uuid w' = w_uuid (put_obj w' c (set_vars o d))) by reflexivity.
  rewrite (G w' Hl Hnt), (G (put_obj w' c (set_vars o d))).
  - now rewrite U.
  - unfold put_obj, set_heap. cbn. rewrite list_set_length. exact Hl.
  - exact Hnt.
  - intros y p Hy. rewrite get_put_other; [eapply extends_get; eauto|]. intros <-. apply get_obj_lt in Hy. unfold c in Hy. lia.
  - exists (set_vars o d). split; [eapply get_put_same; exact Hc|reflexivity].
  - intros y p Hy. eapply extends_get; eauto.
  - exists o. auto.
Qed.
Print Assumptions C81_copy_invisible.
(** For example: a layer and a changed copy of it in one module.  get_state lists one
    of them, and in a clone of the module both are one object with the old value. *)
Definition ex_one : world := mkWorld [mkMobj (Mod_cls "Layer") 1 false (0, 0) [("w", param 1)]] 1 (0, 0) default_node_types.
Theorem C81_copy_refuted :
  exists w r c w1 w2 w3, wf_world w /\ names_ok w r /\ py_copy w r = Ok (c, w1) /\ setattr w1 c "w" (ARaw (PyInt (BinInt.Z.of_nat 5))) = Ok w2 /\ w3 = holder w2 r c /\
    look w3 (S c) ["b"; "w"] <> look w3 (S c) ["a"; "w"] /\
    rmap keys (get_state w3 (S c)) = Ok ["a/w"] /\
    (exists m w4, clone w3 (S c) = Ok (m, w4) /\ look w4 m ["b"; "w"] = look w3 (S c) ["a"; "w"] /\ follow w4 m ["a"] = follow w4 m ["b"]).
Proof.
  exists ex_one, 0, 1. do 3 eexists. split; [apply wf_worldb_ok; vm_compute; reflexivity|]. split; [apply names_okb_ok; vm_compute; reflexivity|].
  split; [vm_compute; reflexivity|]. split; [vm_compute; reflexivity|]. split; [reflexivity|]. split; [vm_compute; discriminate|]. split; [vm_compute; reflexivity|].
  do 2 eexists. split; [vm_compute; reflexivity|]. split; vm_compute; reflexivity.
Qed.
Print Assumptions C81_copy_refuted.

(** A deep copy of a module with a cycle, sharing, and a tuple of modules. *)
Definition ex_tuple : world := mkWorld
  [ mkMobj (Mod_cls "Net") 1 false (0, 0) [("layers", ARaw (PyTuple [PyMod 1; PyMod 1; PyStr "x"])); ("first", sub 1)];
    mkMobj (Mod_cls "Layer") 2 true (0, 0) [("w", param 11); ("net", ACont (mkCont Static_cls [] (PyMod 0)))] ]
  2 (0, 0) default_node_types.
Example C81_example : wf_world ex_tuple /\ closed ex_tuple 0 /\
  exists w', deepcopy (fun x => x + 100) ex_tuple 0 = Ok (2, w') /\
    look w' 2 ["layers"] = SValue (ARaw (PyTuple [PyMod 3; PyMod 3; PyStr "x"])) /\ look w' 2 ["first"; "w"] = SValue (param 11) /\
    look w' 2 ["first"; "net"] = SValue (ACont (mkCont Static_cls [] (PyMod 2))) /\ map m_id (w_heap w') = [1; 2; 3; 4].
Proof.
  split; [apply wf_worldb_ok; vm_compute; reflexivity|]. split.
  - intros x H. induction H as [|x y H IH (o & n & a & Ho & Hn & Hy)]; [cbn; lia|]. do 2 (destruct x as [|x]; [cbn in Ho; injection Ho as <-; cbn in Hn; repeat (destruct Hn as [Hn|Hn]; [injection Hn as <- <-; cbn in Hy; repeat (destruct Hy as [<-|Hy]; [cbn; lia|]); destruct Hy|]); destruct Hn|]). destruct x; discriminate.
  - eexists. split; [vm_compute; reflexivity|]. repeat split.
Qed.
