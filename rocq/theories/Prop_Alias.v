(** C89: containers as objects.  Reading, assigning, partitioning and merging share and copy
    container objects in such a way that a program that never assigns to a field of a
    container cannot tell them from values; and what such an assignment reaches is exactly
    one attribute of one Module and the States that were taken from it. *)
From Verif Require Import PyBase PyBaseFacts ValuesM FiltersM StateM ModuleM AliasM Spec_Alias Alias_proofs Alias2_proofs Alias3_proofs Alias4_proofs Alias5_proofs.
From Coq Require Import ZArith.
Local Open Scope string_scope.
Local Open Scope nat_scope.
Local Open Scope list_scope.

(** A program that assigns to no field of a container prints the same whether containers
    are shared objects, as in Python, or values that every operation copies. *)
Theorem C89_by_value : forall nt p, no_writes p ->
  snd (run objects (start (rworld0 nt)) p) = snd (run by_value (start (world0 nt)) p).
Proof.
  intros nt p H. destruct (start_inv nt) as [V _]. destruct (run_sim p _ V H) as [E _].
  change (vconf (start (rworld0 nt))) with (start (D := mdef) (A := attr) (world0 nt)) in E. rewrite E. reflexivity.
Qed.

Lemma run_env {W A D} (O : ops W A D) p : forall f, exists ms ds ss vs,
  f_mods (fst (run O f p)) = f_mods f ++ ms /\ f_defs (fst (run O f p)) = f_defs f ++ ds /\
  f_states (fst (run O f p)) = f_states f ++ ss /\ f_vals (fst (run O f p)) = f_vals f ++ vs.
Proof.
  induction p as [|k t IH]; intro f; [exists [], [], [], []; cbn; rewrite !app_nil_r; auto|]. rewrite run_cons. cbn [fst].
  destruct (step_env O f k) as (a & b & c & d & E1 & E2 & E3 & E4). destruct (IH (fst (step O f k))) as (a' & b' & c' & d' & F1 & F2 & F3 & F4).
  rewrite F1, F2, F3, F4, E1, E2, E3, E4, <- !app_assoc. eauto 8.
Qed.
Lemma nth_keep {B} (l e : list B) i x : nth_error l i = Some x -> nth_error (l ++ e) i = Some x.
Proof. intro H. rewrite nth_error_app1; [exact H|]. apply nth_error_Some. congruence. Qed.
Lemma shown_vmap f s : shown f s = vmap (look (rw_cells (f_world f))) s.
Proof. reflexivity. Qed.

(** Whatever happens to Modules and States, a State taken before and a container looked at
    before still show what they showed, unless the program writes to a container. *)
Theorem C89_snapshot : forall nt f p, reachable nt f -> no_writes p ->
  let f' := fst (run objects f p) in
  (forall i s, nth_error (f_states f) i = Some s -> nth_error (f_states f') i = Some s /\ shown f' s = shown f s) /\
  (forall i a, nth_error (f_vals f) i = Some a -> nth_error (f_vals f') i = Some a /\ look (rw_cells (f_world f')) a = look (rw_cells (f_world f)) a).
Proof.
  intros nt f p R H f'. destruct (reachable_inv _ _ R) as ((Vw & Vd & Vs & Va) & _).
  destruct (run_sim p f (conj Vw (conj Vd (conj Vs Va))) H) as (_ & _ & e & C).
  destruct (run_env objects p f) as (ms & ds & ss & vs & _ & _ & E3 & E4). fold f' in C, E3, E4. split.
  - intros i s N. split; [rewrite E3; apply nth_keep, N|]. rewrite !shown_vmap, C. apply vmap_look_ext. apply (Vs s (nth_error_In _ _ N)).
  - intros i a N. split; [rewrite E4; apply nth_keep, N|]. rewrite C. apply look_ext. apply (Va a (nth_error_In _ _ N)).
Qed.

(** No two attributes, of one Module or of two, are the same Variable object. *)
Theorem C89_owner : forall nt f k r1 n1 r2 n2, reachable nt f -> node_cell (f_world f) k ->
  holds (f_world f) r1 n1 k -> holds (f_world f) r2 n2 k -> r1 = r2 /\ n1 = n2.
Proof. intros nt f k r1 n1 r2 n2 R N. destruct (reachable_inv _ _ R) as (_ & _ & O & _). apply (O k N). Qed.

(** A Variable object that exists never becomes an attribute of a Module it was not an
    attribute of: assigning it, merging it and updating from it store other objects. *)
Theorem C89_copied : forall nt f p k c r n, reachable nt f -> contents (f_world f) k = Some c -> node_cell (f_world f) k ->
  holds (f_world (fst (run objects f p))) r n k -> holds (f_world f) r n k.
Proof.
  intros nt f p k c r n R C N. destruct (run_old p f k (reachable_inv _ _ R)) as (_ & _ & H); [apply nth_error_Some; unfold contents in C; congruence|exact N|]. apply H.
Qed.

(** In particular the Modules of a merge share no Variable object with the Modules that
    were there. *)
Theorem C89_merged : forall nt f d ss k c r n, reachable nt f -> let f' := fst (step objects f (KMerge d ss)) in
  holds (f_world f') r n k -> node_cell (f_world f') k -> List.length (rw_heap (f_world f)) <= r -> contents (f_world f) k = Some c -> False.
Proof.
  intros nt f d ss k c r n R f' H N L C. assert (Lk : k < ncells (f_world f)) by (apply nth_error_Some; unfold contents in C; congruence).
  destruct (step_ev f (KMerge d ss) (reachable_inv _ _ R) eq_refl) as (E & _). fold f' in E.
  destruct (ev_holds _ _ E r n k H) as [(o & G & _)|[K|[_ K]]].
  - unfold rget_obj in G. assert (r < List.length (rw_heap (f_world f))) by (apply nth_error_Some; congruence). lia.
  - lia.
  - apply K, N.
Qed.

(** What pop_state returns belongs to the caller: no Module holds it, now or later. *)
Theorem C89_popped : forall nt f fuel m fs p s path k, reachable nt f ->
  let f1 := fst (step objects f (KPop fuel m fs)) in
  In s (skipn (List.length (f_states f)) (f_states f1)) -> In (path, RCell k) s ->
  forall r n, ~ holds (f_world (fst (run objects f1 p))) r n k.
Proof.
  intros nt f fuel m fs p s path k R f1 i j r n H. pose proof (reachable_inv _ _ R) as F. pose proof F as (V & ND & O & _).
  assert (G : node_cell (f_world f1) k /\ forall r n, ~ holds (f_world f1) r n k).
  { unfold f1 in *. cbn [step] in i |- *. destruct (nth_error (f_mods f) m) as [q|]; [|cbn in i; rewrite skipn_all in i; destruct i]. cbn [o_pop objects] in i |- *.
    destruct (pop_gone fuel (f_world f) q fs ND O) as (_ & _ & Gn). destruct (rpop_state fuel (f_world f) q fs) as [w1 [ss|e]]; cbn [fst snd] in *; cbn in i |- *.
    - rewrite skipn_app, skipn_all, Nat.sub_diag in i. cbn in i. apply (Gn ss eq_refl s path k i j).
    - rewrite skipn_all in i. destruct i. }
  destruct G as [N G]. assert (F1 : finv f1) by (apply step_inv, F).
  assert (L : k < ncells (f_world f1)).
  { destruct F1 as ((_ & _ & Vs & _) & _). assert (is : In s (f_states f1)) by (rewrite <- (firstn_skipn (List.length (f_states f)) (f_states f1)); apply in_or_app; right; exact i).
    apply (Vs s is path (RCell k) j). }
  destruct (run_old p f1 k F1 L N) as (_ & _ & K). apply (G r n), (K r n H).
Qed.

(** [x.field = v] on a container: the attributes and State entries that are this object
    show the new contents, nothing else changes; at most one attribute is concerned when
    it is a Variable. *)
Theorem C89_write : forall nt f x k fld v, reachable nt f -> nth_error (f_vals f) x = Some (RCell k) ->
  exists c, contents (f_world f) k = Some c /\
  let f' := fst (step objects f (KWrite x fld v)) in let new := cont_write c fld v in
  snd (step objects f (KWrite x fld v)) = ODone /\
  f_mods f' = f_mods f /\ f_defs f' = f_defs f /\ f_states f' = f_states f /\ f_vals f' = f_vals f /\
  (forall j, contents (f_world f') j = if Nat.eqb j k then Some new else contents (f_world f) j) /\
  (forall r n, holds (f_world f) r n k -> rgetattr (f_world f') r n = Ok (read_attr (ACont new))) /\
  (forall r n, ~ holds (f_world f) r n k -> rgetattr (f_world f') r n = rgetattr (f_world f) r n) /\
  (forall s path, In s (f_states f) -> dget path (shown f' s) =
     match dget path s with Some (RCell j) => if Nat.eqb j k then Some (ACont new) else dget path (shown f s) | _ => dget path (shown f s) end).
Proof.
  intros nt f x k fld v R Ex. destruct (reachable_inv _ _ R) as ((Vw & Vd & Vs & Va) & ND & O & _).
  assert (L : k < ncells (f_world f)) by (apply (Va (RCell k) (nth_error_In _ _ Ex))).
  destruct (nth_error (rw_cells (f_world f)) k) as [c|] eqn:C; [|apply nth_error_None in C; exfalso; apply (Nat.lt_irrefl k), (Nat.lt_le_trans _ _ _ L C)].
  exists c. split; [exact C|]. destruct (write_effect (f_world f) k fld v c C) as (w' & E & Wr & H). pose proof Wr as (Hh & _).
  assert (S0 : step objects f (KWrite x fld v) = (with_world f w', ODone)) by (cbn [step o_write objects]; rewrite Ex, E; reflexivity).
  rewrite S0. cbn [fst snd]. cbn zeta. cbn [f_world with_world f_mods f_defs f_states f_vals].
  do 5 (split; [reflexivity|]). split; [exact H|].
  assert (Lk : look (rw_cells w') (RCell k) = ACont (cont_write c fld v)) by (cbn; rewrite H, Nat.eqb_refl; reflexivity).
  assert (Lo : forall a, a <> RCell k -> look (rw_cells w') a = look (rw_cells (f_world f)) a).
  { intros [u|j] Na; [reflexivity|]. cbn. rewrite H. destruct (Nat.eqb_spec j k); [congruence|reflexivity]. }
  split; [|split].
  - intros r n (o & G & i). unfold rgetattr, rget_obj in *. rewrite Hh, G. rewrite (In_dget n (RCell k) (ro_vars o) (ND r o G) i). rewrite Lk. reflexivity.
  - intros r n Hn. unfold rgetattr, rget_obj in *. rewrite Hh. destruct (nth_error (rw_heap (f_world f)) r) as [o|] eqn:G; [|reflexivity].
    destruct (dget n (ro_vars o)) as [a|] eqn:Ga; [|reflexivity]. rewrite Lo; [reflexivity|]. intro Ea. subst a. apply Hn. exists o. split; [exact G|apply dget_In, Ga].
  - intros s path _. rewrite !shown_vmap, !vmap_dget. cbn [f_world with_world]. destruct (dget path s) as [[u|j]|]; cbn [option_map]; [reflexivity| |reflexivity].
    destruct (Nat.eqb_spec j k) as [e|e]; [subst j; rewrite Lk; reflexivity|]. rewrite Lo by congruence. reflexivity.
Qed.

(** What a written container is: the same class, the field has the value, the other
    fields are as before. *)
Theorem C89_write_field : forall c fld v,
  c_cls (cont_write c fld v) = c_cls c /\
  (fld = "value" -> c_val (cont_write c fld v) = v /\ c_meta (cont_write c fld v) = c_meta c) /\
  (fld <> "value" -> c_val (cont_write c fld v) = c_val c /\ dget fld (c_meta (cont_write c fld v)) = Some v /\
     forall g, g <> fld -> dget g (c_meta (cont_write c fld v)) = dget g (c_meta c)).
Proof.
  intros c fld v. split; [apply write_cls|]. unfold cont_write. destruct (String.eqb_spec fld "value") as [e|e]; (split; [intro|intro]); try contradiction.
  - auto.
  - cbn. split; [reflexivity|]. split; [apply dget_dset_same|]. intros g Hg. apply dget_dset_other. congruence.
Qed.

(** [m.get_state()[path].field = v]: get_state afterwards gives the same objects, and the
    entry at this path, and no other entry, shows the change. *)
Theorem C89_write_state : forall nt f r s path x k fld v, reachable nt f -> rget_state (f_world f) r = Ok s ->
  dget path s = Some (RCell k) -> nth_error (f_vals f) x = Some (RCell k) ->
  exists c, contents (f_world f) k = Some c /\
  let f' := fst (step objects f (KWrite x fld v)) in
  rget_state (f_world f') r = Ok s /\
  forall q, dget q (shown f' s) = if String.eqb q path then Some (ACont (cont_write c fld v)) else dget q (shown f s).
Proof.
  intros nt f r s path x k fld v R Es Ep Ex. destruct (reachable_inv _ _ R) as ((Vw & Vd & Vs & Va) & ND & O & _).
  assert (L : k < ncells (f_world f)) by (apply (Va (RCell k) (nth_error_In _ _ Ex))).
  destruct (nth_error (rw_cells (f_world f)) k) as [c|] eqn:C; [|apply nth_error_None in C; exfalso; apply (Nat.lt_irrefl k), (Nat.lt_le_trans _ _ _ L C)].
  exists c. split; [exact C|]. destruct (write_effect (f_world f) k fld v c C) as (w' & E & Wr & H).
  assert (S0 : step objects f (KWrite x fld v) = (with_world f w', ODone)) by (cbn [step o_write objects]; rewrite Ex, E; reflexivity).
  rewrite S0. cbn [fst snd]. cbn zeta. cbn [f_world with_world]. split; [rewrite (state_written _ _ r Wr); exact Es|].
  intro q. rewrite !shown_vmap, !vmap_dget. cbn [f_world with_world]. destruct (String.eqb_spec q path) as [e|e].
  - subst q. rewrite Ep. cbn. rewrite H, Nat.eqb_refl. reflexivity.
  - destruct (dget q s) as [[u|j]|] eqn:Eq; cbn [option_map look]; [reflexivity| |reflexivity]. rewrite H. destruct (Nat.eqb_spec j k) as [e2|e2]; [|reflexivity].
    subst j. exfalso. apply e. apply (state_once (f_world f) O ND r s q path k Es); apply dget_In; assumption.
Qed.

(** ** Concrete cases *)
Definition Net : cls := ["Net"; "Module"; "object"].
Definition P0 (n : Z) : container := mkCont Param_cls [("sharding", PyNone)] (PyInt n).
(** [m = Net(); x = Param(1); m.w = x; m.b = x; m.c = Static(5); s = m.get_state();
    y = s['w']] *)
Definition prog1 : list cmd :=
  [KNew Net; KCont Param_cls (PyInt 1) []; KSet 0 "w" (GVar 0); KSet 0 "b" (GVar 0);
   KCont Static_cls (PyInt 5) []; KSet 0 "c" (GVar 1); KState 0; KItem 0 "w"].
Definition f1 : conf rworld rattr rdef := fst (run objects (start (rworld0 default_node_types)) prog1).
Lemma f1_reachable : reachable default_node_types f1.
Proof. exists prog1. unfold f1. reflexivity. Qed.

(** [m.w = x; m.b = x] made two objects, neither of them [x]; the State and [y] share the
    first with [m]. *)
Example C89_ex_cells :
  option_map ro_vars (rget_obj (f_world f1) 0) = Some [("w", RCell 1); ("b", RCell 2); ("c", RCell 4)] /\
  f_states f1 = [[("b", RCell 2); ("w", RCell 1)]] /\ f_vals f1 = [RCell 0; RCell 3; RCell 1] /\
  contents (f_world f1) 0 = Some (P0 1) /\ contents (f_world f1) 1 = Some (P0 1) /\ node_cell (f_world f1) 1 /\ ~ node_cell (f_world f1) 4.
Proof. do 6 (split; [vm_compute; reflexivity|]). intro H. vm_compute in H. discriminate H. Qed.
(** the hypotheses of C89_by_value and C89_snapshot: the rest of a program that writes to
    no container but changes the Module in every other way *)
Definition prog2 : list cmd :=
  [KPart 0 [FEllipsis]; KMerge 0 [1]; KSet 0 "w" (GVal (PyInt 7)); KUpdate 1 [0]; KPop 10 0 [FEllipsis]; KPrint 0; KShow 2; KGet 1 "w"; KGet 0 "w"].
Example C89_ex_no_writes : no_writes prog2 /\
  snd (run objects f1 prog2) =
  [ODone; ODone; ODone; ODone; ODone; OState [("b", ACont (P0 1)); ("w", ACont (P0 1))]; OVal (ACont (P0 1)); ORead (RVal (PyInt 1)); OErr AttributeError].
Proof. split; [|vm_compute; reflexivity]. intros k i. repeat (destruct i as [i|i]; [subst k; reflexivity|]). destruct i. Qed.
(** the hypotheses of C89_write and C89_write_state, and C89_owner *)
Example C89_ex_write : nth_error (f_vals f1) 2 = Some (RCell 1) /\ holds (f_world f1) 0 "w" 1 /\ ~ holds (f_world f1) 0 "b" 1 /\
  rget_state (f_world f1) 0 = Ok [("b", RCell 2); ("w", RCell 1)] /\
  snd (run objects f1 [KWrite 2 "value" (PyInt 2); KGet 0 "w"; KGet 0 "b"; KShow 0; KState 0]) =
  [ODone; ORead (RVal (PyInt 2)); ORead (RVal (PyInt 1)); OVal (ACont (P0 1)); OState [("b", ACont (P0 1)); ("w", ACont (P0 2))]].
Proof.
  split; [vm_compute; reflexivity|]. split; [eexists; split; [vm_compute; reflexivity|left; reflexivity]|]. split; [|split; vm_compute; reflexivity].
  intros (o & G & i). vm_compute in G. inversion G; subst. repeat (destruct i as [i|i]; [discriminate i|]). destruct i.
Qed.
(** the hypotheses of C89_popped: [w] is popped, written to and merged back *)
Example C89_ex_popped :
  let p := [KPop 10 0 [FEllipsis]] in
  f_states (fst (run objects f1 p)) = f_states f1 ++ [[("b", RCell 2); ("w", RCell 1)]] /\
  snd (run objects f1 (p ++ [KUpdate 0 [1]; KWrite 2 "value" (PyInt 9); KGet 0 "w"; KPrint 1])) =
  [ODone; ODone; ODone; ORead (RVal (PyInt 1)); OState [("b", ACont (P0 1)); ("w", ACont (P0 9))]].
Proof. split; vm_compute; reflexivity. Qed.
(** the hypotheses of C89_merged *)
Example C89_ex_merged : let f2 := fst (run objects f1 [KPart 0 [FEllipsis]]) in let f3 := fst (step objects f2 (KMerge 0 [1])) in
  snd (step objects f2 (KMerge 0 [1])) = ODone /\
  option_map ro_vars (rget_obj (f_world f3) 1) = Some [("c", RCell 4); ("b", RCell 5); ("w", RCell 6)].
Proof. split; vm_compute; reflexivity. Qed.

(** ** What does not hold when containers are written to *)

(** A State is a snapshot, whatever the program does next: false, because a container
    obtained from another State, or from [vars(m)], is the same object. *)
Theorem C89_snapshot_refuted : ~ (forall nt f p i s, reachable nt f -> nth_error (f_states f) i = Some s ->
  shown (fst (run objects f p)) s = shown f s).
Proof. intro H. specialize (H _ f1 [KWrite 2 "value" (PyInt 2)] 0 [("b", RCell 2); ("w", RCell 1)] f1_reachable ltac:(vm_compute; reflexivity)). vm_compute in H. discriminate H. Qed.

(** A Module from outside a trace cannot be changed inside it: false, because only
    assignments to Modules are guarded and a container of the Module can be written to. *)
Theorem C89_guard_refuted : ~ (forall nt f p r n e, reachable nt f ->
  (forall v, rsetattr (f_world f) r n (RRaw v) = Err TraceContextError) -> rget_obj (f_world f) r = Some e ->
  rgetattr (f_world (fst (run objects f p))) r n = rgetattr (f_world f) r n).
Proof.
  intro H. pose (f2 := fst (run objects f1 [KTrace (1, 1)])).
  assert (R : reachable default_node_types f2) by (exists (prog1 ++ [KTrace (1, 1)]); vm_compute; reflexivity).
  assert (T : forall v, rsetattr (f_world f2) 0 "w" (RRaw v) = Err TraceContextError) by (intro v; vm_compute; reflexivity).
  assert (G : exists e, rget_obj (f_world f2) 0 = Some e) by (eexists; vm_compute; reflexivity). destruct G as [e G].
  specialize (H _ f2 [KWrite 2 "value" (PyInt 2)] 0 "w" _ R T G). vm_compute in H. discriminate H.
Qed.

(** A merged Module shares nothing that can be written to with the Module the state was
    taken from: false for Static containers, which travel in the ModuleDef as objects. *)
Theorem C89_static_refuted : ~ (forall nt f p d ss r n k c, reachable nt f -> let f' := fst (run objects f (p ++ [KMerge d ss])) in
  holds (f_world f') r n k -> List.length (rw_heap (f_world f)) <= r -> contents (f_world f) k = Some c -> False).
Proof.
  intro H. refine (H _ f1 [KPart 0 [FEllipsis]] 0 [1] 1 "c" 4 _ f1_reachable _ _ _).
  - eexists. split; [vm_compute; reflexivity|left; reflexivity].
  - vm_compute. lia.
  - vm_compute. reflexivity.
Qed.
Example C89_ex_static : snd (run objects f1 [KPart 0 [FEllipsis]; KMerge 0 [1]; KAttr 1 "c"; KWrite 3 "value" (PyInt 6); KGet 0 "c"])
  = [ODone; ODone; OVal (ACont (mkCont Static_cls [] (PyInt 5))); ODone; ORead (RVal (PyInt 6))].
Proof. vm_compute. reflexivity. Qed.

Print Assumptions C89_by_value.
Print Assumptions C89_snapshot.
Print Assumptions C89_owner.
Print Assumptions C89_copied.
Print Assumptions C89_merged.
Print Assumptions C89_popped.
Print Assumptions C89_write.
Print Assumptions C89_write_field.
Print Assumptions C89_write_state.
Print Assumptions C89_snapshot_refuted.
Print Assumptions C89_guard_refuted.
Print Assumptions C89_static_refuted.
