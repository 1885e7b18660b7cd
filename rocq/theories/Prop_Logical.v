(** Prop_Logical: C78, logically partitioned variables. *)
From Coq Require Import ZArith.
From Verif Require Import PyBase PyBaseFacts ValuesM Spec_Eq ValuesFacts StateM SpmdM LogicalM Spec_Spmd Spmd_proofs Spec_Logical ModuleM
  Spec_Module Graph_facts Ex_Module Logical_proofs Prop_Spmd.
Local Open Scope string_scope.
Local Open Scope list_scope.

(** *** Making a variable *)
(** [Param(with_logical_partitioning(init, s, mesh, rules, **md)(...), **kw)]: the
    new value is asked to have the layout the rules give; the variable holds the
    value, carries the options and the extra metadata, and these win over
    keywords given to the constructor. *)
Theorem C78_variable :
  forall (init : initializer) (fn : nat) (s : option sharding) (mesh : pyval) (rules : option logical_rules) (md : dict pyval) (y : pyval)
         (c : cls) (kw : dict pyval) (global_mesh : bool) (current : logical_rules),
  smem "Static" c = false -> In "Variable" c -> In "Node" c -> In "Container" c ->
  NoDup (keys kw) -> ~ In "value" (keys kw) ->
  NoDup (keys md) -> (forall k, In k (keys md) -> ~ In k ["value"; "initializer"; "unbox_fn"; "sharding"; "mesh"; "rules"]) ->
  init [] = Ok y ->
  exists f r, with_logical_partitioning init fn s mesh rules md = Ok f /\
    asked s (global_mesh = true \/ mesh <> PyNone) (match rules with Some r => r | None => current end) r /\
    (forall e, r = Err e -> f [] global_mesh current = Err e) /\
    (forall k, r = Ok k -> exists a v, f [] global_mesh current = Ok (a, k) /\ container_call c a kw = Ok v /\
       c_cls v = c /\ c_val v = y /\ wf_container v /\ partitioned v fn s mesh rules /\
       (forall k x, In (k, x) md -> dget k (c_meta v) = Some x) /\
       (forall k x, In (k, x) kw -> ~ In k (keys md) -> ~ In k ["unbox_fn"; "sharding"; "mesh"; "rules"] -> dget k (c_meta v) = Some x)).
Proof.
  intros init fn s mesh rules md y c kw g cur St Va No Co Nk Vk Nm Hm I.
  assert (H : forall k, In k (keys md) -> ~ In k logical_names) by (intros k K J; apply (Hm k K); right; exact J).
  unfold with_logical_partitioning. rewrite (logical_metadata_ok fn s mesh rules md H). cbn [rbind].
  eexists. exists (constrain_new g cur s mesh rules). split; [reflexivity|]. split; [apply new_asked|].
  cbn [with_metadata]. rewrite I. cbn [rbind]. split; [intros e ->; reflexivity|]. intros k ->. cbn [rbind].
  destruct (variable_made c fn s mesh rules md kw y _ St Va No Co Nk Vk Nm (fun V => Hm _ V (or_introl eq_refl)) (logical_metadata_ok fn s mesh rules md H))
    as (v & E & C1 & C2 & W & P & M & K).
  do 2 eexists. split; [reflexivity|]. split; [exact E|]. repeat split; try assumption; try apply W; try apply P.
  intros k' x J J1 J2. apply (K k' x J). unfold keys. rewrite map_app, in_app_iff. intros [Q|Q]; [|exact (J1 Q)]. apply J2. exact Q.
Qed.
Print Assumptions C78_variable.

(** *** Reading it *)
(** A read gives the value; what is asked of jax is the layout of the variable's
    partition spec under its own rules, or under those in force if it has none. *)
Theorem C78_read :
  forall (has_shape : pyval -> bool) (global_mesh : bool) (current : logical_rules) (c : container) (fn : nat) (s : option sharding) (mesh : pyval)
         (rules : option logical_rules),
  partitioned c fn s mesh rules ->
  exists p r, spec_of has_shape (ACont c) p /\
    asked p (global_mesh = true \/ mesh <> PyNone) (match rules with Some r => r | None => current end) r /\
    unbox has_shape global_mesh current c = rmap (fun k => (c_val c, k)) r.
Proof. exact read_asked. Qed.
Print Assumptions C78_read.
(** With dimension names, a read asks for what creation asked for. *)
Theorem C78_read_as_created :
  forall (has_shape : pyval -> bool) (global_mesh : bool) (current : logical_rules) (c : container) (fn : nat) (s : sharding) (mesh : pyval)
         (rules : option logical_rules),
  partitioned c fn (Some s) mesh rules -> s <> [] ->
  unbox has_shape global_mesh current c = rmap (fun k => (c_val c, k)) (constrain_new global_mesh current (Some s) mesh rules).
Proof. exact read_as_created. Qed.
Print Assumptions C78_read_as_created.
(** Names that occur twice are accepted where there is no mesh; every read under a
    mesh with rules is then a ValueError. *)
Theorem C78_names_twice :
  forall (has_shape : pyval -> bool) (current : logical_rules) (c : container) (fn : nat) (s : sharding) (rules : option logical_rules),
  partitioned c fn (Some s) PyNone rules -> ~ distinct_names s -> match rules with Some r => r | None => current end <> [] ->
  constrain_new false current (Some s) PyNone rules = Ok AsIs /\
  unbox has_shape false current c = Ok (c_val c, AsIs) /\
  unbox has_shape true current c = Err ValueError.
Proof.
  intros hs cur c fn s rules P N R. assert (S0 : s <> []) by (intros ->; apply N; intros i j x Q; destruct i; discriminate).
  split; [reflexivity|]. split; [rewrite (read_as_created hs false cur c fn s PyNone rules P S0); reflexivity|].
  rewrite (read_as_created hs true cur c fn s PyNone rules P S0). pose proof (new_asked true cur (Some s) PyNone rules) as A.
  inversion A as [M|Q|dims out M Q E D L|dims M Q E D]; [destruct M; left; reflexivity|destruct Q; [contradiction|discriminate]| |reflexivity].
  injection E as <-. contradiction.
Qed.
Print Assumptions C78_names_twice.

(** *** Assigning the attribute *)
(** A raw value assigned to the attribute is held with the same options; the
    attribute reads as the function applied to it. *)
Theorem C78_assign :
  forall (w : world) (r : nat) (o : mobj) (name : string) (c : container) (v : pyval) (fn : nat) (s : option sharding) (mesh : pyval) (rules : option logical_rules),
  get_obj w r = Some o -> trace_valid w (m_trace o) = true -> name <> "_module__state" ->
  dget name (m_vars o) = Some (ACont c) -> wf_container c -> partitioned c fn s mesh rules ->
  exists w' d, setattr w r name (ARaw v) = Ok w' /\ getattr w' r name = Ok (RUnbox (fn_val fn) d) /\
    c_val d = v /\ c_cls d = c_cls c /\ partitioned d fn s mesh rules.
Proof.
  intros w r o name c v fn s mesh rules G T Nn D W P. unfold setattr. rewrite G, T, D. cbn [negb].
  rewrite (proj2 (String.eqb_neq _ _) Nn). destruct (assigned_keeps c fn s mesh rules v W P) as (d & E & V & C & _ & Q).
  rewrite E. cbn [rbind]. do 2 eexists. split; [reflexivity|]. unfold getattr.
  assert (X : get_obj (put_obj w r (set_vars o (dset name (ACont d) (m_vars o)))) r = Some (set_vars o (dset name (ACont d) (m_vars o)))).
  { eapply get_put_same. exact G. }
  rewrite X. unfold set_vars. cbn [m_vars]. rewrite dget_dset_same. cbn [read_attr]. destruct Q as (Q0 & Q1 & Q). rewrite Q1.
  repeat split; try assumption; apply Q.
Qed.
Print Assumptions C78_assign.

(** Variables made by the same wrapped initializer are interchangeable. *)
Theorem C78_same_initializer :
  forall (c : cls) (y y' : pyval) (meta kw : dict pyval) (v v' : container),
  container_call c (CMeta y meta) kw = Ok v -> container_call c (CMeta y' meta) kw = Ok v' -> wf_container v ->
  is_equivalent v v' = true.
Proof. exact same_equivalent. Qed.
Print Assumptions C78_same_initializer.
(** Variables made by two calls of [with_logical_partitioning] never are, even with
    equal options: the functions that read them are different objects.  Assigning
    one to an attribute that holds the other is a ValueError. *)
Theorem C78_recreated_refuted :
  forall (c d : container) (fn gn : nat) (s s' : option sharding) (mesh mesh' : pyval) (rules rules' : option logical_rules),
  partitioned c fn s mesh rules -> partitioned d gn s' mesh' rules' -> fn <> gn ->
  is_equivalent c d = false /\
  forall w r o name, get_obj w r = Some o -> trace_valid w (m_trace o) = true -> name <> "_module__state" ->
    dget name (m_vars o) = Some (ACont c) -> setattr w r name (ACont d) = Err ValueError.
Proof.
  intros c d fn gn s s' mesh mesh' rules rules' P Q H. destruct (other_function c d fn gn s mesh rules s' mesh' rules' P Q H) as (E & A).
  split; [exact E|]. intros w r o name G T Nn D. unfold setattr. rewrite G, T, D. cbn [negb]. rewrite (proj2 (String.eqb_neq _ _) Nn), A. reflexivity.
Qed.
Print Assumptions C78_recreated_refuted.

Definition ex_logical (fn v : nat) : container :=
  mkCont Param_cls [("sharding", sharding_val [Some "embed"; Some "heads"]); ("unbox_fn", fn_val fn); ("mesh", PyNone); ("rules", rules_val (Some ex_rules))]
    (PyObj Array_cls v).
(** Two instances of the same class built by the same code: the state of one
    cannot be written into the other with [update_state], although merging it
    with the other's definition works. *)
Definition ex_two : world := mkWorld
  [ mkMobj (Mod_cls "Dense") 1 false (0, 0) [("kernel", ACont (ex_logical 1 10)); ("bias", param 11)];
    mkMobj (Mod_cls "Dense") 2 false (0, 0) [("kernel", ACont (ex_logical 2 20)); ("bias", param 21)] ]
  2 (0, 0) default_node_types.
Theorem C78_update_state_refuted :
  exists (w : world) (s : state) (k : container),
  wf_world w /\ get_state w 1 = Ok s /\ dget "kernel" s = Some (ACont k) /\
  (exists fn, partitioned k fn (Some [Some "embed"; Some "heads"]) PyNone (Some ex_rules)) /\
  snd (update_state w 0 (UStates (One s))) = Err ValueError /\
  exists d s0 r w', module_partition w 0 [] = Ok (mkPure (One s0) d) /\ merge w d [s] = Ok (r, w').
Proof.
  exists ex_two. eexists. exists (ex_logical 2 20). split; [apply wf_worldb_ok; vm_compute; reflexivity|].
  split; [vm_compute; reflexivity|]. split; [reflexivity|]. split; [exists 2; split; [cbn; tauto|repeat split]|].
  split; [vm_compute; reflexivity|]. do 4 eexists. split; vm_compute; reflexivity.
Qed.
Print Assumptions C78_update_state_refuted.
(** The wrapped initializer takes no keyword arguments, whatever the initializer takes. *)
Theorem C78_keyword_refuted :
  forall (init : initializer) (fn : nat) (s : option sharding) (mesh : pyval) (rules : option logical_rules) (md : dict pyval) (kwargs : dict pyval)
         f (global_mesh : bool) (current : logical_rules),
  with_logical_partitioning init fn s mesh rules md = Ok f -> kwargs <> [] -> f kwargs global_mesh current = Err TypeError.
Proof.
  intros init fn s mesh rules md kwargs f g cur H K. unfold with_logical_partitioning in H.
  destruct (logical_metadata fn s mesh rules md); [|discriminate]. cbn [rbind] in H. injection H as <-.
  destruct kwargs; [congruence|reflexivity].
Qed.
Print Assumptions C78_keyword_refuted.
Theorem C78_option_twice :
  forall (init : initializer) (fn : nat) (s : option sharding) (mesh : pyval) (rules : option logical_rules) (md : dict pyval) (k : string),
  In k (keys md) -> In k ["initializer"; "unbox_fn"; "sharding"; "mesh"; "rules"] ->
  with_logical_partitioning init fn s mesh rules md = Err TypeError.
Proof.
  intros init fn s mesh rules md k I J. unfold with_logical_partitioning. rewrite (logical_metadata_bad fn s mesh rules md k I J). reflexivity.
Qed.
Print Assumptions C78_option_twice.

(** *** Trees of specs *)
Theorem C78_mesh_tree :
  forall (current : logical_rules) (rules : option logical_rules) (t : spec_tree sharding),
  let rs := match rules with Some r => r | None => current end in
  ((forall s, spec_in s t -> distinct_names s) ->
     exists u, logical_to_mesh current rules t = Ok u /\ tree_rel (fun s m => laid_out s rs m) t u) /\
  ((exists s, spec_in s t /\ ~ distinct_names s) -> logical_to_mesh current rules t = Err ValueError).
Proof. exact mesh_tree. Qed.
Print Assumptions C78_mesh_tree.
(** The shardings of a State, from its partition specs: each variable under its
    key, with the mesh and the layout of its spec; what has no spec stays None. *)
Theorem C78_state_shardings :
  forall (has_shape : pyval -> bool) (current : logical_rules) (rules : option logical_rules) (mesh : pyval) (s : state),
  let rs := match rules with Some r => r | None => current end in
  (forall k a, In (k, a) s -> covered a /\ exists v, state_value a v) ->
  (forall k a dims, In (k, a) s -> has_sharding a dims -> distinct_names dims) ->
  exists t u, get_partition_spec has_shape s = Ok t /\ logical_to_mesh_sharding current rules mesh (spec_state t) = Ok (TNode u) /\
    Forall2 (fun x y => fst x = fst y /\ exists p, spec_of has_shape (snd x) p /\
      match p with None => snd y = TNone | Some dims => exists out, snd y = TSpec (mesh, out) /\ laid_out dims rs out end) s u.
Proof. exact state_shardings. Qed.
Print Assumptions C78_state_shardings.

(** A Param made with the rules of [ex_rules], read without and under a mesh, after
    an assignment; the shardings of a state. *)
Definition ex_init : initializer := fun kw => match kw with [] => Ok (PyObj Array_cls 5) | _ => Ok (PyObj Array_cls 6) end.
Definition ex_arr (v : pyval) : bool := match v with PyObj _ _ => true | _ => false end.
Example C78_example :
  partitioned (ex_logical 1 10) 1 (Some [Some "embed"; Some "heads"]) PyNone (Some ex_rules) /\
  wf_container (ex_logical 1 10) /\
  (exists f a, with_logical_partitioning ex_init 1 (Some [Some "embed"; Some "heads"]) PyNone (Some ex_rules) [("note", PyStr "n")] = Ok f /\
     f [] true [] = Ok (a, Constrain (Some [MAxis "x"; MNone])) /\ f [] false [] = Ok (a, AsIs) /\
     container_call Param_cls a [("sharding", PyNone); ("lr", PyInt 3%Z)] =
       Ok (mkCont Param_cls [("sharding", sharding_val [Some "embed"; Some "heads"]); ("lr", PyInt 3%Z); ("unbox_fn", fn_val 1); ("mesh", PyNone);
         ("rules", rules_val (Some ex_rules)); ("note", PyStr "n")] (PyObj Array_cls 5))) /\
  unbox ex_arr false [] (ex_logical 1 10) = Ok (PyObj Array_cls 10, AsIs) /\
  unbox ex_arr true [] (ex_logical 1 10) = Ok (PyObj Array_cls 10, Constrain (Some [MAxis "x"; MNone])) /\
  (exists w d, setattr ex_two 0 "kernel" (ARaw (PyInt 9%Z)) = Ok w /\ getattr w 0 "kernel" = Ok (RUnbox (fn_val 1) d) /\ c_val d = PyInt 9%Z) /\
  ~ distinct_names [Some "embed"; Some "embed"] /\
  logical_to_mesh_sharding ex_rules None (PyObj ["Mesh"] 1)
      (TNode [("a", TSpec [Some "embed"; Some "heads"]); ("b", TNone); ("c", TNode [("d", TSpec [])])]) =
    Ok (TNode [("a", TSpec (PyObj ["Mesh"] 1, [MAxis "x"; MNone])); ("b", TNone); ("c", TNode [("d", TSpec (PyObj ["Mesh"] 1, []))])]).
Proof.
  split; [split; [cbn; tauto|repeat split]|]. split; [apply wf_containerb_ok; reflexivity|].
  split; [do 2 eexists; split; [reflexivity|]; split; [reflexivity|]; split; reflexivity|].
  split; [reflexivity|]. split; [reflexivity|]. split; [do 2 eexists; split; [vm_compute; reflexivity|]; split; vm_compute; reflexivity|].
  split; [|reflexivity]. intros D. specialize (D 0 1 "embed" eq_refl eq_refl). discriminate.
Qed.
