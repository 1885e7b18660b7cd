(** Properties C01-C18 and C20 of Modules.  [wf_world] holds in every interpreter
    state that any program can reach (C20). *)
From Coq Require Import Permutation.
From Verif Require Import PyBase PyBaseFacts ValuesM Spec_Eq FiltersM StateM Spec_State ModuleM PureM Spec_Module Spec_History.
From Verif Require Import Graph_facts Dfs_proofs Clone_proofs Mdef_proofs Write_proofs Pop_proofs ForEach_proofs History_proofs Call_proofs Laws_proofs Refuse_proofs Ex_Module.
Local Open Scope string_scope.
Local Open Scope list_scope.

(** *** C01: following attribute names in the copy gives what it gives in the original *)
Theorem C01_round_trip :
  forall (w : world) (r : nat), wf_world w -> r < List.length (w_heap w) -> names_ok w r ->
  exists m w', clone w r = Ok (m, w') /\ forall path, look w' m path = look w r path.
Proof. intros w r Hw Hr Hn. destruct (clone_faithful w r Hw Hr Hn) as (m & w' & E & F). exists m, w'. split; [exact E|apply F]. Qed.
Print Assumptions C01_round_trip.

(** the same for partition followed by merge, possibly much later in another
    interpreter state [wb] *)
Theorem C01_partition_merge :
  forall (w : world) (r : nat) (p : pure) (wb : world), wf_world w -> r < List.length (w_heap w) -> names_ok w r ->
  module_partition w r [] = Ok p ->
  exists m wb', pure_merge wb p = Ok (m, wb') /\ forall path, look wb' m path = look w r path.
Proof.
  intros w r p wb Hw Hr Hn Hp. destruct (partition_merge_faithful w r [] p wb _ Hw Hr Hn Hp (Permutation_refl _)) as (m & wb' & E & F).
  exists m, wb'. split; [exact E|apply F].
Qed.
Print Assumptions C01_partition_merge.

(** Without the condition on names the claim is false: a node attribute whose name
    contains ["/"] (setattr accepts it) cannot be cloned. *)
Definition ex_slash : world := mkWorld [mkMobj (Mod_cls "Net") 1 false (0, 0) [("a/b", param 1)]] 1 (0, 0) default_node_types.
Theorem C01_slash_in_name_refuted :
  exists w r, wf_world w /\ r < List.length (w_heap w) /\ clone w r = Err KeyError.
Proof. exists ex_slash, 0. split; [apply wf_worldb_ok; vm_compute; reflexivity|]. split; [cbn; lia|]. vm_compute. reflexivity. Qed.
Print Assumptions C01_slash_in_name_refuted.

Example C01_example : wf_world ex_cyc /\ 0 < List.length (w_heap ex_cyc) /\ names_ok ex_cyc 0 /\
  look ex_cyc 0 ["inp"; "norm"; "parent"; "out"; "buf"] = SValue (arr 13).
Proof. destruct ex_cyc_ok as (A & B & C & D). auto. Qed.

(** *** C02: paths lead to the same object in the copy iff they do in the original *)
Theorem C02_sharing :
  forall (w : world) (r : nat), wf_world w -> r < List.length (w_heap w) -> names_ok w r ->
  exists m w', clone w r = Ok (m, w') /\
    forall p q, ((exists x, follow w' m p = Some x) <-> (exists x, follow w r p = Some x)) /\
                (follow w' m p = follow w' m q <-> follow w r p = follow w r q).
Proof.
  intros w r Hw Hr Hn. destruct (clone_faithful w r Hw Hr Hn) as (m & w' & E & F). exists m, w'. split; [exact E|].
  intros p q. split; apply F.
Qed.
Print Assumptions C02_sharing.
Example C02_example : follow ex_cyc 0 ["inp"; "norm"] = follow ex_cyc 0 ["out"; "norm"] /\ follow ex_cyc 0 ["inp"; "norm"; "parent"] = follow ex_cyc 0 [] /\
  follow ex_cyc 0 ["inp"] <> follow ex_cyc 0 ["out"].
Proof. vm_compute. repeat split; congruence. Qed.

(** *** C03: nothing existing changes, everything below the copy is new, and no later
    assignment or deletion on one side is visible from the other *)
Theorem C03_fresh :
  forall (w : world) (r : nat), wf_world w -> r < List.length (w_heap w) -> names_ok w r ->
  exists m w', clone w r = Ok (m, w') /\
    (forall y o, get_obj w y = Some o -> get_obj w' y = Some o) /\
    (forall y, reaches w' m y -> get_obj w y = None) /\
    (forall y, reaches w' r y -> reaches w r y).
Proof.
  intros w r Hw Hr Hn. destruct (clone_bisim w r Hw Hr Hn) as (d & L & w' & objs & Hg & E & Hm).
  pose proof (merged_faithful _ _ _ _ _ _ _ Hw Hr Hg Hm) as F. exists (List.length (w_heap w)), w'. split; [exact E|]. split; [apply F|]. split; [apply F|].
  intros y Hy. apply (extends_reaches w w' r y Hw (merged_extends _ _ _ _ _ Hm) Hr Hy).
Qed.
Print Assumptions C03_fresh.

Theorem C03_isolated :
  forall (w : world) (r : nat) (m : nat) (w' : world), wf_world w -> r < List.length (w_heap w) -> names_ok w r ->
  clone w r = Ok (m, w') ->
  forall x n w2 path, ((exists a, setattr w' x n a = Ok w2) \/ delattr w' x n = Ok w2) ->
    (reaches w' m x -> look w2 r path = look w r path) /\
    (reaches w' r x -> look w2 m path = look w r path).
Proof.
  intros w r m w' Hw Hr Hn E x n w2 path Hset. destruct (C03_fresh w r Hw Hr Hn) as (m1 & w1 & E1 & K1 & K2 & K3).
  destruct (clone_faithful w r Hw Hr Hn) as (m2 & w1' & E2 & F). rewrite E in E1, E2. injection E1 as <- <-. injection E2 as <- <-.
  destruct (fc_wf _ _ _ _ _ F Hw) as [Hw' Hm].
  assert (Hr' : valid w' r). { destruct (get_obj w r) as [o|] eqn:Ho; [eapply get_obj_lt; apply K1; eauto|]. apply nth_error_None in Ho. lia. }
  assert (G : forall s, valid w' s -> ~ reaches w' s x -> look w2 s path = look w' s path).
  { intros s Hs Hx. destruct Hset as [[a Ha]|Hd]; [eapply setattr_unseen|eapply delattr_unseen]; eauto. }
  assert (Hrw : look w' r path = look w r path). { apply look_frame; auto. intros y Hy. destruct (reaches_valid _ _ _ Hy) as [o Ho]. rewrite Ho. auto. }
  split; intros Hx.
  - rewrite G; auto. intros Hrx. apply K3 in Hrx. apply K2 in Hx. destruct (reaches_valid _ _ _ Hrx). congruence.
  - rewrite G; auto; [apply F|]. intros Hmx. apply K2 in Hmx. apply K3 in Hx. destruct (reaches_valid _ _ _ Hx). congruence.
Qed.
Print Assumptions C03_isolated.
Example C03_example : exists w2 w3, clone ex_cyc 0 = Ok (5, w2) /\ setattr w2 6 "w" (ARaw (PyInt (BinInt.Z.of_nat 9))) = Ok w3 /\
  look w3 5 ["inp"; "w"] <> look ex_cyc 0 ["inp"; "w"].
Proof. do 2 eexists. split; [vm_compute; reflexivity|]. split; [vm_compute; reflexivity|]. vm_compute. congruence. Qed.

(** *** C04: get_state lists every node attribute of every reachable module exactly once *)
Theorem C04_get_state :
  forall (w : world) (r : nat), wf_world w -> r < List.length (w_heap w) -> names_ok w r ->
  exists s (path : nat -> string -> list string), get_state w r = Ok s /\ keys_increasing s /\
    (forall x n a, reaches w r x -> node_attr w x n a -> follow w r (path x n) = Some x) /\
    (forall k a, dget k s = Some a <-> exists x n, reaches w r x /\ node_attr w x n a /\ k = join_path (path x n ++ [n])) /\
    (forall x n a y m b, reaches w r x -> node_attr w x n a -> reaches w r y -> node_attr w y m b ->
       join_path (path x n ++ [n]) = join_path (path y m ++ [m]) -> x = y /\ n = m).
Proof. exact get_state_entries. Qed.
Print Assumptions C04_get_state.

(** termination needs no condition on names *)
Theorem C04_terminates :
  forall (w : world) (r : nat), wf_world w -> r < List.length (w_heap w) ->
  (exists s, get_state w r = Ok s) /\ (exists d, get_module_def w r = Ok d).
Proof. intros w r Hw Hr. split; [destruct (get_state_total w r Hw Hr) as (s & E & _); eauto|exact (get_module_def_total w r Hw Hr)]. Qed.
Print Assumptions C04_terminates.
Example C04_example : exists s, get_state ex_cyc 0 = Ok s /\ keys s = ["inp/norm/mean"; "inp/w"; "out/buf"; "out/w"; "w"].
Proof. eexists. split; [vm_compute; reflexivity|reflexivity]. Qed.

(** *** C05: partition of the copy is the partition of the original *)
Theorem C05_idempotent :
  forall (w : world) (r : nat), wf_world w -> r < List.length (w_heap w) -> names_ok w r ->
  exists m w', clone w r = Ok (m, w') /\ get_state w' m = get_state w r /\ get_module_def w' m = get_module_def w r /\
    forall fs, module_partition w' m fs = module_partition w r fs.
Proof.
  intros w r Hw Hr Hn. destruct (clone_faithful w r Hw Hr Hn) as (m & w' & E & F). exists m, w'. split; [exact E|].
  pose proof (fc_state _ _ _ _ _ F eq_refl Hw) as G1. pose proof (fc_def _ _ _ _ _ F eq_refl Hw) as G2. split; [exact G1|]. split; [exact G2|].
  intros fs. unfold module_partition. now rewrite G1, G2.
Qed.
Print Assumptions C05_idempotent.
(** the copy meets the same conditions, so the trip can be repeated *)
Theorem C05_repeatable :
  forall (w : world) (r m : nat) (w' : world), wf_world w -> r < List.length (w_heap w) -> names_ok w r ->
  clone w r = Ok (m, w') -> wf_world w' /\ m < List.length (w_heap w') /\ names_ok w' m.
Proof.
  intros w r m w' Hw Hr Hn E. destruct (clone_faithful w r Hw Hr Hn) as (m' & w1 & E' & F). rewrite E in E'. injection E' as <- <-.
  destruct (fc_wf _ _ _ _ _ F Hw) as [A B]. split; [exact A|]. split; [exact B|]. exact (fc_names _ _ _ _ _ F eq_refl Hn).
Qed.
Print Assumptions C05_repeatable.

(** *** C06: == on ModuleDefs is sameness of static structure *)
Theorem C06_equality :
  forall (w w' : world) (r r' : nat) (d d' : mdef), wf_world w -> wf_world w' ->
  get_module_def w r = Ok d -> get_module_def w' r' = Ok d' ->
  (mdef_eqb d d' = true <-> same_structure w r w' r').
Proof. intros w w' r r' d d' Hw Hw' H H'. split; [eapply mdef_eqb_sound|eapply mdef_eqb_complete]; eauto. Qed.
Print Assumptions C06_equality.
Theorem C06_equivalence :
  forall (w1 w2 w3 : world) (r1 r2 r3 : nat) (d1 d2 d3 : mdef), wf_world w1 -> wf_world w2 -> wf_world w3 ->
  get_module_def w1 r1 = Ok d1 -> get_module_def w2 r2 = Ok d2 -> get_module_def w3 r3 = Ok d3 ->
  mdef_eqb d1 d1 = true /\ (mdef_eqb d1 d2 = true -> mdef_eqb d2 d1 = true) /\
  (mdef_eqb d1 d2 = true -> mdef_eqb d2 d3 = true -> mdef_eqb d1 d3 = true).
Proof.
  intros w1 w2 w3 r1 r2 r3 d1 d2 d3 H1 H2 H3 D1 D2 D3.
  rewrite (C06_equality w1 w1 r1 r1 d1 d1), (C06_equality w1 w2 r1 r2 d1 d2), (C06_equality w2 w1 r2 r1 d2 d1), (C06_equality w2 w3 r2 r3 d2 d3),
    (C06_equality w1 w3 r1 r3 d1 d3) by assumption.
  split; [apply same_structure_refl|]. split; [apply same_structure_sym|apply same_structure_trans].
Qed.
Print Assumptions C06_equivalence.
(** hashing: for any hash of the parts that respects == of static values *)
Theorem C06_hash :
  forall (hc : cls -> nat) (ha : attr -> nat) (hs : string -> nat) (hn : nat -> nat) (mix : list nat -> nat),
  (forall a b, attr_eqb a b = true -> ha a = ha b) ->
  forall d e : mdef, mdef_eqb d e = true -> mdef_hash hc ha hs hn mix d = mdef_hash hc ha hs hn mix e.
Proof. exact mdef_hash_eq. Qed.
Print Assumptions C06_hash.
Example C06_example :
  (exists d d', get_module_def ex_cyc 0 = Ok d /\ get_module_def ex_dag 0 = Ok d' /\ mdef_eqb d d' = false) /\
  (exists d d', get_module_def ex_cyc 1 = Ok d /\ get_module_def ex_cyc 2 = Ok d' /\ mdef_eqb d d' = false).
Proof. split; do 2 eexists; (split; [vm_compute; reflexivity|split; [vm_compute; reflexivity|vm_compute; reflexivity]]). Qed.

(** *** C07: update_state changes exactly the given entries ([update_effect]) *)
Theorem C07_update_state :
  forall (w : world) (r : nat) (u : updates) (us : list state) (s : state),
  wf_world w -> r < List.length (w_heap w) -> names_ok w r -> live w r -> get_state w r = Ok s ->
  updates_states w u = Ok us ->
  (forall r2, u = UModule r2 -> exists o o2, get_obj w r = Some o /\ get_obj w r2 = Some o2 /\ m_cls o = m_cls o2) ->
  Forall (fun u : state => NoDup (keys u)) us ->
  (forall k a, latest k us = Some a -> wf_attr a /\ is_submodule a = false /\
     exists old res, dget k s = Some old /\ overwrites old a res /\ node_value w res) ->
  exists w', update_state w r u = (w', Ok tt) /\ update_effect w w' r s us.
Proof. exact update_state_effect. Qed.
Print Assumptions C07_update_state.

Definition ex_upd : state := [("inp/w", ARaw (PyObj Array_cls 99)); ("out/buf", arr 98)].
Example C07_example :
  exists s, get_state ex_cyc 0 = Ok s /\
  (forall k a, latest k [ex_upd] = Some a -> wf_attr a /\ is_submodule a = false /\
     exists old res, dget k s = Some old /\ overwrites old a res /\ node_value ex_cyc res) /\
  exists w', update_state ex_cyc 0 (UStates (One ex_upd)) = (w', Ok tt) /\ look w' 0 ["inp"; "w"] = SValue (param 99).
Proof.
  eexists. split; [vm_compute; reflexivity|]. split.
  - intros k a H. unfold ex_upd in H. cbn in H. destruct (String.eqb k "inp/w") eqn:E1.
    + injection H as <-. apply String.eqb_eq in E1. subst k. split; [exact I|]. split; [reflexivity|]. do 2 eexists. split; [vm_compute; reflexivity|]. split; [vm_compute; reflexivity|].
      exists "Node". vm_compute. auto 10.
    + destruct (String.eqb k "out/buf") eqn:E2; [|discriminate]. injection H as <-. apply String.eqb_eq in E2. subst k.
      split; [exact I|]. split; [reflexivity|]. do 2 eexists. split; [vm_compute; reflexivity|]. split; [vm_compute; reflexivity|]. exists "jax.Array". vm_compute. auto 10.
  - eexists. split; vm_compute; reflexivity.
Qed.

(** A module of another class is refused before anything is written. *)
Theorem C07_other_class :
  forall (w : world) (r r2 : nat) (s : state) (o o2 : mobj),
  get_state w r = Ok s -> get_obj w r = Some o -> get_obj w r2 = Some o2 -> m_cls o <> m_cls o2 ->
  update_state w r (UModule r2) = (w, Err AssertionError).
Proof.
  intros w r r2 s o o2 S O O2 N. unfold update_state. rewrite S, O, O2.
  destruct (cls_eqb (m_cls o) (m_cls o2)) eqn:E; [apply ValuesFacts.cls_eqb_eq in E; contradiction|reflexivity].
Qed.
Print Assumptions C07_other_class.
Example C07_other_class_example :
  exists s o o2, get_state ex_cyc 0 = Ok s /\ get_obj ex_cyc 0 = Some o /\ get_obj ex_cyc 1 = Some o2 /\ m_cls o <> m_cls o2.
Proof. do 3 eexists. split; [vm_compute; reflexivity|]. split; [reflexivity|]. split; [reflexivity|]. discriminate. Qed.

(** An entry of another container class or other metadata is refused; with
    C07_update_state this says exactly which updates are accepted. *)
Theorem C07_refused :
  forall (w : world) (r : nat) (u : updates) (us : list state) (s : state) (k0 : string) (a0 old0 : attr),
  wf_world w -> r < List.length (w_heap w) -> names_ok w r -> live w r -> get_state w r = Ok s ->
  updates_states w u = Ok us ->
  (forall r2, u = UModule r2 -> exists o o2, get_obj w r = Some o /\ get_obj w r2 = Some o2 /\ m_cls o = m_cls o2) ->
  Forall (fun u : state => NoDup (keys u)) us ->
  (forall k a, latest k us = Some a -> wf_attr a /\ is_submodule a = false /\ In k (keys s)) ->
  latest k0 us = Some a0 -> dget k0 s = Some old0 -> (forall res, ~ overwrites old0 a0 res) ->
  exists w', update_state w r u = (w', Err ValueError).
Proof. exact update_state_refused. Qed.
Print Assumptions C07_refused.
Example C07_refused_example :
  exists s a0 old0, get_state ex_cyc 0 = Ok s /\ latest "out/w" [[("out/w", stat 98)]] = Some a0 /\ dget "out/w" s = Some old0 /\ (forall res, ~ overwrites old0 a0 res).
Proof. do 3 eexists. split; [vm_compute; reflexivity|]. split; [vm_compute; reflexivity|]. split; [vm_compute; reflexivity|]. intros res (H & _). discriminate. Qed.

(** *** C08: update_state is not atomic *)
Definition ex_bad : state := [("inp/w", ARaw (PyObj Array_cls 99)); ("out/w", stat 98)].
Theorem C08_all_or_nothing_refuted :
  exists w r u w' e, wf_world w /\ names_ok w r /\ live w r /\ plain_updates w u /\
    update_state w r u = (w', Err e) /\ look w' r ["inp"; "w"] <> look w r ["inp"; "w"].
Proof.
  exists ex_cyc, 0, (UStates (One ex_bad)). do 2 eexists. destruct ex_cyc_ok as (A & B & C & D). split; [exact A|]. split; [exact B|]. split; [exact C|]. split.
  - constructor; [|constructor]. intros k a [[= <- <-]|[[= <- <-]|[]]]; (split; [|reflexivity]); [exact I|]. apply wf_containerb_ok. vm_compute. reflexivity.
  - split; [vm_compute; reflexivity|]. vm_compute. congruence.
Qed.
Print Assumptions C08_all_or_nothing_refuted.
(** What does hold when it raises (or not): the heap stays well-formed, modules keep
    identity, class and flags, nothing outside the module changes ([update_safe]) *)
Theorem C08_any_outcome_partial :
  forall (w : world) (r : nat) (u : updates) (w' : world) (res : result unit),
  wf_world w -> plain_updates w u -> update_state w r u = (w', res) -> update_safe w w' r.
Proof. exact update_state_safe. Qed.
Print Assumptions C08_any_outcome_partial.
(** and exactly the assignments before the failing one have been made *)
Theorem C08_prefix_partial :
  forall (items : list (string * attr)) (w : world) (r : nat) (w' : world) (e : exn),
  update_loop w r items = (w', Err e) ->
  exists done k a rest, items = done ++ (k, a) :: rest /\ update_loop w r done = (w', Ok tt) /\ set_path w' r (split_slash k) a = Err e.
Proof. exact update_loop_prefix. Qed.
Print Assumptions C08_prefix_partial.

(** *** C09: partition by filters, merge in any order *)
Theorem C09_partition_any_order :
  forall (w : world) (r : nat) (fs : list filt) (p : pure) (wb : world) (states : list state),
  wf_world w -> r < List.length (w_heap w) -> names_ok w r ->
  module_partition w r fs = Ok p -> Permutation states (sts_list (p_states p)) ->
  exists m wb', merge wb (p_def p) states = Ok (m, wb') /\ faithful_copy w r wb wb' m.
Proof. exact partition_merge_faithful. Qed.
Print Assumptions C09_partition_any_order.
Example C09_example :
  match module_partition ex_cyc 0 [FType "Param"; FType "BatchStat"; FEllipsis] with
  | Ok p => map keys (sts_list (p_states p)) = [["inp/w"; "out/w"; "w"]; ["inp/norm/mean"]; ["out/buf"]]
  | Err _ => False
  end.
Proof. vm_compute. reflexivity. Qed.

(** *** C10: trace guard *)
Theorem C10_setattr :
  forall (w : world) (x : nat) (n : string) (a : attr) (o : mobj),
  get_obj w x = Some o -> m_trace o <> w_trace w -> setattr w x n a = Err TraceContextError.
Proof. exact setattr_guard. Qed.
Print Assumptions C10_setattr.
Theorem C10_mutable_leaf :
  forall (w : world) (l : nat * string) (a : attr) (o : mobj),
  get_obj w (fst l) = Some o -> m_trace o <> w_trace w -> leaf_set w l a = Err TraceContextError.
Proof. intros w [x n] a o. exact (setattr_guard w x n a o). Qed.
Print Assumptions C10_mutable_leaf.
Theorem C10_sow :
  forall h (w : world) (x : nat) (vt : cls) (n : string) (v : pyval) (o : mobj),
  get_obj w x = Some o -> m_trace o <> w_trace w -> exists e, sow h w x vt n v = Err e.
Proof. exact sow_guard. Qed.
Print Assumptions C10_sow.
Theorem C10_update_state :
  forall (w : world) (r : nat) (u : updates) (s : state), wf_world w -> r < List.length (w_heap w) -> names_ok w r ->
  get_state w r = Ok s -> s <> [] ->
  (forall r2, u = UModule r2 -> exists o o2, get_obj w r = Some o /\ get_obj w r2 = Some o2 /\ m_cls o = m_cls o2) ->
  (forall x o, reaches w r x -> get_obj w x = Some o -> m_trace o <> w_trace w) ->
  update_state w r u = (w, Err TraceContextError).
Proof. exact update_state_guard. Qed.
Print Assumptions C10_update_state.
(** whatever is below it, update_state never changes a module of another trace level *)
Theorem C10_update_state_foreign_untouched :
  forall (w : world) (r : nat) (u : updates) (w' : world) (res : result unit), wf_world w -> plain_updates w u ->
  update_state w r u = (w', res) ->
  forall x o, get_obj w x = Some o -> m_trace o <> w_trace w -> get_obj w' x = Some o.
Proof. intros w r u w' res Hw Hu H. exact (us_trace _ _ _ (update_state_safe w r u w' res Hw Hu H)). Qed.
Print Assumptions C10_update_state_foreign_untouched.
Definition in_trace (t : trace_state) (w : world) : world := mkWorld (w_heap w) (w_uuid w) t (w_nodes w).
Example C10_example : forall x o, reaches (in_trace (1, 0) ex_cyc) 0 x -> get_obj (in_trace (1, 0) ex_cyc) x = Some o ->
  m_trace o <> w_trace (in_trace (1, 0) ex_cyc).
Proof. intros x o _ Ho. do 5 (destruct x as [|x]; [cbn in Ho; injection Ho as <-; discriminate|]). destruct x; discriminate. Qed.

(** *** C11: pop_state on acyclic graphs *)
Theorem C11_pop_state :
  forall (w : world) (r : nat) (fs : list filt) (fuel : nat), wf_world w -> r < List.length (w_heap w) -> names_ok w r -> acyclic w r ->
  fs <> [] -> Forall valid_filter fs -> List.length (w_heap w) < fuel ->
  exists w' x path, pop_state fuel w r fs = (w', Ok x) /\ pop_effect w w' r fs (sts_list x) path.
Proof. exact pop_state_acyclic. Qed.
Print Assumptions C11_pop_state.
Theorem C11_none_left :
  forall (w w' : world) (r : nat) (fs : list filt) (out : list state) (path : nat -> list string),
  pop_effect w w' r fs out path -> Forall valid_filter fs ->
  (forall f k k' a, In f fs -> matches f k a -> matches f k' a) ->
  forall y n a k f, reaches w' r y -> node_attr w' y n a -> In f fs -> ~ matches f k a.
Proof. exact pop_leaves_none. Qed.
Print Assumptions C11_none_left.
(** Without filters, or with something that is no filter, nothing is popped: the
    error is ValueError for no filter, else that of the first thing that is no
    filter. *)
Theorem C11_refused :
  forall (w : world) (r fuel : nat),
  pop_state fuel w r [] = (w, Err ValueError) /\
  forall (fs1 fs2 : list filt) (f : filt) (e : exn), Forall valid_filter fs1 -> to_predicate f = Err e ->
    pop_state fuel w r (fs1 ++ f :: fs2) = (w, Err e).
Proof.
  intros w r fuel. split; [reflexivity|]. intros fs1 fs2 f e H E. unfold pop_state.
  assert (G : rmapM to_predicate (fs1 ++ f :: fs2) = Err e).
  { induction H as [|g l Hg H IH]; cbn [app rmapM]; [now rewrite E|]. apply State_proofs.to_predicate_ok_iff in Hg as [q Hq]. rewrite Hq. cbn [rbind]. now rewrite IH. }
  rewrite G. destruct (fs1 ++ f :: fs2) eqn:N; [destruct fs1; discriminate|reflexivity].
Qed.
Print Assumptions C11_refused.
Example C11_refused_example : Forall valid_filter [FType "Param"] /\ to_predicate FInt = Err ValueError /\ to_predicate (FNot (FStr "a")) = Err TypeError.
Proof. repeat constructor. Qed.
Example C11_example :
  exists w' x, pop_state 10 ex_dag 0 [FType "BatchStat"; FType "Param"] = (w', Ok x) /\
    map keys (sts_list x) = [["out/norm/mean"]; ["inp/w"; "out/w"; "w"]] /\ look w' 0 ["out"; "buf"] = SValue (arr 13) /\ look w' 0 ["inp"; "w"] = SNothing.
Proof. do 2 eexists. split; [vm_compute; reflexivity|]. vm_compute. auto. Qed.

(** *** C12: pop_state does not work on cyclic graphs: it never returns, whatever the
    recursion limit, on any module below which there is a cycle *)
Theorem C12_pop_state_cyclic_refuted :
  exists w r fs, wf_world w /\ r < List.length (w_heap w) /\ names_ok w r /\ live w r /\ Forall valid_filter fs /\
    forall fuel w' x, pop_state fuel w r fs <> (w', Ok x).
Proof.
  exists ex_cyc, 0, [FType "BatchStat"]. destruct ex_cyc_ok as (A & B & C & D). repeat (split; [assumption || (repeat constructor)|]).
  intros fuel w' x. apply pop_state_cyclic; auto. intros Hac. apply (Hac 0 ["inp"; "norm"; "parent"]); [exists []; reflexivity|discriminate|vm_compute; reflexivity].
Qed.
Print Assumptions C12_pop_state_cyclic_refuted.
Theorem C12_pop_state_returns_only_if_acyclic :
  forall (w : world) (r : nat) (fs : list filt) (fuel : nat) (w' : world) (x : sts), wf_world w -> r < List.length (w_heap w) ->
  ~ acyclic w r -> pop_state fuel w r fs <> (w', Ok x).
Proof. exact pop_state_cyclic. Qed.
Print Assumptions C12_pop_state_returns_only_if_acyclic.
(** exactly the graphs without a cycle are served *)
Theorem C12_returns_iff_acyclic :
  forall (w : world) (r : nat) (fs : list filt), wf_world w -> r < List.length (w_heap w) -> names_ok w r ->
  fs <> [] -> Forall valid_filter fs ->
  ((exists fuel w' x, pop_state fuel w r fs = (w', Ok x)) <-> acyclic w r).
Proof.
  intros w r fs Hw Hr Hn Hf Hv. split.
  - intros (fuel & w' & x & E) y p Hy Hp Hl. apply (pop_state_cyclic w r fs fuel w' x Hw Hr); [|exact E]. intros Ha. exact (Ha y p Hy Hp Hl).
  - intros Ha. destruct (C11_pop_state w r fs (S (List.length (w_heap w))) Hw Hr Hn Ha Hf Hv (Nat.lt_succ_diag_r _)) as (w' & x & _ & E & _). eauto.
Qed.
Print Assumptions C12_returns_iff_acyclic.

(** *** C13: pop_state ignores the trace level *)
Theorem C13_pop_state_guard_refuted :
  exists w r fs fuel w' x, wf_world w /\ names_ok w r /\ acyclic w r /\
    (forall y o, get_obj w y = Some o -> m_trace o <> w_trace w) /\
    pop_state fuel w r fs = (w', Ok x) /\ look w' r ["w"] <> look w r ["w"].
Proof.
  exists (in_trace (1, 0) ex_dag), 0, [FType "Param"], 10. do 2 eexists. split; [apply wf_worldb_ok; vm_compute; reflexivity|].
  split; [apply names_okb_ok; vm_compute; reflexivity|]. split; [apply forwardb_ok; vm_compute; reflexivity|]. split.
  - intros x o Ho. do 5 (destruct x as [|x]; [cbn in Ho; injection Ho as <-; discriminate|]). destruct x; discriminate.
  - split; [vm_compute; reflexivity|]. vm_compute. congruence.
Qed.
Print Assumptions C13_pop_state_guard_refuted.
(** the trace level plays no part at all: with every module of another trace, pop_state
    returns and deletes what it would at the modules' own level *)
Theorem C13_trace_is_ignored_partial :
  forall (fuel : nat) (w : world) (r : nat) (fs : list filt) (t : trace_state),
  pop_state fuel (in_trace t w) r fs =
  (in_trace t (fst (pop_state fuel w r fs)), snd (pop_state fuel w r fs)).
Proof.
  intros fuel w r fs t. unfold pop_state. destruct fs as [|f fs]; [reflexivity|]. destruct (rmapM to_predicate (f :: fs)) as [ps|]; [|reflexivity].
  assert (H : forall fuel w r mi parts st, pop_rec fuel ps (in_trace t w) r mi parts st =
    (in_trace t (fst (pop_rec fuel ps w r mi parts st)), snd (pop_rec fuel ps w r mi parts st))).
  { clear. induction fuel as [|n IH]; intros w r mi parts st; [reflexivity|]. cbn [pop_rec].
    change (get_obj (in_trace t w) r) with (get_obj w r). change (w_nodes (in_trace t w)) with (w_nodes w).
    destruct (get_obj w r) as [o|]; [|reflexivity]. destruct (nmem (m_id o) mi); [reflexivity|].
    generalize (w_nodes w) as nt. intros nt.
    assert (F : forall l w mi st,
      pop_fields (fun w r mi parts st => pop_rec n ps w r mi parts st) nt ps r l (in_trace t w) mi parts st =
      (in_trace t (fst (pop_fields (fun w r mi parts st => pop_rec n ps w r mi parts st) nt ps r l w mi parts st)),
       snd (pop_fields (fun w r mi parts st => pop_rec n ps w r mi parts st) nt ps r l w mi parts st))).
    { induction l as [|[name a] l IHl]; intros w1 mi1 st1; [reflexivity|]. cbn [pop_fields].
      assert (NS : (if is_node nt a then
            match pop_match ps st1 (join_path (parts ++ [name])) a with
            | Some states1 => match delattr (in_trace t w1) r name with
                | Ok w2 => pop_fields (fun w r mi parts st => pop_rec n ps w r mi parts st) nt ps r l w2 mi1 parts states1
                | Err e => (in_trace t w1, Err e) end
            | None => pop_fields (fun w r mi parts st => pop_rec n ps w r mi parts st) nt ps r l (in_trace t w1) mi1 parts st1
            end
          else pop_fields (fun w r mi parts st => pop_rec n ps w r mi parts st) nt ps r l (in_trace t w1) mi1 parts st1) =
          let x := (if is_node nt a then
            match pop_match ps st1 (join_path (parts ++ [name])) a with
            | Some states1 => match delattr w1 r name with
                | Ok w2 => pop_fields (fun w r mi parts st => pop_rec n ps w r mi parts st) nt ps r l w2 mi1 parts states1
                | Err e => (w1, Err e) end
            | None => pop_fields (fun w r mi parts st => pop_rec n ps w r mi parts st) nt ps r l w1 mi1 parts st1
            end
          else pop_fields (fun w r mi parts st => pop_rec n ps w r mi parts st) nt ps r l w1 mi1 parts st1) in (in_trace t (fst x), snd x)).
      { destruct (is_node nt a); [|apply IHl]. destruct (pop_match ps st1 _ a); [|apply IHl].
        unfold delattr. change (get_obj (in_trace t w1) r) with (get_obj w1 r). destruct (get_obj w1 r) as [q|]; [|reflexivity].
        destruct (dmem name (m_vars q)); [|reflexivity]. apply (IHl (put_obj w1 r (set_vars q (ddel name (m_vars q))))). }
      destruct a as [v|c]; [|exact NS]. destruct v; try exact NS. clear NS.
      rewrite IH. destruct (pop_rec n ps w1 r0 mi1 (parts ++ [name]) st1) as [w2 [[mi2 st2]|e]]; cbn [fst snd]; [apply IHl|reflexivity]. }
    rewrite F. destruct (pop_fields _ nt ps r (m_vars o) w mi parts st) as [w2 [[mi2 st2]|e]]; reflexivity. }
  rewrite H. destruct (pop_rec fuel ps w r [] [] _) as [w1 [[mi st]|e]]; reflexivity.
Qed.
Print Assumptions C13_trace_is_ignored_partial.

(** *** C14: pop_state and get_state name the same node differently (insertion order
    of submodules against sorted order) *)
Theorem C14_same_paths_refuted :
  exists w r fs fuel w' x s k, wf_world w /\ names_ok w r /\ acyclic w r /\ live w r /\
    pop_state fuel w r fs = (w', Ok (One x)) /\ get_state w r = Ok s /\ In k (keys x) /\ ~ In k (keys s).
Proof.
  exists ex_dag, 0, [FType "BatchStat"], 10. do 2 eexists. eexists. exists "out/norm/mean". destruct ex_dag_ok as (A & B & C & D & F).
  repeat (split; [assumption|]). split; [vm_compute; reflexivity|]. split; [vm_compute; reflexivity|]. split; [now left|].
  vm_compute. intuition discriminate.
Qed.
Print Assumptions C14_same_paths_refuted.
(** In general both name the node by a path that leads to it. *)
Theorem C14_same_nodes_partial :
  forall (w : world) (r : nat) (fs : list filt) (fuel : nat) (w' : world) (x : sts) (s : state),
  wf_world w -> r < List.length (w_heap w) -> names_ok w r -> fs <> [] -> Forall valid_filter fs -> List.length (w_heap w) < fuel -> acyclic w r ->
  pop_state fuel w r fs = (w', Ok x) -> get_state w r = Ok s ->
  forall t k a, In t (sts_list x) -> dget k t = Some a ->
  exists y n p q, follow w r p = Some y /\ follow w r q = Some y /\ node_attr w y n a /\
    k = join_path (p ++ [n]) /\ dget (join_path (q ++ [n])) s = Some a.
Proof.
  intros w r fs fuel w' x s Hw Hr Hn Hf Hv Hfu Ha E S t k a It Dk.
  destruct (C11_pop_state w r fs fuel Hw Hr Hn Ha Hf Hv Hfu) as (w2 & x2 & path & E2 & P). rewrite E in E2. injection E2 as <- <-.
  apply In_nth_error in It as [i Hi]. destruct (proj1 (pe_out _ _ _ _ _ _ P i t k a Hi) Dk) as (y & n & Ry & Na & Ek & _). subst k.
  destruct (C04_get_state w r Hw Hr Hn) as (s2 & cp & S2 & _ & C1 & C2 & _). rewrite S in S2. injection S2 as <-.
  exists y, n, (path y), (cp y n). split; [exact (proj1 (pe_path _ _ _ _ _ _ P y n a Ry Na))|]. split; [exact (C1 y n a Ry Na)|].
  split; [exact Na|]. split; [reflexivity|]. apply C2. eauto.
Qed.
Print Assumptions C14_same_nodes_partial.
(** Without shared modules the names agree: what is popped is what get_state showed, and
    what get_state showed and matches a filter is popped. *)
Theorem C14_no_sharing_partial :
  forall (w : world) (r : nat) (fs : list filt) (fuel : nat) (w' : world) (x : sts) (s : state),
  wf_world w -> r < List.length (w_heap w) -> names_ok w r -> fs <> [] -> Forall valid_filter fs -> List.length (w_heap w) < fuel -> acyclic w r ->
  (forall p q y, follow w r p = Some y -> follow w r q = Some y -> p = q) ->
  pop_state fuel w r fs = (w', Ok x) -> get_state w r = Ok s ->
  forall i t k a, nth_error (sts_list x) i = Some t -> (dget k t = Some a <-> dget k s = Some a /\ first_match fs i k a).
Proof.
  intros w r fs fuel w' x s Hw Hr Hn Hf Hv Hfu Ha Hu E S i t k a Hi.
  destruct (C11_pop_state w r fs fuel Hw Hr Hn Ha Hf Hv Hfu) as (w2 & x2 & path & E2 & P). rewrite E in E2. injection E2 as <- <-.
  destruct (C04_get_state w r Hw Hr Hn) as (s2 & cp & S2 & _ & C1 & C2 & _). rewrite S in S2. injection S2 as <-.
  rewrite (pe_out _ _ _ _ _ _ P i t k a Hi), C2. split.
  - intros (y & n & Ry & Na & -> & F). split; [|exact F]. exists y, n. split; [exact Ry|]. split; [exact Na|].
    now rewrite (Hu _ _ _ (proj1 (pe_path _ _ _ _ _ _ P y n a Ry Na)) (C1 y n a Ry Na)).
  - intros [(y & n & Ry & Na & ->) F]. exists y, n. split; [exact Ry|]. split; [exact Na|]. split; [|exact F].
    now rewrite (Hu _ _ _ (proj1 (pe_path _ _ _ _ _ _ P y n a Ry Na)) (C1 y n a Ry Na)).
Qed.
Print Assumptions C14_no_sharing_partial.
Example C14_example :
  let w := mkWorld [mkMobj (Mod_cls "Net") 1 false (0, 0) [("w", param 10); ("sub", ARaw (PyMod 1))];
                    mkMobj (Mod_cls "Layer") 2 false (0, 0) [("mean", stat 11); ("w", param 12)]] 2 (0, 0) default_node_types in
  (forall p q y, follow w 0 p = Some y -> follow w 0 q = Some y -> p = q) /\ acyclic w 0 /\
  snd (pop_state 5 w 0 [FType "Param"]) = Ok (One [("sub/w", param 12); ("w", param 10)]).
Proof.
  cbv zeta. split; [|split; [apply forwardb_ok; vm_compute; reflexivity|vm_compute; reflexivity]].
  assert (F1 : forall p y, follow (mkWorld [mkMobj (Mod_cls "Net") 1 false (0, 0) [("w", param 10); ("sub", ARaw (PyMod 1))];
                    mkMobj (Mod_cls "Layer") 2 false (0, 0) [("mean", stat 11); ("w", param 12)]] 2 (0, 0) default_node_types) 1 p = Some y -> p = []).
  { intros [|n p] y H; [reflexivity|]. apply follow_cons_child in H as (z & (o & Ho & Hd) & _). cbn in Ho. injection Ho as <-. cbn in Hd.
    destruct (String.eqb n "mean"); [discriminate|]. destruct (String.eqb n "w"); discriminate. }
  assert (F0 : forall p y, follow (mkWorld [mkMobj (Mod_cls "Net") 1 false (0, 0) [("w", param 10); ("sub", ARaw (PyMod 1))];
                    mkMobj (Mod_cls "Layer") 2 false (0, 0) [("mean", stat 11); ("w", param 12)]] 2 (0, 0) default_node_types) 0 p = Some y ->
                    (p = [] /\ y = 0) \/ (p = ["sub"] /\ y = 1)).
  { intros [|n p] y H; [cbn in H; injection H as <-; auto|]. apply follow_cons_child in H as (z & (o & Ho & Hd) & H). cbn in Ho. injection Ho as <-. cbn in Hd.
    destruct (String.eqb n "w"); [discriminate|]. destruct (String.eqb n "sub") eqn:En; [|discriminate]. apply String.eqb_eq in En as ->.
    injection Hd as <-. rewrite (F1 _ _ H) in H |- *. cbn in H. injection H as <-. auto. }
  intros p q y Hp Hq. destruct (F0 _ _ Hp) as [[-> ->]|[-> ->]], (F0 _ _ Hq) as [[-> E]|[-> E]]; congruence.
Qed.

(** *** C15: for_each runs the callback on each reachable module of the type, once *)
Theorem C15_for_each :
  forall (S' : Type) (wof : S' -> world) (fn : S' -> nat -> result S') (ty : string) (w : world), wf_world w ->
  (forall s x s', same_shape w (wof s) -> fn s x = Ok s' -> same_shape w (wof s')) ->
  forall (r fuel : nat), r < List.length (w_heap w) -> List.length (w_heap w) < fuel ->
  exists V, NoDup V /\ (forall x, In x V <-> reaches w r x /\ exists o, get_obj w x = Some o /\ In ty (m_cls o)) /\
    forall s, same_shape w (wof s) -> for_each wof fn ty fuel s r = run_on fn V s.
Proof. intros S' wof fn ty w Hw Hfn r fuel Hr Hf. exact (for_each_visits wof fn ty w Hw Hfn r fuel Hr Hf). Qed.
Print Assumptions C15_for_each.
(** the callback that records the modules it is called on *)
Example C15_example :
  for_each (fun s : world * list nat => fst s) (fun s x => Ok (fst s, snd s ++ [x])) "Layer" 10 (ex_cyc, []) 0 = Ok (ex_cyc, [2; 1]).
Proof. vm_compute. reflexivity. Qed.

(** *** C16: init sets the flag on entry and clears it on exit, also when the body raises *)
Theorem C16_init_bracket :
  forall (A : Type) (w : world) (r : nat) (body : world -> world * result A) (w1 w2 : world) (res : result A),
  wf_world w -> r < List.length (w_heap w) -> set_init_all true w r = Ok w1 -> body w1 = (w2, res) -> wf_world w2 -> r < List.length (w_heap w2) ->
  exists w3, init_call w r body = (w3, res) /\ flags_set true w r w1 /\ flags_set false w2 r w3.
Proof. exact @init_bracket. Qed.
Print Assumptions C16_init_bracket.
Theorem C16_flag_pass_total :
  forall (b : bool) (w : world) (r : nat), wf_world w -> r < List.length (w_heap w) -> exists w1, set_init_all b w r = Ok w1 /\ flags_set b w r w1.
Proof. exact set_init_all_flags. Qed.
Print Assumptions C16_flag_pass_total.
(** a module that the body detaches keeps the flag *)
Theorem C16_detached_keeps_flag_refuted :
  exists w r (body : world -> world * result unit) w3 x o, wf_world w /\ live w r /\ init_call w r body = (w3, Ok tt) /\
    reaches w r x /\ get_obj w3 x = Some o /\ m_init o = true.
Proof.
  exists ex_dag, 0, (fun w => match delattr w 0 "out" with Ok w' => (w', Ok tt) | Err e => (w, Err e) end). do 3 eexists.
  destruct ex_dag_ok as (A & B & C & D & F). split; [exact A|]. split; [exact C|]. split; [vm_compute; reflexivity|].
  split; [exists ["out"]; vm_compute; reflexivity|]. vm_compute. split; reflexivity.
Qed.
Print Assumptions C16_detached_keeps_flag_refuted.
Example C16_example : exists w3, init_call ex_cyc 0 (fun w => (w, Err (A := unit) ValueError)) = (w3, Err ValueError) /\ w3 = ex_cyc.
Proof. eexists. split; vm_compute; reflexivity. Qed.

(** *** C17: sow *)
Theorem C17_sow_accumulates :
  forall h (w : world) (r : nat) (vt : cls) (n : string) (vs : list pyval) (o : mobj), vs <> [] ->
  get_obj w r = Some o -> m_trace o = w_trace w -> dget n (m_vars o) = None -> h n = false -> n <> "_module__state" ->
  In "Container" vt -> In "Variable" vt ->
  exists w' o', sow_seq h w r vt n vs = Ok w' /\ get_obj w' r = Some o' /\
    (exists md, dget n (m_vars o') = Some (ACont (mkCont vt md (PyTuple vs)))) /\
    (forall m, m <> n -> dget m (m_vars o') = dget m (m_vars o)) /\
    (forall x, x <> r -> get_obj w' x = get_obj w x).
Proof. exact sow_accumulates. Qed.
Print Assumptions C17_sow_accumulates.
Theorem C17_sow_rejects :
  forall h (w : world) (r : nat) (vt : cls) (n : string) (v : pyval) (o : mobj) (a : attr), get_obj w r = Some o -> dget n (m_vars o) = Some a ->
  ~ (exists c l, a = ACont c /\ In "Variable" (c_cls c) /\ c_cls c = vt /\ c_val c = PyTuple l) -> sow h w r vt n v = Err ValueError.
Proof. exact sow_rejects. Qed.
Print Assumptions C17_sow_rejects.
(** A name that is a method or a property of the class cannot be sown to. *)
Theorem C17_sow_class_name :
  forall h (w : world) (r : nat) (vt : cls) (n : string) (v : pyval) (o : mobj), get_obj w r = Some o ->
  dget n (m_vars o) = None -> h n = true -> sow h w r vt n v = Err KeyError.
Proof. intros h w r vt n v o G D H. unfold sow. rewrite G, D, H, Bool.orb_true_r. reflexivity. Qed.
Print Assumptions C17_sow_class_name.
Example C17_example : exists w', sow_seq (fun _ => false) ex_cyc 1 Intermediate_cls "h" [PyStr "a"; PyNone; PyStr "b"] = Ok w' /\
  look w' 0 ["inp"; "h"] = SValue (ACont (mkCont Intermediate_cls [("sharding", PyNone)] (PyTuple [PyStr "a"; PyNone; PyStr "b"]))).
Proof. eexists. split; vm_compute; reflexivity. Qed.

(** *** C18: apply runs on a copy *)
Theorem C18_module_apply :
  forall (A : Type) (w : world) (r : nat) (body : world -> nat -> world * result A) (w2 : world) (res : result (A * nat)),
  wf_world w -> r < List.length (w_heap w) -> names_ok w r -> local_body body -> module_apply w r body = (w2, res) ->
  forall y o, get_obj w y = Some o -> get_obj w2 y = Some o.
Proof. intros A w r body w2 res Hw Hr Hn Hb H. exact (apply_frame w r body w2 res Hw Hr Hn Hb H). Qed.
Print Assumptions C18_module_apply.
Theorem C18_def_apply :
  forall (A : Type) (w : world) (r : nat) (fs : list filt) (p : pure) (states : list state) (body : world -> nat -> world * result A)
    (v v2 : world) (res : result (A * pure)),
  wf_world w -> r < List.length (w_heap w) -> names_ok w r -> module_partition w r fs = Ok p -> Permutation states (sts_list (p_states p)) ->
  wf_world v -> local_body body -> mdef_apply v (p_def p) states body = (v2, res) ->
  (forall y o, get_obj v y = Some o -> get_obj v2 y = Some o) /\
  (forall out q, res = Ok (out, q) -> exists m, List.length (w_heap v) <= m /\ module_partition v2 m [] = Ok q).
Proof. intros A w r fs p states body v v2 res. exact (mdef_apply_frame w r fs p states body v v2 res). Qed.
Print Assumptions C18_def_apply.
(** what the method is run on looks like the original, and it may be assigned to *)
Theorem C18_runs_on_copy :
  forall (A : Type) (w : world) (r : nat) (body : world -> nat -> world * result A), wf_world w -> r < List.length (w_heap w) -> names_ok w r ->
  exists m w1, faithful_copy w r w w1 m /\
    module_apply w r body = (let '(w2, res) := body w1 m in (w2, rmap (fun out => (out, m)) res)).
Proof.
  intros A w r body Hw Hr Hn. destruct (clone_faithful w r Hw Hr Hn) as (m & w1 & E & F). exists m, w1. split; [exact F|].
  unfold module_apply. rewrite E. destruct (body w1 m) as [w2 [out|e]]; reflexivity.
Qed.
Print Assumptions C18_runs_on_copy.
(** a body that is local: assign the module's own attribute "w" *)
Example C18_example : local_body (fun w m => match setattr w m "w" (ARaw PyNone) with Ok w' => (w', Ok tt) | Err e => (w, Err e) end).
Proof.
  intros v m v2 res Hv Hm H y o Ho Hn. destruct (setattr v m "w" (ARaw PyNone)) as [w'|] eqn:E; injection H as <- <-; [|exact Ho].
  destruct (setattr_shape _ _ _ _ _ E) as (_ & _ & _ & _ & K & _). rewrite K; [exact Ho|]. intros ->. apply Hn. eapply reaches_refl; eauto.
Qed.

(** *** C20: invariants in every history *)
Theorem C20_every_history :
  forall (t : trace_state) (nt : list string) (w : world), steps (start t nt) w -> wf_world w /\ all_modules w.
Proof.
  intros t nt w H. destruct (start_wf t nt) as [A B]. pose proof (steps_good _ _ H A B) as G. split; apply G.
Qed.
Print Assumptions C20_every_history.
Theorem C20_identity_persists :
  forall (t : trace_state) (nt : list string) (w w' : world), steps (start t nt) w -> steps w w' -> persists w w'.
Proof. intros t nt w w' H H'. destruct (C20_every_history t nt w H) as [A B]. apply (steps_good _ _ H' A B). Qed.
Print Assumptions C20_identity_persists.
Theorem C20_ids_distinct :
  forall (t : trace_state) (nt : list string) (w : world), steps (start t nt) w ->
  forall x y o o', get_obj w x = Some o -> get_obj w y = Some o' -> m_id o = m_id o' -> x = y.
Proof.
  intros t nt w H x y o o' Hx Hy E. destruct (C20_every_history t nt w H) as [A _]. 
  apply (idof_inj w x y A (get_obj_lt _ _ _ Hx) (get_obj_lt _ _ _ Hy)). now rewrite (idof_get _ _ _ Hx), (idof_get _ _ _ Hy).
Qed.
Print Assumptions C20_ids_distinct.
Example C20_example : exists w, steps (start (0, 0) default_node_types) w /\ List.length (w_heap w) = 4 /\ look w 0 ["c"; "w"] = SValue (arr 1).
Proof.
  eexists. split.
  - eapply steps_cons; [apply (st_new _ (Mod_cls "A")); cbn; auto|]. eapply steps_cons; [apply (st_new _ (Mod_cls "B")); cbn; auto|].
    eapply steps_cons; [eapply (st_setattr _ 1 "w" (arr 1)); [split; [exact I|discriminate]|vm_compute; reflexivity]|].
    eapply steps_cons; [eapply (st_setattr _ 0 "c" (sub 1)); [split; [exact I|intros x [= <-]; cbn; lia]|vm_compute; reflexivity]|].
    eapply steps_cons; [eapply (st_clone _ 0); vm_compute; reflexivity|]. apply steps_nil.
  - vm_compute. auto.
Qed.
