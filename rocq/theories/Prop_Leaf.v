(** Property C72: mutable_state_dict. *)
From Coq Require Import Permutation.
From Verif Require Import PyBase PyBaseFacts ValuesM Spec_Eq FiltersM StateM Spec_State ModuleM PureM Spec_Module Spec_Leaf.
From Verif Require Import Graph_facts Write_proofs Laws_proofs Leaf_proofs Ex_Module.
Local Open Scope string_scope.
Local Open Scope list_scope.

(** One leaf for every entry of get_state, under the same path; the leaf belongs to
    the module at that path. *)
Theorem C72_leaves :
  forall (w : world) (r : nat) (s : state), wf_world w -> r < List.length (w_heap w) -> names_ok w r -> get_state w r = Ok s ->
  exists d, mutable_state_dict w r = Ok d /\ NoDup (keys d) /\ Permutation (keys d) (keys s) /\
    (forall k k' l, dget k d = Some l -> dget k' d = Some l -> k = k') /\
    forall k x n, dget k d = Some (x, n) ->
      exists p a, k = join_path (p ++ [n]) /\ follow w r p = Some x /\ dget k s = Some a /\
        (forall v, reads a v -> leaf_get w (x, n) = Ok (RVal v)) /\
        leaf_get w (x, n) = getattr w x n.
Proof.
  intros w r s Hw Hr Hn Hs. destruct (leaves_keys w r s Hw Hr Hn Hs) as (d & Hd & H1 & H2). exists d. split; [exact Hd|]. split; [exact H1|]. split; [exact H2|].
  split; [intros k k' l; exact (leaves_inj w r d k k' l Hw Hr Hn Hd)|]. intros k x n Hk.
  destruct (leaf_entry w r s d k x n Hw Hr Hn Hs Hd Hk) as (p & a & E & F & _ & _ & (o & O & D & _) & S). exists p, a. repeat split; auto.
  intros v Hv. unfold leaf_get, getattr. cbn [fst snd]. rewrite O, D. destruct Hv as [v|c Hc]; cbn [read_attr]; [reflexivity|]. now rewrite Hc.
Qed.
Print Assumptions C72_leaves.

(** Assigning through the leaf at [k] changes that entry and nothing else: it is
    update_state with the single entry [k]. *)
Theorem C72_write :
  forall (w : world) (r : nat) (s : state) (d : dict (nat * string)) (k : string) (x : nat) (n : string) (v old res : attr),
  wf_world w -> r < List.length (w_heap w) -> names_ok w r -> live w r -> get_state w r = Ok s -> mutable_state_dict w r = Ok d ->
  dget k d = Some (x, n) -> wf_attr v -> is_submodule v = false ->
  dget k s = Some old -> overwrites old v res -> node_value w res ->
  exists w', leaf_set w (x, n) v = Ok w' /\
    update_state w r (UStates (One [(k, v)])) = (w', Ok tt) /\
    update_effect w w' r s [[(k, v)]] /\
    (forall q, follow w r q = Some x -> look w' r (q ++ [n]) = SValue res) /\
    (forall y, y <> x -> get_obj w' y = get_obj w y) /\
    exists o o', get_obj w x = Some o /\ get_obj w' x = Some o' /\ forall m, m <> n -> dget m (m_vars o') = dget m (m_vars o).
Proof.
  intros w r s d k x n v old res Hw Hr Hn Hl Hs Hd Hk Hv Hsub Ho Hov Hnode.
  destruct (leaf_write w r s d k x n v old res Hw Hr Hn Hl Hs Hd Hk Hv Hsub Ho Hov Hnode) as (w' & S & U & E & F & o & dd & O & O' & D1 & D2).
  exists w'. split; [exact S|]. split; [exact U|]. split; [exact E|]. split.
  - intros q Hq. rewrite <- (ue_follow _ _ _ _ _ E) in Hq. apply (look_slot w' r q n x _ res Hq O' D1).
    destruct (Update_proofs.overwrites_not_sub _ _ _ Hsub Hov). reflexivity.
  - split; [exact F|]. exists o, (set_vars o dd). auto.
Qed.
Print Assumptions C72_write.

(** A value that does not fit (another container class or other metadata) is refused
    and nothing changes. *)
Theorem C72_refused :
  forall (w : world) (r : nat) (s : state) (d : dict (nat * string)) (k : string) (l : nat * string) (v old : attr),
  wf_world w -> r < List.length (w_heap w) -> names_ok w r -> live w r -> get_state w r = Ok s -> mutable_state_dict w r = Ok d ->
  dget k d = Some l -> wf_attr v -> dget k s = Some old -> (forall res, ~ overwrites old v res) ->
  leaf_set w l v = Err ValueError.
Proof. intros w r s d k [x n] v old Hw Hr Hn Hl Hs Hd Hk Hv Ho Hov. exact (leaf_refused w r s d k x n v old Hw Hr Hn Hs Hd Hk Hv Ho Hov Hl). Qed.
Print Assumptions C72_refused.

(** Leaves obtained once stay good: after any sequence of assignments of values
    through them, every entry holds the value assigned to it last (in its
    container), the others are unchanged. *)
Theorem C72_history :
  forall (ws : list (string * pyval)) (w : world) (r : nat) (s : state) (d : dict (nat * string)),
  wf_world w -> r < List.length (w_heap w) -> names_ok w r -> live w r -> get_state w r = Ok s -> mutable_state_dict w r = Ok d ->
  Forall (fun kv => is_submodule (ARaw (snd kv)) = false /\
                    exists old res, dget (fst kv) s = Some old /\ overwrites old (ARaw (snd kv)) res /\ node_value w res) ws ->
  exists w', write_all d w ws = Ok w' /\ update_effect w w' r s (raws ws).
Proof. intros ws w r s d. exact (write_history d ws w r s). Qed.
Print Assumptions C72_history.

(** With a node name containing a slash there is no dict at all. *)
Definition ex_leaf_slash : world := mkWorld [mkMobj (Mod_cls "Net") 1 false (0, 0) [("a/b", param 1)]] 1 (0, 0) default_node_types.
Theorem C72_slash_in_name_refuted :
  exists w r s, wf_world w /\ r < List.length (w_heap w) /\ get_state w r = Ok s /\ mutable_state_dict w r = Err KeyError.
Proof. exists ex_leaf_slash, 0. eexists. split; [apply wf_worldb_ok; vm_compute; reflexivity|]. split; [cbn; lia|]. split; vm_compute; reflexivity. Qed.
Print Assumptions C72_slash_in_name_refuted.

(** A leaf can only be made at an attribute of a Module. *)
Theorem C72_no_module :
  forall (w : world) (r : nat) (p : list string) (m n : string) (x : nat) (o : mobj), 
  Forall no_slash (p ++ [m; n]) -> follow w r p = Some x -> get_obj w x = Some o ->
  (dget m (m_vars o) = None -> mutable_leaf w r (join_path (p ++ [m; n])) = Err KeyError) /\
  (forall a, dget m (m_vars o) = Some a -> is_submodule a = false -> mutable_leaf w r (join_path (p ++ [m; n])) = Err ValueError).
Proof.
  intros w r p m n x o N F G. unfold mutable_leaf. rewrite split_join; [|destruct p; discriminate|exact N]. cbv zeta.
  replace (p ++ [m; n]) with ((p ++ [m]) ++ [n]) by (rewrite <- app_assoc; reflexivity). rewrite removelast_last, (value_path_app w p [m] r x (value_path_follow _ _ _ _ F)).
  cbn [rbind value_path]. rewrite G. split; [intro D; now rewrite D|]. intros a D Sa. rewrite D. destruct a as [[]|]; try reflexivity. discriminate Sa.
Qed.
Print Assumptions C72_no_module.
Example C72_no_module_example : follow ex_cyc 0 [] = Some 0 /\ mutable_leaf ex_cyc 0 "w/q" = Err ValueError /\ mutable_leaf ex_cyc 0 "zz/q" = Err KeyError.
Proof. repeat split; vm_compute; reflexivity. Qed.

(** [leaf.sharding] never gives a sharding.  For an array it is None; for a Variable,
    whatever its metadata is (unless it was given one named "metadata"), reading it
    raises AttributeError. *)
Theorem C72_sharding :
  forall (w : world) (r : nat) (s : state) (d : dict (nat * string)) (k : string) (l : nat * string) (a : attr),
  wf_world w -> r < List.length (w_heap w) -> names_ok w r -> get_state w r = Ok s -> mutable_state_dict w r = Ok d ->
  dget k d = Some l -> dget k s = Some a ->
  (forall v, a = ARaw v -> leaf_sharding w l = Ok None) /\
  (forall c, a = ACont c -> In "Node" (c_cls c) -> ~ In "metadata" (keys (c_meta c)) -> leaf_sharding w l = Err AttributeError) /\
  (forall q, leaf_sharding w l <> Ok (Some q)).
Proof.
  intros w r s d k [x n] a Hw Hr Hn Hs Hd Hk Ha.
  destruct (leaf_entry w r s d k x n Hw Hr Hn Hs Hd Hk) as (p & a' & E & F & _ & _ & (o & O & D & _) & S).
  assert (a' = a) by congruence. subst a'. unfold leaf_sharding. cbn [fst snd]. rewrite O, D. split; [|split].
  - now intros v ->.
  - intros c -> N M. destruct (smem_In "Node" (c_cls c)) as [_ SM]. rewrite (SM N). cbn [negb].
    destruct (dget "metadata" (c_meta c)) as [y|] eqn:Y; [|reflexivity]. exfalso. apply M. now apply dget_In_keys in Y.
  - intros q. destruct a as [v|c]; [discriminate|]. destruct (negb (smem "Node" (c_cls c))); [discriminate|].
    destruct (dget "metadata" (c_meta c)) as [[]|]; discriminate.
Qed.
Print Assumptions C72_sharding.

(** So a Variable made with a sharding does not show it through its leaf. *)
Definition ex_leaf_sharded : world :=
  mkWorld [mkMobj (Mod_cls "Net") 1 false (0, 0)
             [("w", ACont (mkCont Param_cls [("sharding", PyTuple [PyStr "embed"; PyNone])] (PyObj Array_cls 1))); ("x", ARaw (PyObj Array_cls 2))]]
          1 (0, 0) default_node_types.
Theorem C72_sharding_refuted :
  exists w r s d l c q, wf_world w /\ r < List.length (w_heap w) /\ names_ok w r /\ get_state w r = Ok s /\ mutable_state_dict w r = Ok d /\
    dget "w" d = Some l /\ dget "w" s = Some (ACont c) /\ dget "sharding" (c_meta c) = Some q /\ leaf_sharding w l = Err AttributeError.
Proof.
  exists ex_leaf_sharded, 0. do 5 eexists. split; [apply wf_worldb_ok; vm_compute; reflexivity|]. split; [cbn; lia|].
  split; [apply names_okb_ok; vm_compute; reflexivity|]. repeat (split; [vm_compute; reflexivity|]). vm_compute; reflexivity.
Qed.
Print Assumptions C72_sharding_refuted.

Example C72_example :
  exists s d old res, get_state ex_cyc 0 = Ok s /\ mutable_state_dict ex_cyc 0 = Ok d /\
    keys d = ["inp/norm/mean"; "inp/w"; "out/buf"; "out/w"; "w"] /\ dget "inp/norm/mean" d = Some (3, "mean") /\
    dget "inp/norm/mean" s = Some old /\ overwrites old (ARaw (PyObj Array_cls 77)) res /\ node_value ex_cyc res /\
    exists w', leaf_set ex_cyc (3, "mean") (ARaw (PyObj Array_cls 77)) = Ok w' /\ look w' 0 ["out"; "norm"; "mean"] = SValue res.
Proof.
  do 4 eexists. split; [vm_compute; reflexivity|]. split; [vm_compute; reflexivity|]. split; [vm_compute; reflexivity|]. split; [vm_compute; reflexivity|].
  split; [vm_compute; reflexivity|]. split; [vm_compute; reflexivity|]. split; [exists "Node"; vm_compute; auto 10|].
  eexists. split; vm_compute; reflexivity.
Qed.
Example C72_refused_example :
  exists s d old, get_state ex_cyc 0 = Ok s /\ mutable_state_dict ex_cyc 0 = Ok d /\ dget "out/w" d = Some (2, "w") /\
    dget "out/w" s = Some old /\ wf_attr (stat 98) /\ (forall res, ~ overwrites old (stat 98) res).
Proof.
  do 3 eexists. split; [vm_compute; reflexivity|]. split; [vm_compute; reflexivity|]. split; [vm_compute; reflexivity|]. split; [vm_compute; reflexivity|].
  split; [apply wf_containerb_ok; vm_compute; reflexivity|]. intros res (H & _). discriminate.
Qed.
