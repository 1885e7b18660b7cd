(** Prop_Path: C93, the path under which get_state lists a Module. *)
From Coq Require Import Lia ZArith.
From Verif Require Import PyBase PyBaseFacts ValuesM Spec_Eq ValuesFacts FiltersM StateM Spec_State ModuleM Spec_Module Spec_Path HelpersM
  Graph_facts State_proofs Dfs_proofs Write_proofs Pop_proofs Clone_proofs Assign_proofs Path_proofs Ex_Module.
Local Open Scope string_scope.
Local Open Scope nat_scope.
Local Open Scope list_scope.

(** *** C93 *)
(** Every reachable Module has exactly one first path: the paths to it that meet no
    Module twice, compared name by name, have a smallest one. *)
Theorem C93_one_path :
  forall (w : world) (r y : nat), wf_world w -> r < List.length (w_heap w) -> reaches w r y ->
  exists p, first_path w r p y /\ forall q, first_path w r q y -> q = p.
Proof.
  intros w r y Hw Hr Hy. destruct (homes_total w r Hw Hr) as (hs & s & H).
  destruct (homes_closed w r hs s Hw Hr H y Hy) as [p Hp]. exists p. split; [now apply (homes_first w r hs s)|].
  intros q Hq. apply (homes_first w r hs s Hw Hr H) in Hq. exact (homes_unique w r hs s Hw H y q p Hq Hp).
Qed.
Print Assumptions C93_one_path.

(** get_state lists the nodes of every reachable Module under its first path, and
    nothing else: the keys are determined by the graph, without reference to the
    order of a traversal or of assignments. *)
Theorem C93_first_path :
  forall (w : world) (r : nat), wf_world w -> r < List.length (w_heap w) -> names_ok w r ->
  exists s, get_state w r = Ok s /\
    forall k a, dget k s = Some a <-> exists p y n, first_path w r p y /\ node_attr w y n a /\ k = join_path (p ++ [n]).
Proof.
  intros w r Hw Hr Hn. destruct (get_state_homes w r Hw Hr Hn) as (hs & sn & s & H & G & D). exists s. split; [exact G|].
  intros k a. rewrite D. unfold entry. split.
  - intros (y & p & n & Hi & R). exists p, y, n. split; [now apply (homes_first w r hs sn)|exact R].
  - intros (p & y & n & Hf & R). exists y, p, n. split; [now apply (homes_first w r hs sn)|exact R].
Qed.
Print Assumptions C93_first_path.

Lemma join_app p q : p <> [] -> q <> [] -> join_path (p ++ q) = (join_path p ++ "/" ++ join_path q)%string.
Proof.
  intros Hp Hq. induction p as [|x p IH]; [congruence|]. destruct p as [|y p].
  - cbn. destruct q; [congruence|reflexivity].
  - change (join_path ((x :: y :: p) ++ q)) with (x ++ "/" ++ join_path ((y :: p) ++ q))%string. rewrite IH by discriminate.
    change (join_path (x :: y :: p)) with (x ++ "/" ++ join_path (y :: p))%string.
    assert (A : forall a b c : string, ((a ++ b) ++ c)%string = (a ++ b ++ c)%string) by (intros a b c; induction a; cbn; congruence).
    rewrite !A. reflexivity.
Qed.

(** A part of its own - all paths into it go along [p] - is listed in the State of the
    whole exactly as in its own State, with [p] in front. *)
Theorem C93_part :
  forall (w : world) (r c : nat) (p : list string), wf_world w -> r < List.length (w_heap w) -> names_ok w r ->
  private_part w r p c -> p <> [] ->
  exists s sc, get_state w r = Ok s /\ get_state w c = Ok sc /\
    forall k, dget (join_path p ++ "/" ++ k) s = dget k sc.
Proof.
  intros w r c p Hw Hr Hn Hp Ne. pose proof Hp as [Fp _]. assert (Rc : reaches w r c) by (exists p; exact Fp).
  assert (Hnc : names_ok w c). { intros x o n a Hx. apply Hn. eapply reaches_trans; eauto. }
  assert (Hc : c < List.length (w_heap w)). { destruct (reaches_valid w r c Rc) as [o Ho]. eapply get_obj_lt; eauto. }
  destruct (C93_first_path w r Hw Hr Hn) as (s & Gs & Ds). destruct (C93_first_path w c Hw Hc Hnc) as (sc & Gc & Dc). exists s, sc. split; [exact Gs|]. split; [exact Gc|].
  intros k. assert (Eq : forall a, dget (join_path p ++ "/" ++ k) s = Some a <-> dget k sc = Some a).
  { intros a. rewrite Ds, Dc. split.
    - intros (p' & y & n & Hf & Hna & K). pose proof (split_slash_nonnil k) as Nk. rewrite <- (join_split k), <- join_app in K by assumption.
      assert (Ry : reaches w r y) by (exists p'; apply Hf).
      assert (Sn : has_char "/" n = false). { pose proof Hna as (o & Ho & Hd & _). exact (proj1 (proj2 (Hn y o n a Ry Ho Hd)) Hna). }
      apply join_inj in K.
      + rewrite (app_removelast_last "" Nk), app_assoc in K. apply app_inj_tail in K as [<- <-].
        exists (removelast (split_slash k)), y, (List.last (split_slash k) ""). split; [now apply (private_first w r p c)|]. split; [exact Hna|].
        rewrite <- (app_removelast_last "" Nk). symmetry. apply join_split.
      + destruct p; [congruence|discriminate].
      + destruct p'; discriminate.
      + apply Forall_app. split; [exact (names_no_slash w r p c Hn Fp)|apply split_slash_noslash].
      + apply Forall_app. split; [exact (names_no_slash w r p' y Hn (proj1 (proj1 Hf)))|repeat constructor; exact Sn].
    - intros (q & y & n & Hf & Hna & ->). exists (p ++ q), y, n. split; [now apply (private_first w r p c)|]. split; [exact Hna|].
      rewrite <- join_app by (auto; destruct q; discriminate). now rewrite app_assoc. }
  destruct (dget (join_path p ++ "/" ++ k) s) as [a|]; [symmetry; now apply Eq|]. destruct (dget k sc) as [a|]; [now apply Eq|reflexivity].
Qed.
Print Assumptions C93_part.

(** Parameter surgery: [m.partition(All(T, lambda path, _: path.startswith(p + "/")), ...)]
    puts exactly the nodes of the part that are instances of T into the first State. *)
Lemma prefix_append a b : String.prefix a (a ++ b) = true.
Proof. induction a as [|x a IH]; cbn; [now destruct b|]. destruct (Ascii.ascii_dec x x); [exact IH|congruence]. Qed.
Lemma prefix_inv a : forall s, String.prefix a s = true -> exists b, s = (a ++ b)%string.
Proof.
  induction a as [|x a IH]; intros s H; [exists s; reflexivity|]. destruct s as [|y s]; [discriminate|]. cbn in H. destruct (Ascii.ascii_dec x y) as [->|]; [|discriminate].
  destruct (IH s H) as [b ->]. exists b. reflexivity.
Qed.
Theorem C93_surgery :
  forall (w : world) (r c : nat) (p : list string) (t : string), wf_world w -> r < List.length (w_heap w) -> names_ok w r ->
  private_part w r p c -> p <> [] ->
  exists d s sc s1 s2, get_state w r = Ok s /\ get_state w c = Ok sc /\
    module_partition w r [FAll [FType t; FPred (fun k _ => starts_with (join_path p ++ "/") k)]; FEllipsis] = Ok (mkPure (Many [s1; s2]) d) /\
    (forall k a, dget k s1 = Some a <-> exists k', k = (join_path p ++ "/" ++ k')%string /\ dget k' sc = Some a /\ In t (cls_of_attr a)) /\
    (forall k a, dget k s2 = Some a <-> dget k s = Some a /\ ~ exists k', k = (join_path p ++ "/" ++ k')%string /\ In t (cls_of_attr a)).
Proof.
  intros w r c p t Hw Hr Hn Hp Ne. destruct (C93_part w r c p Hw Hr Hn Hp Ne) as (s & sc & Gs & Gc & Hk).
  set (f := FAll [FType t; FPred (fun k _ => starts_with (join_path p ++ "/") k)]).
  assert (As : forall a b c : string, ((a ++ b) ++ c)%string = (a ++ b ++ c)%string) by (intros a b e; induction a; cbn; congruence).
  assert (Mf : forall k a, matches f k a <-> In t (cls_of_attr a) /\ exists k', k = (join_path p ++ "/" ++ k')%string).
  { intros k a. subst f. cbn -[join_path append].  unfold starts_with. split.
    - intros (T & P & _). split; [exact T|]. apply prefix_inv in P as [b ->]. exists b. apply As.
    - intros (T & k' & ->). split; [exact T|]. split; [|exact Logic.I]. rewrite <- As. apply prefix_append. }
  destruct (partition_ok_iff_state w r [f; FEllipsis] Hw Hr) as (d & s0 & Hd & Hs0 & Hwf & E). assert (s0 = s) by congruence. subst s0.
  assert (Inc : keys_increasing s) by exact Hwf.
  assert (Ok2 : exists x, state_partition s f [FEllipsis] = Ok x).
  { apply partition_ok_iff; [exact Inc|]. split; [repeat constructor|]. split.
    - intros [|[|[|i]]] K; cbn in K; try discriminate; reflexivity.
    - intros k v _. exists FEllipsis. split; [right; now left|exact Logic.I]. }
  destruct Ok2 as [x Hx]. destruct (partition_entries s f [FEllipsis] x Inc Hx) as [L En].
  destruct x as [s1|[|s1 [|s2 [|]]]]; cbn in L; try lia.
  exists d, s, sc, s1, s2. split; [exact Gs|]. split; [exact Gc|]. split; [rewrite E; cbn [partition_state]; now rewrite Hx|]. split.
  - intros k a. rewrite (En 0 s1 k a eq_refl). split.
    + intros (Hg & (g & [= <-] & Hm) & _). apply Mf in Hm as (T & k' & ->). exists k'. split; [reflexivity|]. split; [now rewrite <- Hk|exact T].
    + intros (k' & -> & Hg & T). split; [now rewrite Hk|]. split; [|intros j h Hj; lia]. exists f. split; [reflexivity|]. apply Mf. eauto.
  - intros k a. rewrite (En 1 s2 k a eq_refl). split.
    + intros (Hg & _ & Hm). split; [exact Hg|]. intros (k' & -> & T). apply (Hm 0 f); [lia|reflexivity|]. apply Mf. eauto.
    + intros (Hg & Hno). split; [exact Hg|]. split; [exists FEllipsis; split; [reflexivity|exact Logic.I]|].
      intros [|j] h Hj K; [|lia]. injection K as <-. intros Hm. apply Mf in Hm as (T & k' & ->). apply Hno. eauto.
Qed.
Print Assumptions C93_surgery.

(** What is not so. *)
(** The path need not be a shortest one: with [m.z = m.a.b] the Module stays at "a/b". *)
Theorem C93_shortest_refuted :
  ~ (forall w r p q y, wf_world w -> names_ok w r -> first_path w r p y -> follow w r q = Some y -> List.length p <= List.length q).
Proof.
  intros H. set (w := mkWorld
    [ mkMobj (Mod_cls "Net") 1 false (0, 0) [("z", sub 2); ("a", sub 1)];
      mkMobj (Mod_cls "Layer") 2 false (0, 0) [("b", sub 2)];
      mkMobj (Mod_cls "Layer") 3 false (0, 0) [("w", param 12)] ] 3 (0, 0) default_node_types).
  assert (Hw : wf_world w) by (apply wf_worldb_ok; vm_compute; reflexivity). assert (Hn : names_ok w 0) by (apply names_okb_ok; vm_compute; reflexivity).
  assert (V : 0 < List.length (w_heap w)) by (cbn; lia).
  destruct (C93_one_path w 0 2 Hw V (ex_intro _ ["z"] eq_refl)) as (p & Hp & _).
  destruct (C93_first_path w 0 Hw V Hn) as (s & Gs & D). vm_compute in Gs. injection Gs as <-.
  assert (K : dget (join_path (p ++ ["w"])) [("a/b/w", param 12)] = Some (param 12)).
  { apply D. exists p, 2, "w". split; [exact Hp|]. split; [|reflexivity]. eexists. split; [reflexivity|]. split; [reflexivity|]. split; [reflexivity|].
    exists "Node". split; vm_compute; tauto. }
  specialize (H w 0 p ["z"] 2 Hw Hn Hp eq_refl). cbn [List.length] in H.
  destruct p as [|x [|y p]]; cbn [List.length] in H; [| |lia].
  - destruct Hp as [[F _] _]. discriminate.
  - destruct Hp as [[F _] _]. cbn in F. destruct (String.eqb_spec x "z") as [->|]; [discriminate K|]. destruct (String.eqb_spec x "a") as [->|]; discriminate.
Qed.
Print Assumptions C93_shortest_refuted.
(** Nor the first element of a Sequence that holds the Module: names are compared as
    strings, so a layer used at positions 2 and 10 is listed under "10". *)
Theorem C93_sequence_refuted :
  exists l xs w r s, wf_world ex_dag /\ nth_error xs 2 = Some (sub l) /\ nth_error xs 10 = Some (sub l) /\
    new_sequence ex_dag xs = Ok (r, w) /\ get_state w r = Ok s /\ dmem "2/w" s = false /\ dmem "10/w" s = true.
Proof.
  exists 4, [arr 1; arr 2; sub 4; arr 3; arr 4; arr 5; arr 6; arr 7; arr 8; arr 9; sub 4]. do 3 eexists.
  split; [apply ex_dag_ok|]. split; [reflexivity|]. split; [reflexivity|]. split; [vm_compute; reflexivity|]. split; [vm_compute; reflexivity|].
  split; vm_compute; reflexivity.
Qed.
Print Assumptions C93_sequence_refuted.
(** The filter of examples/09, [path.startswith("backbone")]: it takes the backbone
    although the comment announces the rest, and also every attribute whose name
    merely starts with "backbone". *)
Definition ex_classifier : world := mkWorld
  [ mkMobj (Mod_cls "Classifier") 1 false (0, 0) [("backbone", sub 1); ("backbone_scale", param 9); ("head", sub 2)];
    mkMobj (Mod_cls "Linear") 2 false (0, 0) [("kernel", param 11); ("bias", param 12); ("calls", stat 13)];
    mkMobj (Mod_cls "Linear") 3 false (0, 0) [("kernel", param 21); ("bias", param 22)] ] 3 (0, 0) default_node_types.
Theorem C93_example_filter_refuted :
  exists d s1 s2, module_partition ex_classifier 0 [FAll [FType "Param"; FPred (fun k _ => starts_with "backbone" k)]; FEllipsis] = Ok (mkPure (Many [s1; s2]) d) /\
    keys s1 = ["backbone/bias"; "backbone/kernel"; "backbone_scale"] /\ keys s2 = ["backbone/calls"; "head/bias"; "head/kernel"].
Proof. do 3 eexists. split; [vm_compute; reflexivity|]. split; vm_compute; reflexivity. Qed.
Print Assumptions C93_example_filter_refuted.

(** The hypotheses are met: the backbone is a part of its own. *)
Example C93_surgery_used :
  wf_world ex_classifier /\ names_ok ex_classifier 0 /\ private_part ex_classifier 0 ["backbone"] 1 /\
  exists d s1 s2, module_partition ex_classifier 0 [FAll [FType "Param"; FPred (fun k _ => starts_with "backbone/" k)]; FEllipsis] = Ok (mkPure (Many [s1; s2]) d) /\
    keys s1 = ["backbone/bias"; "backbone/kernel"] /\ keys s2 = ["backbone/calls"; "backbone_scale"; "head/bias"; "head/kernel"].
Proof.
  split; [apply wf_worldb_ok; vm_compute; reflexivity|]. split; [apply names_okb_ok; vm_compute; reflexivity|]. split.
  - assert (F : forall q y, follow ex_classifier 0 q = Some y -> (q = [] /\ y = 0) \/ (q = ["backbone"] /\ y = 1) \/ (q = ["head"] /\ y = 2)).
    { intros q y E. destruct q as [|n q]; cbn in E; [injection E as <-; auto|].
      destruct (String.eqb_spec n "backbone") as [->|]; [|destruct (String.eqb n "backbone_scale"); [discriminate|destruct (String.eqb_spec n "head") as [->|]; [|discriminate]]];
        (destruct q as [|m q]; [cbn in E; injection E as <-; auto|]); cbn in E;
        (destruct (String.eqb m "kernel"); [discriminate|]); (destruct (String.eqb m "bias"); [discriminate|]); try (destruct (String.eqb m "calls"); discriminate); discriminate. }
    split; [reflexivity|]. intros q y E [u Hu]. destruct (F ("backbone" :: u) y Hu) as [[K _]|[[K Ky]|[K _]]]; try discriminate. subst y.
    destruct (F q 1 E) as [[-> K2]|[[-> _]|[-> K2]]]; try discriminate. exists []. reflexivity.
  - do 3 eexists. split; [vm_compute; reflexivity|]. split; vm_compute; reflexivity.
Qed.
(** In [ex_cyc] the Module at ref 3 is on a cycle and has infinitely many paths; the
    first direct one is "inp/norm". *)
Example C93_cycle_used :
  wf_world ex_cyc /\ names_ok ex_cyc 0 /\ first_path ex_cyc 0 ["inp"; "norm"] 3 /\ direct_path ex_cyc 0 ["out"; "norm"] 3 /\
  follow ex_cyc 0 ["inp"; "norm"; "parent"; "inp"; "norm"] = Some 3 /\ ~ direct_path ex_cyc 0 ["inp"; "norm"; "parent"; "inp"; "norm"] 3.
Proof.
  destruct ex_cyc_ok as (Hw & Hn & _ & V). split; [exact Hw|]. split; [exact Hn|]. split.
  { destruct (homes_total ex_cyc 0 Hw V) as (hs & s & H). apply (homes_first ex_cyc 0 hs s Hw V H). vm_compute in H. injection H as <- <-. right. right. left. reflexivity. }
  split.
  { apply swalk_direct with (B := []). econstructor; [cbn; tauto|eexists; split; reflexivity|]. econstructor; [cbn; intuition discriminate|eexists; split; reflexivity|].
    constructor; [cbv; lia|cbn; intuition discriminate]. }
  split; [reflexivity|]. intros [_ D]. apply (D [] ["inp"; "norm"; "parent"] ["inp"; "norm"]); [reflexivity|discriminate|reflexivity].
Qed.

(** *** C14: the paths of pop_state *)
(** pop_state names a node by the first path to its Module in order of assignment. *)
Theorem C14_popped_paths_partial :
  forall (w : world) (r : nat) (fs : list filt) (fuel : nat) (w' : world) (x : sts), wf_world w -> r < List.length (w_heap w) -> names_ok w r ->
  fs <> [] -> Forall valid_filter fs -> List.length (w_heap w) < fuel -> acyclic w r -> pop_state fuel w r fs = (w', Ok x) ->
  forall i t k a, nth_error (sts_list x) i = Some t ->
    (dget k t = Some a <-> exists p y n, first_assigned w r p y /\ node_attr w y n a /\ k = join_path (p ++ [n]) /\ first_match fs i k a).
Proof.
  intros w r fs fuel w' x Hw Hr Hn Hf Hv Hfu Ha E i t k a Hi.
  destruct (Pop_proofs.pop_state_acyclic w r fs fuel Hw Hr Hn Ha Hf Hv Hfu) as (w2 & x2 & path & E2 & P). rewrite E in E2. injection E2 as <- <-.
  rewrite (pe_out _ _ _ _ _ _ P i t k a Hi). split.
  - intros (y & n & Ry & Na & R). exists (path y), y, n. split; [exact (pe_path _ _ _ _ _ _ P y n a Ry Na)|auto].
  - intros (p & y & n & Fp & Na & R). assert (Ry : reaches w r y) by (exists p; apply Fp). exists y, n. split; [exact Ry|]. split; [exact Na|].
    replace (path y) with p; [exact R|]. pose proof (pe_path _ _ _ _ _ _ P y n a Ry Na) as Fq. exact (first_assigned_unique w r p (path y) y Hw Fp Fq).
Qed.
Print Assumptions C14_popped_paths_partial.

(** get_state instead takes the first in order of names; when every Module was given its
    attributes in the order of their names the two agree, shared Modules or not. *)
Theorem C14_name_order_partial :
  forall (w : world) (r : nat) (fs : list filt) (fuel : nat) (w' : world) (x : sts) (s : state), wf_world w -> r < List.length (w_heap w) -> names_ok w r ->
  fs <> [] -> Forall valid_filter fs -> List.length (w_heap w) < fuel -> acyclic w r ->
  (forall y o l1 n l2 m l3, reaches w r y -> get_obj w y = Some o -> keys (m_vars o) = l1 ++ n :: l2 ++ m :: l3 -> String.compare n m = Lt) ->
  pop_state fuel w r fs = (w', Ok x) -> get_state w r = Ok s ->
  forall i t k a, nth_error (sts_list x) i = Some t -> (dget k t = Some a <-> dget k s = Some a /\ first_match fs i k a).
Proof.
  intros w r fs fuel w' x s Hw Hr Hn Hf Hv Hfu Ha Ho E G i t k a Hi.
  rewrite (C14_popped_paths_partial w r fs fuel w' x Hw Hr Hn Hf Hv Hfu Ha E i t k a Hi).
  destruct (C93_first_path w r Hw Hr Hn) as (s2 & G2 & D). rewrite G in G2. injection G2 as <-. rewrite D.
  assert (L : forall p y, first_assigned w r p y -> first_path w r p y).
  { intros p y [A B]. split; [now apply acyclic_direct|]. intros q [Hq _]. destruct (B q Hq) as [->|(c & n & m & p' & q' & z & o & l1 & l2 & l3 & -> & -> & Hz & Hoz & Hk)]; [now left|].
    right. exists c, n, m, p', q'. split; [reflexivity|]. split; [reflexivity|]. apply (Ho z o l1 n l2 m l3); [exists c; exact Hz|exact Hoz|exact Hk]. }
  assert (L2 : forall p y n, first_path w r p y -> node_attr w y n a -> first_assigned w r p y).
  { intros p y n Fp Na. assert (Ry : reaches w r y) by (exists p; apply Fp).
    destruct (Pop_proofs.pop_state_acyclic w r fs fuel Hw Hr Hn Ha Hf Hv Hfu) as (w2 & x2 & path & E2 & P).
    pose proof (pe_path _ _ _ _ _ _ P y n a Ry Na) as Fq. destruct (C93_one_path w r y Hw Hr Ry) as (p0 & _ & U).
    rewrite (U p Fp), <- (U _ (L _ _ Fq)). exact Fq. }
  split.
  - intros (p & y & n & Fp & Na & Ek & M). split; [|exact M]. exists p, y, n. auto.
  - intros [(p & y & n & Fp & Na & Ek) M]. exists p, y, n. eauto.
Qed.
Print Assumptions C14_name_order_partial.

(** The hypothesis is met with a shared Module: both [a] and [b] hold [c]. *)
Example C14_name_order_used :
  let w := mkWorld [mkMobj (Mod_cls "Net") 1 false (0, 0) [("a", sub 1); ("b", sub 2)];
                    mkMobj (Mod_cls "Layer") 2 false (0, 0) [("c", sub 2); ("w", param 12)];
                    mkMobj (Mod_cls "Layer") 3 false (0, 0) [("mean", stat 11); ("w", param 13)]] 3 (0, 0) default_node_types in
  wf_world w /\ names_ok w 0 /\ acyclic w 0 /\
  (forall y o l1 n l2 m l3, reaches w 0 y -> get_obj w y = Some o -> keys (m_vars o) = l1 ++ n :: l2 ++ m :: l3 -> String.compare n m = Lt) /\
  snd (pop_state 5 w 0 [FType "Param"]) = Ok (One [("a/c/w", param 13); ("a/w", param 12)]).
Proof.
  cbv zeta. split; [apply wf_worldb_ok; vm_compute; reflexivity|]. split; [apply names_okb_ok; vm_compute; reflexivity|].
  split; [apply forwardb_ok; vm_compute; reflexivity|]. split; [|vm_compute; reflexivity].
  assert (T : forall (a b n m : string) l1 l2 l3, [a; b] = l1 ++ n :: l2 ++ m :: l3 -> n = a /\ m = b).
  { intros a b n m l1 l2 l3 E. destruct l1 as [|? [|? l1]]; cbn in E.
    - destruct l2 as [|? l2]; cbn in E; [injection E as -> -> _; auto|]. injection E as _ _ E. destruct l2; discriminate.
    - injection E as _ _ E. destruct l2; discriminate.
    - injection E as _ _ E. destruct l1; discriminate. }
  intros y o l1 n l2 m l3 _ Ho Hk.
  do 3 (destruct y as [|y]; [cbn in Ho; injection Ho as <-; cbn [m_vars keys map fst] in Hk; apply T in Hk as [-> ->]; reflexivity|]).
  destruct y; discriminate.
Qed.

(** On [ex_dag] the orders differ: [out] was assigned before [inp]. *)
Example C14_popped_paths_used :
  wf_world ex_dag /\ names_ok ex_dag 0 /\ acyclic ex_dag 0 /\
  exists w' x, pop_state 10 ex_dag 0 [FType "BatchStat"] = (w', Ok (One x)) /\ keys x = ["out/norm/mean"].
Proof. destruct ex_dag_ok as (A & B & C & D & F). repeat (split; [assumption|]). do 2 eexists. split; vm_compute; reflexivity. Qed.
