(** Prop_Capture: C105, intermediate values taken out of a module and out of its
    parts. *)
From Coq Require Import Lia.
From Verif Require Import PyBase PyBaseFacts ValuesM Spec_Eq ValuesFacts FiltersM StateM Spec_State State_proofs ModuleM PureM TransformM Spec_Module Spec_Path Spec_Prog Spec_Functional
  Spec_Capture Graph_facts Dfs_proofs Clone_proofs Laws_proofs Path_proofs Prop_Path Functional_proofs Capture_proofs Ex_Module.
Local Open Scope string_scope.
Local Open Scope list_scope.

(** *** C105 *)
(** A program that holds a module as [Pure], works on it as in C90 and takes values
    out with [p.pop_state], gives the outputs of the program that works on the
    module itself and takes them out with [m.pop_state]: the same States come out,
    the same errors are raised, and what is left are the parts of the module that
    is left. *)
Theorem C105_program_partial :
  forall A r (l : list (step A)) w v fs p,
  wf_world w -> r < List.length (w_heap w) -> names_ok w r -> live w r -> wf_world v -> w_nodes v = w_nodes w ->
  module_partition w r fs = Ok p -> good_steps r w l ->
  exists v1 p1, run_on_parts l v p = (v1, p1, snd (run_on_module r l w)) /\
    parts_of p1 (fst (run_on_module r l w)) r /\
    (forall gs, pure_partition p1 gs = module_partition (fst (run_on_module r l w)) r gs) /\
    (forall vb, exists m vb', pure_merge vb p1 = Ok (m, vb') /\ faithful_copy (fst (run_on_module r l w)) r vb vb' m) /\
    all_unchanged v v1 /\ w_trace v1 = w_trace v.
Proof.
  intros A r l w v fs p W V N L Wv Nv P G.
  destruct (capture_program r l v w v p G) as (v1 & p1 & E & H).
  { constructor; auto; [intros x o Ho; exact Ho|]. eapply partition_parts; eauto. }
  exists v1, p1. split; [exact E|]. split; [apply H|]. split; [intros gs; apply parts_partition; apply H|]. split.
  { intros vb. destruct (parts_merge p1 _ r vb (hd_wf _ _ _ _ _ H) (hd_valid _ _ _ _ _ H) (hd_names _ _ _ _ _ H) (hd_parts _ _ _ _ _ H)) as (L1 & vb' & objs & Hg & Hm & HM).
    eexists _, _. split; [exact Hm|]. eapply merged_faithful; eauto; apply H. }
  split; apply H.
Qed.
Print Assumptions C105_program_partial.

(** The two ways to capture the intermediates of one call: [y = f(m)] and
    [out = m.pop_state(F)]; or [y, (state, moduledef) = moduledef.apply(state)(...)]
    and [out, state = state.partition(F, ...)].  The same [y], the same [out], and
    what is left of the state is the state of the module that is left. *)
Theorem C105_one_call_partial :
  forall A (f : prog A) F w r v d s w1 y,
  wf_world w -> r < List.length (w_heap w) -> names_ok w r -> live w r -> wf_world v -> w_nodes v = w_nodes w ->
  get_module_def w r = Ok d -> get_state w r = Ok s -> ok_prog f ->
  run f w [r] = (w1, Ok y) -> names_ok w1 r -> acyclic w1 r -> same_names w1 r -> valid_filter F -> F <> FEllipsis ->
  exists v1 d1 s1 out rest w2,
    mdef_apply v d [s] (user_fun f) = (v1, Ok (y, mkPure (One s1) d1)) /\
    state_partition s1 F [FEllipsis] = Ok (Many [out; rest]) /\
    state_filter s1 F [] = Ok (One out) /\
    pop_state (S (List.length (w_heap w1))) w1 r [F] = (w2, Ok (One out)) /\
    get_state w2 r = Ok rest /\ get_module_def w2 r = Ok d1 /\ all_unchanged v v1.
Proof.
  intros A f F w r v d s w1 y W V N L Wv Nv Hd Hs Hf Hrun N1 Ac1 Sn1 VF NF.
  assert (P : module_partition w r [] = Ok (mkPure (One s) d)) by (unfold module_partition; rewrite Hd, Hs; reflexivity).
  assert (H : holds v w r v (mkPure (One s) d)).
  { constructor; auto; [intros x o Ho; exact Ho|]. eapply partition_parts; eauto. }
  destruct (run_parts f v w r v (mkPure (One s) d) (w_trace v) Hf H) as (w1' & res & v1 & v2 & E1 & Hm & E2 & W1 & V1 & L1 & Nn & W2 & N2 & U & S2 & D2).
  rewrite Hrun in E1. injection E1 as <- <-.
  replace (set_trace v (w_trace v)) with v in Hm by (destruct v; reflexivity).
  destruct (get_module_def_total w1 r W1 V1) as [d1 Hd1]. destruct (get_state_total w1 r W1 V1) as (s1 & Hs1 & Ws1).
  destruct (pop_both w1 r [F] s1 W1 V1 N1 Ac1 Sn1 Hs1) as (F1 & gs & w2 & x & rest & [= <- <-] & E & E3 & Ex & Wr & W' & G' & D' & _).
  { discriminate. } { constructor; [exact VF|constructor]. } { intros g [<-|[]]. exact NF. }
  assert (HF : exists q, state_filter s1 F [] = Ok q).
  { apply filter_ok_iff; auto. split; [constructor; [exact VF|constructor]|]. intros i Hi. destruct i as [|[|i]]; [injection Hi as Hi; congruence|discriminate|discriminate]. }
  destruct HF as [q Hq]. destruct (filter_partition s1 F [] q Ws1) as (rest' & Hp & _); [intros g [<-|[]]; exact NF|exact Hq|].
  rewrite E3 in Hp. injection Hp as Hp. apply app_inj_tail in Hp as [Hp _].
  destruct (filter_entries _ _ _ _ Ws1 Hq) as [Lq _]. rewrite <- Hp in Lq. cbn [List.length] in Lq.
  destruct (sts_list x) as [|out [|? ?]] eqn:Lx; try discriminate. cbn [unpack] in Ex. subst x.
  assert (q = One out).
  { unfold state_filter in Hq. destruct (split_state s1 [F]) as [l|] eqn:El; [|discriminate]. cbn [rbind] in Hq. injection Hq as Hq.
    pose proof (unpack_pack (removelast l)) as K. rewrite Hq, <- Hp in K. exact K. }
  subst q. exists v2, d1, s1, out, rest, w2. split.
  { unfold mdef_apply. unfold pure_merge in Hm. cbn [p_def p_states sts_list] in Hm. rewrite Hm. unfold user_fun. rewrite E2.
    unfold module_partition. rewrite S2, D2, Hd1, Hs1. reflexivity. }
  split; [exact E3|]. split; [exact Hq|]. split; [exact E|]. split; [exact G'|]. split; [congruence|exact U].
Qed.
Print Assumptions C105_one_call_partial.

(** The conditions on [pop_state] hold when no Module is shared, and when the
    attributes of every Module were assigned in the order of their names. *)
Theorem C105_no_sharing :
  forall w r, (forall p q y, follow w r p = Some y -> follow w r q = Some y -> p = q) -> acyclic w r /\ same_names w r.
Proof.
  intros w r U. split.
  - intros x p [q Hq] Hne Hp. apply Hne. assert (E : q ++ p = q) by (apply (U _ _ x); [rewrite follow_app, Hq; exact Hp|exact Hq]).
    rewrite <- (app_nil_r q) in E at 2. now apply app_inv_head in E.
  - intros p q y [A _] [[B _] _]. exact (U p q y A B).
Qed.
Print Assumptions C105_no_sharing.
Theorem C105_name_order :
  forall w r, wf_world w -> r < List.length (w_heap w) -> acyclic w r ->
  (forall y o l1 n l2 m l3, reaches w r y -> get_obj w y = Some o -> keys (m_vars o) = l1 ++ n :: l2 ++ m :: l3 -> String.compare n m = Lt) ->
  same_names w r.
Proof.
  intros w r Hw Hr Ha Ho p q y [A B] Fq.
  assert (L : first_path w r p y).
  { split; [now apply acyclic_direct|]. intros q' [Hq _]. destruct (B q' Hq) as [->|(c & n & m & p' & q1 & z & o & l1 & l2 & l3 & -> & -> & Hz & Hoz & Hk)]; [now left|].
    right. exists c, n, m, p', q1. split; [reflexivity|]. split; [reflexivity|]. apply (Ho z o l1 n l2 m l3); [exists c; exact Hz|exact Hoz|exact Hk]. }
  destruct (C93_one_path w r y Hw Hr) as (p0 & _ & K); [exists p; exact A|]. now rewrite (K p L), (K q Fq).
Qed.
Print Assumptions C105_name_order.

(** trees, decided: references go to larger addresses and no Module is held twice *)
Definition edges (w : world) : list (nat * (nat * string)) :=
  flat_map (fun i => match get_obj w i with
                     | Some o => flat_map (fun na => match snd na with ARaw (PyMod c) => [(c, (i, fst na))] | _ => [] end) (m_vars o)
                     | None => [] end) (seq 0 (List.length (w_heap w))).
Definition treeb (w : world) : bool := forwardb w && nodupnb (map fst (edges w)).
Lemma nodup_fst {A B} (l : list (A * B)) a b c : NoDup (map fst l) -> In (a, b) l -> In (a, c) l -> b = c.
Proof.
  induction l as [|[x y] l IH]; [intros _ []|]. cbn [map fst]. intros N [H1|H1] [H2|H2]; inversion N as [|? ? N1 N2]; subst.
  - congruence.
  - injection H1 as -> ->. destruct N1. apply in_map_iff. exists (a, c). auto.
  - injection H2 as -> ->. destruct N1. apply in_map_iff. exists (a, b). auto.
  - auto.
Qed.
Lemma treeb_ok w r : treeb w = true -> acyclic w r /\ same_names w r.
Proof.
  intros H. apply andb_prop in H as [H1 H2]. apply nodupnb_ok in H2. pose proof (forwardb_ok w r H1) as Ac.
  apply C105_no_sharing. induction p as [|n p IH] using rev_ind; intros q y Hp Hq.
  - destruct q as [|m q]; [reflexivity|]. exfalso. assert (y = r) by (cbn in Hp; destruct (get_obj w r); congruence). subst y.
    apply (Ac r (m :: q)); [exists []; exact Hp|discriminate|exact Hq].
  - destruct (exists_last (l := q)) as (q' & m & ->).
    { intros ->. assert (y = r) by (cbn in Hq; destruct (get_obj w r); congruence). subst y.
      apply (Ac r (p ++ [n])); [exists []; exact Hq|destruct p; discriminate|exact Hp]. }
    rewrite follow_app in Hp, Hq. destruct (follow w r p) as [x|] eqn:Ep; [|discriminate]. destruct (follow w r q') as [x'|] eqn:Eq; [|discriminate].
    assert (E : forall z k, follow w z [k] = Some y -> In (y, (z, k)) (edges w)).
    { intros z k Hk. apply follow_cons_child in Hk as (c & (o & Ho & Hd) & Hc). assert (c = y) by (cbn in Hc; destruct (get_obj w c); congruence). subst c.
      unfold edges. apply in_flat_map. exists z. split; [apply in_seq; apply get_obj_lt in Ho; unfold valid in Ho; lia|]. rewrite Ho. apply in_flat_map.
      exists (k, ARaw (PyMod y)). split; [now apply dget_In|now left]. }
    pose proof (nodup_fst _ _ _ _ H2 (E _ _ Hp) (E _ _ Hq)) as K. injection K as -> ->. now rewrite (IH q' x' eq_refl Eq).
Qed.

(** [...]: the module gives everything away, its parts refuse. *)
Theorem C105_ellipsis_refuted :
  (forall p s f fs, pure_get_state p = Ok s -> In FEllipsis (f :: fs) -> pure_pop_state p f fs = Err ValueError) /\
  exists w r p w' x, wf_world w /\ r < List.length (w_heap w) /\ names_ok w r /\ live w r /\ acyclic w r /\ same_names w r /\
    module_partition w r [] = Ok p /\ pop_state (S (List.length (w_heap w))) w r [FEllipsis] = (w', Ok (One x)) /\ get_state w r = Ok x /\ get_state w' r = Ok [] /\
    pure_pop_state p FEllipsis [] = Err ValueError.
Proof.
  split.
  - intros p s f fs Hs Hi. unfold pure_pop_state. rewrite Hs. cbn [rbind]. unfold state_partition, split_state.
    change (f :: fs ++ [FEllipsis]) with ((f :: fs) ++ [FEllipsis]).
    assert (E : ellipsis_misplaced ((f :: fs) ++ [FEllipsis]) = true).
    { revert Hi. generalize (f :: fs). intros l. induction l as [|g l IH]; [intros []|]. intros [->|Hi]; cbn [app ellipsis_misplaced];
        (destruct (l ++ [FEllipsis]) eqn:Q; [destruct l; discriminate|]); [reflexivity|]. rewrite IH by assumption. apply Bool.orb_true_r. }
    now rewrite E.
  - pose (w := mkWorld [mkMobj (Mod_cls "Net") 1 false (0, 0) [("a", sub 1); ("w", param 10)]; mkMobj (Mod_cls "Layer") 2 false (0, 0) [("b", arr 11); ("n", ARaw (PyStr "l"))]] 2 (0, 0) default_node_types).
    destruct (treeb_ok w 0) as [Ac Sn]; [vm_compute; reflexivity|]. exists w, 0. do 3 eexists. split; [apply wf_worldb_ok; vm_compute; reflexivity|]. split; [cbn; lia|].
    split; [apply names_okb_ok; vm_compute; reflexivity|]. split; [apply liveb_ok; vm_compute; reflexivity|]. split; [exact Ac|]. split; [exact Sn|].
    split; [vm_compute; reflexivity|]. split; [vm_compute; reflexivity|]. split; [vm_compute; reflexivity|]. split; vm_compute; reflexivity.
Qed.
Print Assumptions C105_ellipsis_refuted.

(** Shared Modules assigned in another order than that of their names: the popped
    States differ in their keys. *)
Theorem C105_shared_refuted :
  exists w r p w' x y q, wf_world w /\ r < List.length (w_heap w) /\ names_ok w r /\ live w r /\ acyclic w r /\
    module_partition w r [] = Ok p /\ pop_state (S (List.length (w_heap w))) w r [FType "BatchStat"] = (w', Ok (One x)) /\
    pure_pop_state p (FType "BatchStat") [] = Ok (One y, q) /\ x <> y /\ values x = values y.
Proof.
  destruct ex_dag_ok as (A & B & C & D & F). exists ex_dag, 0. do 5 eexists. split; [exact A|]. split; [exact F|]. split; [exact B|]. split; [exact C|]. split; [exact D|].
  split; [vm_compute; reflexivity|]. split; [vm_compute; reflexivity|]. split; [vm_compute; reflexivity|]. split; [discriminate|reflexivity].
Qed.
Print Assumptions C105_shared_refuted.

(** A collection name, as the README passes it, is no filter. *)
Theorem C105_collection_name_refuted :
  forall s f fs, state_partition s (FStr f) (fs ++ [FEllipsis]) = Err TypeError \/ state_partition s (FStr f) (fs ++ [FEllipsis]) = Err ValueError.
Proof.
  intros s f fs. unfold state_partition, split_state. destruct (ellipsis_misplaced _); [now right|]. left. reflexivity.
Qed.
Print Assumptions C105_collection_name_refuted.

(** A net of two layers that store their outputs: call, pop, call twice, pop under a
    wrong filter, split, pop two kinds, pop again. *)
Definition inter (n : nat) : attr := ACont (mkCont Intermediate_cls [("sharding", PyNone)] (PyObj Array_cls n)).
Definition ex_net : world := mkWorld
  [mkMobj (Mod_cls "Net") 1 false (0, 0) [("l2", sub 2); ("l1", sub 1); ("mean", stat 10)];
   mkMobj (Mod_cls "Layer") 2 false (0, 0) [("w", param 11); ("name", ARaw (PyStr "first"))];
   mkMobj (Mod_cls "Layer") 3 false (0, 0) [("w", param 12)]] 3 (0, 0) default_node_types.
Definition ex_call (n : nat) : prog nat :=
  Do (CGet 0 "l1") (fun _ => Do (CSet 1 "y" (inter n)) (fun _ => Do (CGet 0 "l2") (fun _ => Do (CSet 2 "y" (inter (S n))) (fun _ =>
  Do (CSet 0 "mean" (stat (10 + n))) (fun _ => Finish (Ok (n + 2))))))).
Definition ex_capture : list (step nat) :=
  [Stmt (Apply (0, 0) false (ex_call 30)); Pop (FType "Intermediate") []; Stmt (Apply (1, 1) true (ex_call 40)); Stmt (Apply (0, 0) false (ex_call 50));
   Pop (FType "Intermediate") [FInt]; Stmt (Split [FType "Param"; FEllipsis]); Pop (FType "Intermediate") [FType "BatchStat"]; Pop (FType "Intermediate") []].
Example C105_example :
  exists p, module_partition ex_net 0 [] = Ok p /\ good_steps 0 ex_net ex_capture /\
    snd (run_on_module 0 ex_capture ex_net) =
      [Ok (inl (Some 32)); Ok (inr (One [("l1/y", inter 30); ("l2/y", inter 31)])); Ok (inl (Some 42)); Ok (inl (Some 52)); Err ValueError; Ok (inl None);
       Ok (inr (Many [[("l1/y", inter 50); ("l2/y", inter 51)]; [("mean", stat 60)]])); Ok (inr (One []))] /\
    exists v1 p1, run_on_parts ex_capture ex_net p = (v1, p1, snd (run_on_module 0 ex_capture ex_net)) /\
      p_states p1 = One [("l1/w", param 11); ("l2/w", param 12)].
Proof.
  eexists. split; [vm_compute; reflexivity|].
  assert (OK : forall n, ok_prog (ex_call n)).
  { intros n. assert (PA : forall m, plain_attr (inter m)) by (intros m; split; [apply wf_containerb_ok; reflexivity|reflexivity]).
    unfold ex_call. apply ok_do; [exact Logic.I|]. intros _ _. apply ok_do; [apply PA|]. intros _ _. apply ok_do; [exact Logic.I|]. intros _ _.
    apply ok_do; [apply PA|]. intros _ _. apply ok_do; [split; [apply wf_containerb_ok; reflexivity|reflexivity]|]. intros; constructor. }
  split.
  { unfold ex_capture. cbn [good_steps good_step good_stmt].
    repeat match goal with
    | |- acyclic ?w _ /\ same_names ?w _ /\ _ => let T := fresh in assert (T : acyclic w 0 /\ same_names w 0) by (apply treeb_ok; vm_compute; reflexivity);
        destruct T; split; [assumption|]; split; [assumption|]; intros g Hg; cbn [In] in Hg; intuition (subst; discriminate)
    | |- _ /\ _ => split
    | |- True => exact Logic.I
    | |- ok_prog _ => apply OK
    | |- forall w1 y, _ => let H := fresh in intros w1 y H; vm_compute in H; first [discriminate H | injection H as <- <-;
        split; [apply names_okb_ok; vm_compute; reflexivity|intros K; (discriminate K || (vm_compute; reflexivity))]]
    end. }
  split; [vm_compute; reflexivity|]. do 2 eexists. split; vm_compute; reflexivity.
Qed.
Example C105_one_call_used :
  wf_world ex_net /\ names_ok ex_net 0 /\ live ex_net 0 /\ ok_prog (ex_call 30) /\
  exists w1, run (ex_call 30) ex_net [0] = (w1, Ok 32) /\ names_ok w1 0 /\ acyclic w1 0 /\ same_names w1 0.
Proof.
  split; [apply wf_worldb_ok; vm_compute; reflexivity|]. split; [apply names_okb_ok; vm_compute; reflexivity|]. split; [apply liveb_ok; vm_compute; reflexivity|]. split.
  { assert (PA : forall m, plain_attr (inter m)) by (intros m; split; [apply wf_containerb_ok; reflexivity|reflexivity]).
    unfold ex_call. apply ok_do; [exact Logic.I|]. intros _ _. apply ok_do; [apply PA|]. intros _ _. apply ok_do; [exact Logic.I|]. intros _ _.
    apply ok_do; [apply PA|]. intros _ _. apply ok_do; [split; [apply wf_containerb_ok; reflexivity|reflexivity]|]. intros; constructor. }
  eexists. split; [vm_compute; reflexivity|]. split; [apply names_okb_ok; vm_compute; reflexivity|]. apply treeb_ok. vm_compute. reflexivity.
Qed.
