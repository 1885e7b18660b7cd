(** Prop_Functional: C90, programs on the parts of a module. *)
From Coq Require Import Lia.
From Verif Require Import PyBase PyBaseFacts ValuesM Spec_Eq ValuesFacts FiltersM StateM ModuleM PureM TransformM Spec_Module Spec_Prog Spec_Functional
  Graph_facts Dfs_proofs Clone_proofs Laws_proofs Functional_proofs Ex_Module.
Local Open Scope string_scope.
Local Open Scope list_scope.

(** *** C90 *)
(** A program that holds a module as [Pure] (or as States and a definition) and
    goes on with [apply], [call], [partition] and [tree_map], under jit or not,
    gives the outputs of the program that works on the module itself, and holds
    at the end the parts of that module: same state, same definition, the same
    result of every partition; merging them anywhere gives a faithful copy.  No
    object that existed before is changed. *)
Theorem C90_program :
  forall A r (l : list (stmt A)) w v fs p,
  wf_world w -> r < List.length (w_heap w) -> names_ok w r -> live w r -> wf_world v -> w_nodes v = w_nodes w ->
  module_partition w r fs = Ok p -> good r w l ->
  exists v1 p1, functionally l v p = (v1, p1, snd (imperatively r l w)) /\
    parts_of p1 (fst (imperatively r l w)) r /\
    (forall gs, pure_partition p1 gs = module_partition (fst (imperatively r l w)) r gs) /\
    (forall vb, exists m vb', pure_merge vb p1 = Ok (m, vb') /\ faithful_copy (fst (imperatively r l w)) r vb vb' m) /\
    all_unchanged v v1 /\ w_trace v1 = w_trace v.
Proof.
  intros A r l w v fs p W V N L Wv Nv P G.
  destruct (functional_imperative r l v w v p G) as (v1 & p1 & E & H).
  { constructor; auto; [intros x o Ho; exact Ho|]. eapply partition_parts; eauto. }
  exists v1, p1. split; [exact E|]. split; [apply H|]. split; [intros gs; apply parts_partition; apply H|]. split.
  { intros vb. destruct (parts_merge p1 _ r vb (hd_wf _ _ _ _ _ H) (hd_valid _ _ _ _ _ H) (hd_names _ _ _ _ _ H) (hd_parts _ _ _ _ _ H)) as (L1 & vb' & objs & Hg & Hm & HM).
    eexists _, _. split; [exact Hm|]. eapply merged_faithful; eauto; apply H. }
  split; apply H.
Qed.
Print Assumptions C90_program.

(** In particular the statements may be grouped into one jitted step or run one by
    one: the traces they run in do not matter. *)
Definition retraced {A} (tr : trace_state -> trace_state) (s : stmt A) : stmt A :=
  match s with
  | Apply t keep f => Apply (tr t) keep f
  | Call t f => Call (tr t) f
  | s => s
  end.
Lemma retraced_module {A} tr r w (s : stmt A) : on_module r w (retraced tr s) = on_module r w s.
Proof. destruct s; reflexivity. Qed.
Lemma retraced_imp {A} tr r (l : list (stmt A)) : forall w, imperatively r (map (retraced tr) l) w = imperatively r l w.
Proof. induction l as [|s l IH]; intros w; [reflexivity|]. cbn [map imperatively]. rewrite retraced_module. destruct (on_module r w s). now rewrite IH. Qed.
Lemma retraced_good {A} tr r (l : list (stmt A)) : forall w, good r w l -> good r w (map (retraced tr) l).
Proof.
  induction l as [|s l IH]; intros w; [auto|]. cbn [map good]. rewrite retraced_module. intros [H1 H2]. split; [|auto]. destruct s; exact H1.
Qed.
Theorem C90_jit :
  forall A (tr : trace_state -> trace_state) r (l : list (stmt A)) w v fs p v1 p1 xs v2 p2 ys,
  wf_world w -> r < List.length (w_heap w) -> names_ok w r -> live w r -> wf_world v -> w_nodes v = w_nodes w ->
  module_partition w r fs = Ok p -> good r w l ->
  functionally l v p = (v1, p1, xs) -> functionally (map (retraced tr) l) v p = (v2, p2, ys) ->
  ys = xs /\ p_def p2 = p_def p1 /\ pure_get_state p2 = pure_get_state p1.
Proof.
  intros A tr r l w v fs p v1 p1 xs v2 p2 ys W V N L Wv Nv P G E1 E2.
  destruct (C90_program A r l w v fs p W V N L Wv Nv P G) as (v1' & p1' & F1 & [D1 S1] & _). rewrite E1 in F1. injection F1 as -> -> ->.
  destruct (C90_program A r _ w v fs p W V N L Wv Nv P (retraced_good tr r l w G)) as (v2' & p2' & F2 & [D2 S2] & _). rewrite E2 in F2. injection F2 as -> -> ->.
  rewrite retraced_imp in *. split; [reflexivity|]. split; congruence.
Qed.
Print Assumptions C90_jit.

(** [call] leaves no trace: leaving it out changes nothing else. *)
Theorem C90_call_pure :
  forall A r (l1 l2 : list (stmt A)) t f w v fs p v1 p1 xs v2 p2 ys,
  wf_world w -> r < List.length (w_heap w) -> names_ok w r -> live w r -> wf_world v -> w_nodes v = w_nodes w ->
  module_partition w r fs = Ok p -> good r w (l1 ++ Call t f :: l2) ->
  functionally (l1 ++ Call t f :: l2) v p = (v1, p1, xs) -> functionally (l1 ++ l2) v p = (v2, p2, ys) ->
  p_def p2 = p_def p1 /\ pure_get_state p2 = pure_get_state p1 /\
  exists y, xs = firstn (List.length l1) ys ++ y :: skipn (List.length l1) ys.
Proof.
  intros A r l1 l2 t f w v fs p v1 p1 xs v2 p2 ys W V N L Wv Nv P G E1 E2.
  destruct (C90_program A r _ w v fs p W V N L Wv Nv P G) as (v1' & p1' & F1 & [D1 S1] & _). rewrite E1 in F1. injection F1 as -> -> ->.
  assert (G2 : good r w (l1 ++ l2)).
  { clear - G. revert w G. induction l1 as [|s l1 IH]; intros w; cbn [app good]; [intros [_ H]; exact H|]. intros [H1 H2]. auto. }
  destruct (C90_program A r _ w v fs p W V N L Wv Nv P G2) as (v2' & p2' & F2 & [D2 S2] & _). rewrite E2 in F2. injection F2 as -> -> ->.
  assert (X : fst (imperatively r (l1 ++ Call t f :: l2) w) = fst (imperatively r (l1 ++ l2) w) /\
    exists y, snd (imperatively r (l1 ++ Call t f :: l2) w) = firstn (List.length l1) (snd (imperatively r (l1 ++ l2) w)) ++ y :: skipn (List.length l1) (snd (imperatively r (l1 ++ l2) w))).
  { clear. revert w. induction l1 as [|s l1 IH]; intros w; cbn [app imperatively].
    - cbn [on_module]. destruct (imperatively r l2 w) as [w2 zs]. cbn. eauto.
    - destruct (on_module r w s) as [w1 x]. destruct (IH w1) as [I1 [y I2]].
      destruct (imperatively r (l1 ++ Call t f :: l2) w1), (imperatively r (l1 ++ l2) w1). cbn [fst snd] in *. split; [exact I1|]. exists y. cbn [List.length firstn skipn app]. now rewrite I2. }
  destruct X as [X1 X2]. rewrite X1 in *. split; [congruence|]. split; [congruence|exact X2].
Qed.
Print Assumptions C90_call_pure.

(** A training loop on a module with a shared submodule and a cycle: count, split,
    rewrite the Params, look at a result that raises, split otherwise. *)
Definition ex_count : prog nat :=
  Do (CGet 0 "out") (fun _ => Do (CGet 1 "buf") (fun a => Do (CSet 1 "buf" (match a with AValue (ARaw (PyObj c n)) => arr (S n) | _ => arr 0 end))
    (fun _ => Do (CGet 1 "buf") (fun a => Finish (Ok (match a with AValue (ARaw (PyObj c n)) => n | _ => 0 end)))))).
Definition ex_grow : prog nat := Do (CSet 0 "extra" (arr 55)) (fun _ => Do (CSet 0 "scale" (ARaw (PyStr "big"))) (fun _ => Finish (Ok 1))).
Definition ex_raise : prog nat := Do (CSet 0 "w" (param 66)) (fun _ => Finish (Err ValueError)).
Definition ex_sgd (k : string) (a : attr) : attr :=
  match a with
  | ACont c => if smem "Param" (c_cls c) then match c_val c with PyObj t n => ACont (mkCont (c_cls c) (c_meta c) (PyObj t (100 + n))) | _ => a end else a
  | _ => a
  end.
Definition ex_loop : list (stmt nat) :=
  [Apply (1, 1) true ex_count; Split [FType "Param"; FEllipsis]; Map ex_sgd; Apply (1, 2) true ex_count; Apply (0, 0) false ex_raise; Call (0, 0) ex_grow;
   Apply (1, 3) false ex_grow; Split [FType "Nothing"]; Map ex_sgd; Split [FType "BatchStat"; FType "Param"; FEllipsis]].
Lemma ex_sgd_ok w : well_behaved w ex_sgd.
Proof.
  intros k a [P1 P2] N. assert (I : overwrites a a a).
  { destruct a as [v|c]; [reflexivity|]. cbn. split; [reflexivity|]. split; [apply same_meta_refl|]. destruct c; reflexivity. }
  assert (T : plain_attr a /\ node_value w a /\ overwrites a a a) by (split; [split; assumption|split; assumption]).
  destruct a as [v|c]; cbn [ex_sgd]; [exact T|]. destruct (smem "Param" (c_cls c)); [|exact T].
  destruct (c_val c); try exact T. split; [split; [exact P1|reflexivity]|]. split; [exact N|].
  cbn. split; [reflexivity|]. split; [apply same_meta_refl|reflexivity].
Qed.
Example C90_example :
  exists p, module_partition ex_cyc 0 [] = Ok p /\ good 0 ex_cyc ex_loop /\
    snd (imperatively 0 ex_loop ex_cyc) =
      [Ok (Some 14); Ok None; Ok None; Ok (Some 15); Err ValueError; Ok (Some 1); Ok (Some 1); Err ValueError; Ok None; Ok None] /\
    exists v1 p1, functionally ex_loop ex_cyc p = (v1, p1, snd (imperatively 0 ex_loop ex_cyc)) /\
      List.length (sts_list (p_states p1)) = 3 /\ p_def p1 <> p_def p /\
      exists s, pure_get_state p1 = Ok s /\ dget "out/buf" s = Some (arr 15) /\ dget "w" s = Some (param 210) /\ dget "extra" s = Some (arr 55).
Proof.
  eexists. split; [vm_compute; reflexivity|].
  assert (OK : forall f, f = ex_count \/ f = ex_grow \/ f = ex_raise -> ok_prog f).
  { assert (PA : forall n, plain_attr (arr n)) by (intros n; split; [exact Logic.I|reflexivity]).
    intros f [->|[->| ->]].
    - unfold ex_count. apply ok_do; [exact Logic.I|]. intros _ _. apply ok_do; [exact Logic.I|]. intros a _.
      apply ok_do. { destruct a as [|[[]|]| | | | |]; apply PA. } intros _ _. apply ok_do; [exact Logic.I|]. intros; constructor.
    - unfold ex_grow. apply ok_do; [apply PA|]. intros _ _. apply ok_do; [split; [exact Logic.I|reflexivity]|]. intros; constructor.
    - unfold ex_raise. apply ok_do; [split; [apply wf_containerb_ok; reflexivity|reflexivity]|]. intros; constructor. }
  split.
  { unfold ex_loop. cbn [good good_stmt].
    repeat match goal with
    | |- _ /\ _ => split
    | |- True => exact Logic.I
    | |- ok_prog _ => apply OK; auto
    | |- well_behaved _ _ => apply ex_sgd_ok
    | |- forall w1 y, _ => let H := fresh in intros w1 y H; vm_compute in H; first [discriminate H | injection H as <- <-;
        split; [apply names_okb_ok; vm_compute; reflexivity|intros K; (discriminate K || (vm_compute; reflexivity))]]
    end. }
  split; [vm_compute; reflexivity|]. do 2 eexists. split; [vm_compute; reflexivity|]. split; [reflexivity|]. split; [vm_compute; discriminate|].
  eexists. split; [vm_compute; reflexivity|]. repeat split.
Qed.

(** Keeping the first definition is only right while the definition stays the
    same: a static attribute written by the call is lost. *)
Theorem C90_keep_refuted :
  exists (f : prog nat) w r p, wf_world w /\ r < List.length (w_heap w) /\ names_ok w r /\ live w r /\ ok_prog f /\
    module_partition w r [] = Ok p /\ names_ok (fst (imperatively r [Apply (w_trace w) true f] w)) r /\
    forall v1 p1 xs, functionally [Apply (w_trace w) true f] w p = (v1, p1, xs) ->
      get_module_def (fst (imperatively r [Apply (w_trace w) true f] w)) r <> Ok (p_def p1).
Proof.
  destruct ex_cyc_ok as (W & N & L & V). eexists ex_grow, ex_cyc, 0, _. split; [exact W|]. split; [exact V|]. split; [exact N|]. split; [exact L|].
  split. { unfold ex_grow. apply ok_do; [split; [exact Logic.I|reflexivity]|]. intros _ _. apply ok_do; [split; [exact Logic.I|reflexivity]|]. intros; constructor. }
  split; [vm_compute; reflexivity|]. split; [apply names_okb_ok; vm_compute; reflexivity|].
  intros v1 p1 xs H. vm_compute in H. injection H as <- <- <-. vm_compute. discriminate.
Qed.
Print Assumptions C90_keep_refuted.

(** A call that raises half-way: the parts are as before, the module itself is
    not. *)
Theorem C90_raise_refuted :
  exists (f : prog nat) w r p w1 e, wf_world w /\ r < List.length (w_heap w) /\ names_ok w r /\ live w r /\ ok_prog f /\
    module_partition w r [] = Ok p /\ run f w [r] = (w1, Err e) /\
    (exists v1, functionally [Apply (w_trace w) false f] w p = (v1, p, [Err e])) /\ get_state w1 r <> pure_get_state p.
Proof.
  destruct ex_cyc_ok as (W & N & L & V). eexists ex_raise, ex_cyc, 0, _, _, _. split; [exact W|]. split; [exact V|]. split; [exact N|]. split; [exact L|].
  split. { unfold ex_raise. apply ok_do; [split; [apply wf_containerb_ok; reflexivity|reflexivity]|]. intros; constructor. }
  split; [vm_compute; reflexivity|]. split; [vm_compute; reflexivity|]. split; [eexists; vm_compute; reflexivity|]. vm_compute. discriminate.
Qed.
Print Assumptions C90_raise_refuted.
