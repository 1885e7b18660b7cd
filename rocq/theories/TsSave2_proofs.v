(** TsSave2_proofs: saving and restoring a TrainState. *)
From Coq Require Import Lia.
From Verif Require Import PyBase PyBaseFacts ValuesM Spec_Eq ValuesFacts StateM ModuleM PytreeM Spec_Pytree Pytree_proofs PtreeM TrainM Spec_Train Train_proofs TsSaveM Spec_TsSave TsSave_proofs.
Local Open Scope string_scope.
Local Open Scope list_scope.

Section Save.
Variable to_dict : pyval -> result pyval.
Variable from_dict : pyval -> pyval -> result pyval.

Lemma save_total : forall d, NoDup (keys d) -> (forall n f v, dget n d = Some f -> node_field f = true -> field_value f = Some v -> exists s, to_dict v = Ok s) ->
  exists st, save_fields to_dict d = Ok st.
Proof.
  induction d as [|[m f] d IH]; intros ND H; cbn [save_fields]; [eauto|]. inversion ND as [|? ? N1 N2]; subst.
  destruct (IH N2) as (st & E). { intros n g v G. apply (H n g v). cbn. destruct (String.eqb_spec n m) as [->|]; [|exact G]. exfalso. apply N1. eapply dget_In_keys; eauto. }
  destruct (node_field f) eqn:NF; [|eauto]. destruct (node_value f NF) as (v & FV). destruct (H m f v) as (s & TD); auto. { cbn. now rewrite String.eqb_refl. }
  destruct f as [[x|c]|l]; cbn in FV |- *; try discriminate; injection FV as ->; rewrite TD; cbn [rbind]; rewrite E; cbn; eauto.
Qed.

Lemma ts_fields o mdef params tx opt step buffers n f : ts_obj o mdef params tx opt step buffers -> dget n (p_vars o) = Some f ->
  (n = F_SORTED /\ node_field f = false) \/ (n = "moduledef" /\ f = FAttr (ARaw mdef)) \/ (n = "tx" /\ f = FAttr (ARaw tx)) \/ (n = "buffers" /\ f = FAttr (ARaw buffers)) \/
  (exists c v, f = FAttr (ACont c) /\ c_cls c = TreeNode_cls /\ c_meta c = [] /\ c_val c = v /\ ((n = "params" /\ v = params) \/ (n = "opt_state" /\ v = opt) \/ (n = "step" /\ v = step))).
Proof.
  intros ((PC & WF & SE & FS & ON & MD & TX & (c1 & P1 & P2) & (c2 & Q1 & Q2) & (c3 & R1 & R2)) & BF & K) G.
  assert (I : In n ts_keys) by (rewrite <- K; eapply dget_In_keys; eauto).
  destruct I as [<-|[<-|[<-|[<-|[<-|[<-|[<-|[]]]]]]]].
  - left. split; [reflexivity|]. unfold fields_sorted in FS. rewrite FS in G. injection G as <-. reflexivity.
  - right; left. split; [reflexivity|congruence].
  - do 4 right. assert (f = FAttr (ACont c1)) by congruence. exists c1, params. tauto.
  - do 2 right; left. split; [reflexivity|congruence].
  - do 4 right. assert (f = FAttr (ACont c2)) by congruence. exists c2, opt. tauto.
  - do 4 right. assert (f = FAttr (ACont c3)) by congruence. exists c3, step. tauto.
  - do 3 right; left. split; [reflexivity|congruence].
Qed.
Lemma tnode_is c : c_cls c = TreeNode_cls -> node_field (FAttr (ACont c)) = true.
Proof. intros H. cbn. unfold is_node. cbn. destruct c. cbn in *. subst. reflexivity. Qed.

(** The new object is a TrainState again. *)
Lemma ts_again o2 o mdef params tx opt step buffers p' q' n' b' : ts_obj o2 mdef params tx opt step buffers ->
  p_class o = p_class o2 -> keys (p_vars o) = keys (p_vars o2) ->
  (forall n, In n [F_SORTED; "moduledef"; "tx"] -> dget n (p_vars o) = dget n (p_vars o2)) ->
  (forall n v, In (n, v) [("params", p'); ("opt_state", q'); ("step", n')] -> dget n (p_vars o) = Some (FAttr (ACont (mkCont TreeNode_cls [] v)))) ->
  dget "buffers" (p_vars o) = Some (FAttr (ARaw b')) -> ts_obj o mdef p' tx q' n' b'.
Proof.
  intros T2 PC K ST CT BF. pose proof T2 as ((PC2 & WF & SE & FS & ON & MD & TX & _) & _ & K2).
  assert (WC : forall v, wf_container (mkCont TreeNode_cls [] v)) by (intros v; exact (tnode_wf (fun _ _ => Err TypeError) (fun _ => Err TypeError) v)).
  assert (KO : keys (p_vars o) = ts_keys) by congruence.
  assert (FL : forall n f, dget n (p_vars o) = Some f -> wf_field f /\ forall l, f = FNames l -> n = F_SORTED).
  { intros n f G. assert (I : In n ts_keys) by (rewrite <- KO; eapply dget_In_keys; eauto).
    destruct I as [<-|[<-|[<-|[<-|[<-|[<-|[<-|[]]]]]]]].
    - rewrite ST in G by (cbn; tauto). split; [exact (proj2 WF _ _ G)|auto].
    - rewrite ST, MD in G by (cbn; tauto). injection G as <-. split; [exact Logic.I|discriminate].
    - rewrite (CT "params" p') in G by (cbn; tauto). injection G as <-. split; [apply WC|discriminate].
    - rewrite ST, TX in G by (cbn; tauto). injection G as <-. split; [exact Logic.I|discriminate].
    - rewrite (CT "opt_state" q') in G by (cbn; tauto). injection G as <-. split; [apply WC|discriminate].
    - rewrite (CT "step" n') in G by (cbn; tauto). injection G as <-. split; [apply WC|discriminate].
    - rewrite BF in G. injection G as <-. split; [exact Logic.I|discriminate]. }
  split; [|split; [exact BF|exact KO]]. split; [congruence|]. split.
  { split; [rewrite K; exact (proj1 WF)|]. intros n f G. exact (proj1 (FL n f G)). }
  split; [unfold sealed in *; now rewrite K|]. split.
  { unfold fields_sorted in *. rewrite ST by (cbn; tauto). rewrite FS. do 2 f_equal. apply sort_keys_ext2. now symmetry. }
  split; [intros n l G; exact (proj2 (FL n _ G) l eq_refl)|]. split; [rewrite ST by (cbn; tauto); exact MD|]. split; [rewrite ST by (cbn; tauto); exact TX|].
  split; [exists (mkCont TreeNode_cls [] p'); split; [apply CT; cbn; tauto|auto]|].
  split; [exists (mkCont TreeNode_cls [] q'); split; [apply CT; cbn; tauto|auto]|].
  exists (mkCont TreeNode_cls [] n'); split; [apply CT; cbn; tauto|auto].
Qed.

Lemma ts_nodes o mdef params tx opt step buffers n f : ts_obj o mdef params tx opt step buffers -> plain mdef -> plain tx -> node_at o n f ->
  exists v, field_value f = Some v /\ In (n, v) [("params", params); ("opt_state", opt); ("step", step); ("buffers", buffers)].
Proof.
  intros T PM PT [G NF]. destruct (ts_fields _ _ _ _ _ _ _ _ _ T G) as [[-> H]|[[-> ->]|[[-> ->]|[[-> ->]|(c & v & -> & _ & _ & Hv & H)]]]]; try congruence; try (unfold plain in *; unfold node_field in NF; congruence).
  - exists buffers. split; [reflexivity|]. cbn. auto 6.
  - exists v. cbn in *. split; [now rewrite Hv|]. destruct H as [[-> ->]|[[-> ->]|[-> ->]]]; auto 6.
Qed.
Lemma ts_node_at o mdef params tx opt step buffers n v : ts_obj o mdef params tx opt step buffers ->
  In (n, v) [("params", params); ("opt_state", opt); ("step", step)] -> exists c, node_at o n (FAttr (ACont c)) /\ c_cls c = TreeNode_cls /\ c_meta c = [] /\ c_val c = v.
Proof.
  intros ((_ & _ & _ & _ & _ & _ & _ & (c1 & P1 & P2 & P3 & P4) & (c2 & Q1 & Q2 & Q3 & Q4) & (c3 & R1 & R2 & R3 & R4)) & _ & _) [H|[H|[H|[]]]]; injection H as <- <-.
  - exists c1. split; [split; [exact P1|now apply tnode_is]|auto].
  - exists c2. split; [split; [exact Q1|now apply tnode_is]|auto].
  - exists c3. split; [split; [exact R1|now apply tnode_is]|auto].
Qed.

Lemma ts_save h1 r1 o1 m1 p1 t1 q1 n1 b1 sp sq sn sb : nth_error h1 r1 = Some o1 -> ts_obj o1 m1 p1 t1 q1 n1 b1 -> plain m1 -> plain t1 ->
  to_dict p1 = Ok sp -> to_dict q1 = Ok sq -> to_dict n1 = Ok sn -> to_dict b1 = Ok sb -> exists st, save to_dict h1 r1 = Ok st.
Proof.
  intros O T PM PT E1 E2 E3 E4. unfold save. rewrite O. apply save_total; [exact (proj1 (proj1 (proj2 (proj1 T))))|].
  intros n f v G NF FV. destruct (ts_nodes _ _ _ _ _ _ _ n f T PM PT (conj G NF)) as (v' & FV' & I). assert (v' = v) by congruence. subst v'.
  destruct I as [I|[I|[I|[I|[]]]]]; injection I as <- <-; eauto.
Qed.

Lemma ts_restore h1 r1 o1 h2 r2 o2 m1 p1 t1 q1 n1 b1 m2 p2 t2 q2 n2 b2 sp sq sn sb b st :
  nth_error h1 r1 = Some o1 -> ts_obj o1 m1 p1 t1 q1 n1 b1 -> nth_error h2 r2 = Some o2 -> ts_obj o2 m2 p2 t2 q2 n2 b2 ->
  plain m1 -> plain t1 -> plain m2 -> plain t2 -> ~ plain b1 -> ~ plain b2 ->
  to_dict p1 = Ok sp -> to_dict q1 = Ok sq -> to_dict n1 = Ok sn -> to_dict b1 = Ok sb -> from_dict b2 sb = Ok b -> save to_dict h1 r1 = Ok st ->
  exists o, restore from_dict h2 r2 st = (h2 ++ [o], Ok tt) /\ ts_obj o m2 sp t2 sq sn b.
Proof.
  intros O1 T1 O2 T2 PM1 PT1 PM2 PT2 NB1 NB2 E1 E2 E3 E4 E5 SV. unfold plain in NB1, NB2. apply not_false_is_true in NB1, NB2.
  assert (NA1 : node_at o1 "buffers" (FAttr (ARaw b1))) by (split; [exact (proj1 (proj2 T1))|exact NB1]).
  assert (NA2 : node_at o2 "buffers" (FAttr (ARaw b2))) by (split; [exact (proj1 (proj2 T2))|exact NB2]).
  assert (ALL : forall o m p t q k bb n, ts_obj o m p t q k bb -> node_at o "buffers" (FAttr (ARaw bb)) -> plain m -> plain t -> (exists f, node_at o n f) <-> In n ["params"; "opt_state"; "step"; "buffers"]).
  { intros o m p t q k bb n T NA PM PT. split.
    - intros (f & F). destruct (ts_nodes _ _ _ _ _ _ _ n f T PM PT F) as (v & _ & I). destruct I as [I|[I|[I|[I|[]]]]]; injection I as <- <-; cbn; tauto.
    - intros [<-|[<-|[<-|[<-|[]]]]].
      + destruct (ts_node_at _ _ _ _ _ _ _ "params" p T) as (c & C & _); [cbn; tauto|eauto].
      + destruct (ts_node_at _ _ _ _ _ _ _ "opt_state" q T) as (c & C & _); [cbn; tauto|eauto].
      + destruct (ts_node_at _ _ _ _ _ _ _ "step" k T) as (c & C & _); [cbn; tauto|eauto].
      + eauto. }
  pose proof T2 as ((PC2 & WF2 & SE2 & _) & _ & _).
  destruct (restore_ok to_dict from_dict h1 r1 o1 st h2 r2 o2 O1 (proj1 (proj1 (proj2 (proj1 T1)))) SV O2) as (o & R & PC & KO & FR & CB); auto.
  { now rewrite PC2. }
  { intros n. rewrite (ALL o1 m1 p1 t1 q1 n1 b1 n T1 NA1 PM1 PT1), (ALL o2 m2 p2 t2 q2 n2 b2 n T2 NA2 PM2 PT2). reflexivity. }
  { intros n v0 f v s N2 N1 FV TD. destruct N2 as [G2 NF2]. destruct (ts_fields _ _ _ _ _ _ _ _ _ T2 G2) as [[-> H]|[[-> H]|[[-> H]|[[-> H]|(c & x & H & _)]]]]; try congruence.
    - injection H as ->. unfold plain in PM2. unfold node_field in NF2. congruence.
    - injection H as ->. unfold plain in PT2. unfold node_field in NF2. congruence.
    - injection H as ->. destruct N1 as [G1 _], NA1 as [G1' _]. assert (f = FAttr (ARaw b1)) by congruence. subst f. cbn in FV. injection FV as <-. exists b. congruence. }
  exists o. split; [exact R|]. eapply (ts_again o2 o); eauto.
  - intros n I. destruct T2 as ((_ & _ & _ & FS & _ & MD & TX & _) & _ & _). unfold fields_sorted in FS.
    destruct I as [<-|[<-|[<-|[]]]]; [rewrite FS; apply FR; [exact FS|reflexivity]|rewrite MD; apply FR; [exact MD|exact PM2]|rewrite TX; apply FR; [exact TX|exact PT2]].
  - intros n v I. assert (X : exists v1, In (n, v1) [("params", p1); ("opt_state", q1); ("step", n1)] /\ to_dict v1 = Ok v /\ exists v2, In (n, v2) [("params", p2); ("opt_state", q2); ("step", n2)]).
    { destruct I as [I|[I|[I|[]]]]; injection I as <- <-; eexists; (split; [cbn; eauto|split; [eassumption|eexists; cbn; eauto]]). }
    destruct X as (v1 & I1 & TD & v2 & I2). destruct (ts_node_at _ _ _ _ _ _ _ n v1 T1 I1) as (c1 & C1 & _ & _ & V1). destruct (ts_node_at _ _ _ _ _ _ _ n v2 T2 I2) as (c2 & C2 & CC & CM & _).
    destruct (CB n _ _ C1 C2) as (f & G & v' & s & FV & TD' & ->). rewrite G. cbn in FV. rewrite V1 in FV. injection FV as <-. rewrite CC, CM. congruence.
  - destruct (CB _ _ _ NA1 NA2) as (f & G & v' & s & FV & TD' & x & FX & ->). cbn in FV. injection FV as <-. rewrite G. congruence.
Qed.

Lemma ts_reload h1 r1 o1 h2 r2 o2 m1 p1 t1 q1 n1 b1 m2 p2 t2 q2 n2 b2 sp sq sn sb p q n b st :
  nth_error h1 r1 = Some o1 -> ts_obj o1 m1 p1 t1 q1 n1 b1 -> nth_error h2 r2 = Some o2 -> ts_obj o2 m2 p2 t2 q2 n2 b2 ->
  plain m1 -> plain t1 -> ~ plain b1 ->
  to_dict p1 = Ok sp -> to_dict q1 = Ok sq -> to_dict n1 = Ok sn -> to_dict b1 = Ok sb ->
  from_dict p2 sp = Ok p -> from_dict q2 sq = Ok q -> from_dict n2 sn = Ok n -> from_dict b2 sb = Ok b -> save to_dict h1 r1 = Ok st ->
  exists o, reload from_dict h2 r2 st = (h2 ++ [o], Ok tt) /\ ts_obj o m2 p t2 q n b.
Proof.
  intros O1 T1 O2 T2 PM1 PT1 NB1 E1 E2 E3 E4 D1 D2 D3 D4 SV. unfold plain in NB1. apply not_false_is_true in NB1.
  assert (NA1 : node_at o1 "buffers" (FAttr (ARaw b1))) by (split; [exact (proj1 (proj2 T1))|exact NB1]).
  pose proof T2 as ((PC2 & WF2 & SE2 & FS & ON2 & MD & TX & _) & BF2 & _).
  destruct (ts_node_at _ _ _ _ _ _ _ "params" p2 T2) as (cp & [CP _] & CP1 & CP2 & CP3); [cbn; tauto|].
  destruct (ts_node_at _ _ _ _ _ _ _ "opt_state" q2 T2) as (cq & [CQ _] & CQ1 & CQ2 & CQ3); [cbn; tauto|].
  destruct (ts_node_at _ _ _ _ _ _ _ "step" n2 T2) as (cn & [CN _] & CN1 & CN2 & CN3); [cbn; tauto|].
  destruct (reload_ok to_dict from_dict h1 r1 o1 st h2 r2 o2 O1 (proj1 (proj1 (proj2 (proj1 T1)))) SV O2) as (o & R & PC & KO & FR & CB); auto.
  { now rewrite PC2. }
  { intros k f v s NA FV TD. destruct (ts_nodes _ _ _ _ _ _ _ k f T1 PM1 PT1 NA) as (v' & FV' & I). assert (v' = v) by congruence. subst v'.
    destruct I as [I|[I|[I|[I|[]]]]]; injection I as <- <-.
    - exists (FAttr (ACont cp)), p2, p. split; [exact CP|]. split; [cbn; congruence|congruence].
    - exists (FAttr (ACont cq)), q2, q. split; [exact CQ|]. split; [cbn; congruence|congruence].
    - exists (FAttr (ACont cn)), n2, n. split; [exact CN|]. split; [cbn; congruence|congruence].
    - exists (FAttr (ARaw b2)), b2, b. split; [exact BF2|]. split; [reflexivity|congruence]. }
  exists o. split; [exact R|]. eapply (ts_again o2 o); eauto.
  - assert (NN : forall k, In k [F_SORTED; "moduledef"; "tx"] -> ~ exists f1, node_at o1 k f1).
    { intros k I (f & F). destruct (ts_nodes _ _ _ _ _ _ _ k f T1 PM1 PT1 F) as (v & _ & I').
      destruct I as [<-|[<-|[<-|[]]]]; destruct I' as [I'|[I'|[I'|[I'|[]]]]]; discriminate. }
    intros k I. pose proof (NN k I) as NK. unfold fields_sorted in FS. destruct I as [<-|[<-|[<-|[]]]]; [rewrite FS; now apply FR|rewrite MD; now apply FR|rewrite TX; now apply FR].
  - intros k v I. destruct I as [I|[I|[I|[]]]]; injection I as <- <-.
    + destruct (ts_node_at _ _ _ _ _ _ _ "params" p1 T1) as (c & C & _ & _ & V1); [cbn; tauto|]. destruct (CB _ _ _ C CP) as (f & G & v & s & v0 & x & F1 & F2 & F3 & F4 & ->).
      rewrite G, CP1, CP2. cbn in F1, F3. rewrite V1 in F1. rewrite CP3 in F3. injection F1 as <-. injection F3 as <-. congruence.
    + destruct (ts_node_at _ _ _ _ _ _ _ "opt_state" q1 T1) as (c & C & _ & _ & V1); [cbn; tauto|]. destruct (CB _ _ _ C CQ) as (f & G & v & s & v0 & x & F1 & F2 & F3 & F4 & ->).
      rewrite G, CQ1, CQ2. cbn in F1, F3. rewrite V1 in F1. rewrite CQ3 in F3. injection F1 as <-. injection F3 as <-. congruence.
    + destruct (ts_node_at _ _ _ _ _ _ _ "step" n1 T1) as (c & C & _ & _ & V1); [cbn; tauto|]. destruct (CB _ _ _ C CN) as (f & G & v & s & v0 & x & F1 & F2 & F3 & F4 & ->).
      rewrite G, CN1, CN2. cbn in F1, F3. rewrite V1 in F1. rewrite CN3 in F3. injection F1 as <-. injection F3 as <-. congruence.
  - destruct (CB _ _ _ NA1 BF2) as (f & G & v & s & v0 & x & F1 & F2 & F3 & F4 & ->). cbn in F1, F3. injection F1 as <-. injection F3 as <-. rewrite G. congruence.
Qed.
End Save.

From Verif Require Import FiltersM PureM TransformM GradFunM JitCacheM TrainLoopM Spec_Module Spec_Prog Spec_GradFun Spec_Functional Spec_TrainLoop Graph_facts Dfs_proofs Clone_proofs TrainLoop_proofs TsLoopM Spec_TsLoop TsLoop_proofs.

Lemma optimized_app upd au of_state D r : forall l1 w opt wm optm, optimized upd au of_state D r w opt l1 wm optm -> forall l2 wd optd,
  optimized upd au of_state D r wm optm l2 wd optd -> optimized upd au of_state D r w opt (l1 ++ l2) wd optd.
Proof. induction 1; intros; [assumption|]. cbn. eapply op_step; eauto. Qed.
Lemma optimized_ext upd upd' au of_state D r : (forall g s p, upd' g s p = upd g s p) -> forall w opt l wd optd, optimized upd au of_state D r w opt l wd optd -> optimized upd' au of_state D r w opt l wd optd.
Proof. intros E. induction 1; [constructor|]. eapply op_step; eauto. now rewrite E. Qed.
Lemma adds_app f : forall a x y, adds f a x y -> forall b z, adds f b y z -> adds f (a + b) x z.
Proof. induction 1; intros; [assumption|]. cbn. econstructor; eauto. Qed.

Section Train.
Variable tx_init : pyval -> pyval -> result pyval.
Variable tx_update : pyval -> pyval -> pyval -> pyval -> result (pyval * pyval).
Variable apply_updates : pyval -> pyval -> result pyval.
Variable asarray : pyval -> result pyval.
Variable add_one : pyval -> result pyval.
Variable as_def : pyval -> option mdef.
Variable as_state : pyval -> option state.
Variable of_state : state -> pyval.
Hypothesis as_of : forall s, as_state (of_state s) = Some s.
Notation loop := (ts_loop tx_update apply_updates add_one as_def as_state of_state).

(** Make a TrainState and train. *)
Lemma trains D r tx w opt losses wd optd v params buffers params0 d mdef step n nd h t :
  differentiates D -> wf_world w -> valid w r -> names_ok w r -> live w r -> In "jax.Array" (w_nodes w) -> wf_world v -> w_nodes v = w_nodes w ->
  module_partition w r [FType "Param"; FEllipsis] = Ok (mkPure (Many [params; buffers]) d) -> as_def mdef = Some d -> params0 = of_state params ->
  tx_init tx params0 = Ok opt -> asarray step = Ok n -> adds add_one (List.length losses) n nd ->
  optimized (tx_update tx) apply_updates of_state D r w opt losses wd optd ->
  exists o os v' q o' params' buffers',
    train_new tx_init asarray h mdef params0 tx step [("buffers", ARaw (of_state buffers))] = (h ++ [o], Ok tt) /\
    loop t D (map user_fun losses) (h ++ [o]) v (List.length h) = (h ++ o :: os, v', Ok q) /\ nth_error (h ++ o :: os) q = Some o' /\
    module_partition wd r [FType "Param"; FEllipsis] = Ok (mkPure (Many [params'; buffers']) d) /\
    ts_obj o' mdef (of_state params') tx optd nd (of_state buffers') /\
    wf_world wd /\ valid wd r /\ names_ok wd r /\ live wd r /\ w_nodes wd = w_nodes w.
Proof.
  intros HD W V N L J Wv Nv Hp DF -> TI AA AO T.
  destruct (train_new_ok tx_init asarray h mdef (of_state params) tx step [("buffers", ARaw (of_state buffers))] opt n TI AA) as (o & E & TO & K & FV).
  { repeat constructor. intros []. }
  { intros k a [[= <- <-]|[]]. split; [reflexivity|]. split; [exact Logic.I|]. cbn. intros H. repeat (destruct H as [H|H]; [discriminate|]). exact H. }
  assert (O : nth_error (h ++ [o]) (List.length h) = Some o) by (rewrite nth_error_app2 by lia; now rewrite Nat.sub_diag).
  assert (B : dget "buffers" (p_vars o) = Some (FAttr (ARaw (of_state buffers)))) by now apply FV.
  destruct (ts_loop_ok tx_update apply_updates add_one as_def as_state of_state as_of D r tx HD losses w opt wd optd v params buffers d t (h ++ [o]) (List.length h) o mdef n nd
     J T AO W V N L Wv Nv Hp O TO DF (or_introl B)) as (os & w' & q & o' & a & b & E' & LO & O' & P & TO' & HB & K' & _ & U & _ & _ & TR & RB & X1 & X2 & X3 & X4 & X5).
  rewrite <- app_assoc in *. exists o, os, w', q, o', a, b. split; [exact E|]. split; [exact E'|]. split; [exact O'|]. split; [exact P|].
  split; [split; [exact TO'|]; split; [auto|]; rewrite K'; exact K|]. auto.
Qed.
(** Go on with a TrainState that holds the same. *)
Lemma goes_on D r tx tx2 w opt losses wd optd v params buffers d mdef n nd h q o t :
  differentiates D -> wf_world w -> valid w r -> names_ok w r -> live w r -> In "jax.Array" (w_nodes w) -> wf_world v -> w_nodes v = w_nodes w ->
  module_partition w r [FType "Param"; FEllipsis] = Ok (mkPure (Many [params; buffers]) d) -> as_def mdef = Some d -> (forall g s p, tx_update tx2 g s p = tx_update tx g s p) ->
  adds add_one (List.length losses) n nd -> optimized (tx_update tx) apply_updates of_state D r w opt losses wd optd ->
  nth_error h q = Some o -> ts_obj o mdef (of_state params) tx2 opt n (of_state buffers) ->
  exists os v' q' o' params' buffers', loop t D (map user_fun losses) h v q = (h ++ os, v', Ok q') /\ nth_error (h ++ os) q' = Some o' /\
    module_partition wd r [FType "Param"; FEllipsis] = Ok (mkPure (Many [params'; buffers']) d) /\ ts_obj o' mdef (of_state params') tx2 optd nd (of_state buffers') /\
    all_unchanged v v' /\ w_trace v' = w_trace v.
Proof.
  intros HD W V N L J Wv Nv Hp DF EX AO T O (TO & B & K). apply (optimized_ext _ (tx_update tx2) _ _ _ _ EX) in T.
  destruct (ts_loop_ok tx_update apply_updates add_one as_def as_state of_state as_of D r tx2 HD losses w opt wd optd v params buffers d t h q o mdef n nd
     J T AO W V N L Wv Nv Hp O TO DF (or_introl B)) as (os & w' & q' & o' & a & b & E' & LO & O' & P & TO' & HB & K' & _ & U & _ & _ & TR & RB & _).
  exists os, w', q', o', a, b. split; [exact E'|]. split; [exact O'|]. split; [exact P|]. split; [split; [exact TO'|]; split; [auto|congruence]|]. auto.
Qed.
End Train.
