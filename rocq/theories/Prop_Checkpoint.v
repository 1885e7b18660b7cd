(** Prop_Checkpoint: C91, saving a State and loading it into a module that another
    run of the constructor has made. *)
From Coq Require Import Lia.
From Verif Require Import PyBase PyBaseFacts ValuesM Spec_Eq ValuesFacts FiltersM StateM Spec_State State_proofs ModuleM PureM Spec_Module Spec_Prog Spec_Functional Spec_Checkpoint
  Graph_facts Dfs_proofs Clone_proofs Laws_proofs History_proofs Leaf_proofs Scan_proofs Container_proofs ScanDeco_proofs Functional_proofs Checkpoint_proofs Ex_Module.
Local Open Scope string_scope.
Local Open Scope list_scope.

(** *** C91 *)
(** Two runs of a constructor that differ only in the contents of arrays (and in
    the process, the jax trace and the objects that exist already) end the same
    way and give modules with the same definition and states with the same paths
    and alike entries. *)
Theorem C91_definition :
  forall w w' c p p' w1 m x w1' m' x',
  wf_world w -> wf_world w' -> w_nodes w = w_nodes w' -> In "Module" c ->
  ok_prog p -> ok_prog p' -> same_steps (w_nodes w) p p' ->
  construct w c p = (w1, m, x) -> construct w' c p' = (w1', m', x') ->
  same_outcome x x' /\
  exists d s s', get_module_def w1 m = Ok d /\ get_module_def w1' m' = Ok d /\
    get_state w1 m = Ok s /\ get_state w1' m' = Ok s' /\ alike_dict (w_nodes w) s s'.
Proof.
  intros w w' c p p' w1 m x w1' m' x' W W' N Hc Hp Hp' HS C C'.
  destruct (two_constructions w w' c p p' W W' N Hc Hp Hp' HS) as (v1 & v1' & y & y' & d & s & s' & E & E' & O & _ & _ & _ & _ & _ & _ & _ & _ & D & D' & S & S' & A).
  rewrite E in C. injection C as <- <- <-. rewrite E' in C'. injection C' as <- <- <-. split; [exact O|]. exists d, s, s'. auto.
Qed.
Print Assumptions C91_definition.

(** Loading with [merge]: the model [m] was made in one run and has been worked
    on since (world [w2]; its definition is still that of its creation); its
    States were saved, split by any filters.  The definition of another run of
    the constructor, merged with the saved States in any world, gives a faithful
    copy of the saved model, and every program does on it what it does on the
    original. *)
Theorem C91_load :
  forall w w' c p p' w1 m x w1' m' x' w2 fs q d' wb,
  wf_world w -> wf_world w' -> w_nodes w = w_nodes w' -> In "Module" c ->
  ok_prog p -> ok_prog p' -> same_steps (w_nodes w) p p' ->
  construct w c p = (w1, m, x) -> construct w' c p' = (w1', m', x') ->
  wf_world w2 -> m < List.length (w_heap w2) -> names_ok w2 m -> live w2 m -> get_module_def w2 m = get_module_def w1 m ->
  module_partition w2 m fs = Ok q -> get_module_def w1' m' = Ok d' -> wf_world wb -> w_nodes wb = w_nodes w2 ->
  exists k wb', merge wb d' (sts_list (p_states q)) = Ok (k, wb') /\ faithful_copy w2 m wb wb' k /\
    forall A (f : prog A), ok_prog f ->
      exists w3 wb3 y, run f w2 [m] = (w3, y) /\ run f wb' [k] = (wb3, y) /\
        get_state wb3 k = get_state w3 m /\ get_module_def wb3 k = get_module_def w3 m.
Proof.
  intros w w' c p p' w1 m x w1' m' x' w2 fs q d' wb W W' N Hc Hp Hp' HS C C' W2 V2 N2 L2 D2 Q Hd' Wb Nb.
  destruct (C91_definition _ _ _ _ _ _ _ _ _ _ _ W W' N Hc Hp Hp' HS C C') as (_ & d & s & s' & D & D' & _).
  rewrite D' in Hd'. injection Hd' as <-. rewrite D in D2.
  pose proof (partition_parts q w2 m fs W2 V2 Q) as PQ. pose proof PQ as [PD PS]. rewrite D2 in PD. injection PD as PD.
  destruct (parts_merge q w2 m wb W2 V2 N2 PQ) as (Lg & wb' & objs & Hg & Hm & HM).
  pose proof (merged_faithful _ _ _ _ _ _ _ W2 V2 Hg HM) as FC.
  exists (List.length (w_heap wb)), wb'. unfold pure_merge in Hm. rewrite <- PD in Hm. split; [exact Hm|]. split; [exact FC|].
  intros A f Hf. destruct (fc_wf _ _ _ _ _ FC Wb) as [Wb' Vk].
  destruct (same_parts_run f q w2 m wb' (List.length (w_heap wb)) Hf) as (w3 & wb3 & y & R1 & R2 & S & DD); auto.
  - apply (fc_names _ _ _ _ _ FC); assumption.
  - intros y o Hy Ho. rewrite (fc_trace _ _ _ _ _ FC y o Hy Ho). symmetry. apply (RoundTrip_proofs.mg_trace _ _ _ _ _ HM).
  - split; [rewrite (fc_def _ _ _ _ _ FC) by assumption|rewrite (fc_state _ _ _ _ _ FC) by assumption]; apply PQ.
  - rewrite (RoundTrip_proofs.mg_nodes _ _ _ _ _ HM). now symmetry.
  - exists w3, wb3, y. auto.
Qed.
Print Assumptions C91_load.

(** Loading with [update_state]: the saved State [s2] written into the module of
    the other run gives it exactly the saved state; from then on every program
    does on it what it does on the original. *)
Theorem C91_restore :
  forall w w' c p p' w1 m x w1' m' x' w2 s1 s2,
  wf_world w -> wf_world w' -> w_nodes w = w_nodes w' -> In "Module" c ->
  ok_prog p -> ok_prog p' -> same_steps (w_nodes w) p p' ->
  construct w c p = (w1, m, x) -> construct w' c p' = (w1', m', x') -> names_ok w1' m' ->
  wf_world w2 -> m < List.length (w_heap w2) -> names_ok w2 m -> live w2 m -> w_nodes w2 = w_nodes w ->
  get_module_def w2 m = get_module_def w1 m ->
  get_state w1 m = Ok s1 -> get_state w2 m = Ok s2 -> alike_dict (w_nodes w) s1 s2 ->
  exists v, update_state w1' m' (UStates (One s2)) = (v, Ok tt) /\
    get_state v m' = Ok s2 /\ get_module_def v m' = get_module_def w2 m /\ (forall path, follow v m' path = follow w1' m' path) /\
    (forall y, ~ reaches w1' m' y -> get_obj v y = get_obj w1' y) /\
    forall A (f : prog A), ok_prog f ->
      exists w3 v3 y, run f w2 [m] = (w3, y) /\ run f v [m'] = (v3, y) /\
        get_state v3 m' = get_state w3 m /\ get_module_def v3 m' = get_module_def w3 m.
Proof.
  intros w w' c p p' w1 m x w1' m' x' w2 s1 s2 W W' N Hc Hp Hp' HS C C' N1' W2 V2 N2 L2 NT2 D2 S1 S2 A12.
  destruct (two_constructions w w' c p p' W W' N Hc Hp Hp' HS) as (v1 & v1' & y & y' & d & t & t' & E & E' & O & Wv & Wv' & Vv & Vv' & Lv & Lv' & NT & NT' & D & D' & T & T' & A).
  rewrite E in C. injection C as <- <- <-. rewrite E' in C'. injection C' as <- <- <-. rewrite T in S1. injection S1 as ->.
  assert (A' : alike_dict (w_nodes w) t' s2) by (eapply ad_trans; [apply ad_sym; exact A|exact A12]).
  assert (PL : forall k a, dget k s2 = Some a -> plain_attr a).
  { intros k a Hk. apply (get_state_plain w2 _ s2 W2 S2 k a). eapply dget_In; exact Hk. }
  assert (ND : NoDup (keys s2)) by (destruct (get_state_total w2 _ W2 V2) as (u & U & Wu); rewrite S2 in U; injection U as <-; now apply wf_NoDup).
  destruct (update_state_effect v1' (List.length (w_heap w')) (UStates (One s2)) [s2] t' Wv' Vv' N1' Lv' T' eq_refl) as (v & U & F).
  { discriminate. }
  { constructor; [exact ND|constructor]. }
  { intros k a La. cbn [latest] in La. destruct (PL k a La) as [P1 P2]. split; [exact P1|]. split; [exact P2|].
    pose proof (ad_get _ _ _ A' k) as G. rewrite La in G. destruct (dget k t') as [old|] eqn:Dk; [|contradiction].
    exists old, a. split; [reflexivity|]. split; [eapply alike_overwrites; eauto|].
    pose proof (get_state_nodes w2 _ s2 k a W2 S2 La) as NV. unfold node_value in *. rewrite NT', <- N, <- NT2. exact NV. }
  exists v. split; [exact U|].
  assert (SV : get_state v (List.length (w_heap w')) = Ok s2).
  { destruct (ue_state _ _ _ _ _ F) as (u & Su & K & Vu). rewrite Su. f_equal. apply dict_ext.
    - rewrite K, (ad_keys _ _ _ A'). exact ND.
    - rewrite K. exact (ad_keys _ _ _ A').
    - intros k. pose proof (ad_get _ _ _ A' k) as G. destruct (dget k t') as [old|] eqn:Dk.
      + destruct (dget k s2) as [a|] eqn:Da; [|contradiction]. destruct (Vu k old Dk) as (res & R1 & R2). cbn [latest] in R2. rewrite Da in R2.
        rewrite R1. f_equal. eapply overwrites_unique; [exact R2|]. destruct (PL k a Da) as [_ P2]. eapply alike_overwrites; eauto.
      + destruct (dget k s2); [contradiction|]. apply dget_None. rewrite K. now apply dget_None. }
  assert (DV : get_module_def v (List.length (w_heap w')) = get_module_def w2 (List.length (w_heap w))).
  { rewrite (ue_def _ _ _ _ _ F), D2. congruence. }
  split; [exact SV|]. split; [exact DV|]. split; [apply (ue_follow _ _ _ _ _ F)|]. split; [apply (ue_frame _ _ _ _ _ F)|].
  intros B f Hf. destruct (ue_global _ _ _ _ _ F) as (Q1 & Q2 & Q3 & Q4).
  destruct (same_parts_run f (mkPure (One s2) d) w2 (List.length (w_heap w)) v (List.length (w_heap w')) Hf) as (w3 & v3 & z & R1 & R2 & S & DD); auto.
  - split; cbn [p_def p_states pure_get_state]; congruence.
  - apply (ue_wf _ _ _ _ _ F).
  - unfold valid. rewrite Q4. exact Vv'.
  - apply (ue_names _ _ _ _ _ F).
  - eapply effect_live; eauto.
  - split; cbn [p_def p_states pure_get_state]; congruence.
  - congruence.
  - exists w3, v3, z. auto.
Qed.
Print Assumptions C91_restore.

(** A constructor with a static attribute, a Param, and a submodule under two
    names that holds an array and a copy of the Param; the number stands for the
    random key. *)
Definition ex_init (k : nat) : prog unit :=
  Do (CSet 0 "name" (ARaw (PyStr "mlp"))) (fun _ =>
  Do (CSet 0 "w" (param k)) (fun _ =>
  Do (CNew (Mod_cls "Linear")) (fun _ =>
  Do (CSet 1 "bias" (arr (S k))) (fun _ =>
  Do (CLink 0 "enc" 1) (fun _ =>
  Do (CLink 0 "dec" 1) (fun _ =>
  Do (CGet 0 "w") (fun a =>
  match a with
  | AValue v => Do (CSet 1 "tied" v) (fun _ => Finish (Ok tt))
  | _ => Finish (Err AttributeError)
  end))))))).
Definition ex_train : prog unit := Do (CSet 0 "w" (arr 77)) (fun _ => Finish (Ok tt)).
Lemma ex_init_ok k : ok_prog (ex_init k).
Proof.
  assert (PW : plain_attr (param k)) by (split; [apply wf_containerb_ok; reflexivity|reflexivity]).
  unfold ex_init. apply ok_do; [split; [exact Logic.I|reflexivity]|]. intros _ _. apply ok_do; [exact PW|]. intros _ _.
  apply ok_do; [right; left; reflexivity|]. intros _ _. apply ok_do; [split; [exact Logic.I|reflexivity]|]. intros _ _.
  apply ok_do; [exact Logic.I|]. intros _ _. apply ok_do; [exact Logic.I|]. intros _ _. apply ok_do; [exact Logic.I|]. intros a Ha.
  destruct a; try constructor; [exact Ha|]. intros; constructor.
Qed.
Lemma ex_init_same k j : same_steps default_node_types (ex_init k) (ex_init j).
Proof.
  assert (AR : forall a b, alike default_node_types (arr a) (arr b)).
  { intros a b. apply alike_node; try reflexivity; exists "jax.Array"; split; [left; reflexivity|right; left; reflexivity| left; reflexivity|right; left; reflexivity]. }
  assert (PR : forall a b, alike default_node_types (param a) (param b)).
  { intros a b. apply alike_cont; try (apply wf_containerb_ok; reflexivity). exists "Node"; split; [right; right; left; reflexivity|right; right; left; reflexivity]. }
  unfold ex_init. constructor; [apply alike_set; constructor|]. intros _ _ _. constructor; [apply alike_set, PR|]. intros _ _ _.
  constructor; [constructor; discriminate|]. intros _ _ _. constructor; [apply alike_set, AR|]. intros _ _ _.
  constructor; [constructor; discriminate|]. intros _ _ _. constructor; [constructor; discriminate|]. intros _ _ _. constructor; [constructor; discriminate|].
  intros a a' H. destruct H as [a H1 H2|a b H|s u H]; [destruct a; try (constructor; exact eq_refl); now elim (H1 a)| |constructor; exact eq_refl].
  constructor; [apply alike_set; exact H|]. intros _ _ _. constructor. exact Logic.I.
Qed.
Example C91_example :
  wf_world ex_cyc /\ wf_world ex_dag /\ w_nodes ex_cyc = w_nodes ex_dag /\ same_steps (w_nodes ex_cyc) (ex_init 3) (ex_init 40) /\
  exists w1 m w1' m' w2 s1 s2 d' k wb' v,
    construct ex_cyc (Mod_cls "Net") (ex_init 3) = (w1, m, Ok tt) /\ construct ex_dag (Mod_cls "Net") (ex_init 40) = (w1', m', Ok tt) /\
    run ex_train w1 [m] = (w2, Ok tt) /\ wf_world w2 /\ names_ok w2 m /\ names_ok w1' m' /\ live w2 m /\
    get_module_def w2 m = get_module_def w1 m /\ get_module_def w1' m' = Ok d' /\
    get_state w1 m = Ok s1 /\ get_state w2 m = Ok s2 /\ alike_dict (w_nodes ex_cyc) s1 s2 /\
    keys s2 = ["dec/bias"; "dec/tied"; "w"] /\
    merge ex_dag d' [s2] = Ok (k, wb') /\ get_state wb' k = Ok s2 /\ dget "w" s2 = Some (param 77) /\
    update_state w1' m' (UStates (One s2)) = (v, Ok tt) /\ get_state v m' = Ok s2 /\ get_state w1' m' <> Ok s2.
Proof.
  destruct ex_cyc_ok as (W & _). destruct ex_dag_ok as (W' & _). split; [exact W|]. split; [exact W'|]. split; [reflexivity|]. split; [apply ex_init_same|].
  do 11 eexists. split; [vm_compute; reflexivity|]. split; [vm_compute; reflexivity|]. split; [vm_compute; reflexivity|].
  split; [apply wf_worldb_ok; vm_compute; reflexivity|]. split; [apply names_okb_ok; vm_compute; reflexivity|]. split; [apply names_okb_ok; vm_compute; reflexivity|].
  split; [apply liveb_ok; vm_compute; reflexivity|]. split; [vm_compute; reflexivity|]. split; [vm_compute; reflexivity|]. split; [vm_compute; reflexivity|]. split; [vm_compute; reflexivity|].
  split.
  { repeat (apply Forall2_cons || apply Forall2_nil); cbn [fst snd]; (split; [reflexivity|]).
    - apply alike_static.
    - apply alike_cont; try (apply wf_containerb_ok; reflexivity). exists "Node"; split; [right; right; left; reflexivity|right; right; left; reflexivity].
    - apply alike_cont; try (apply wf_containerb_ok; reflexivity). exists "Node"; split; [right; right; left; reflexivity|right; right; left; reflexivity]. }
  split; [vm_compute; reflexivity|]. split; [vm_compute; reflexivity|]. split; [vm_compute; reflexivity|]. split; [vm_compute; reflexivity|].
  split; [vm_compute; reflexivity|]. split; [vm_compute; reflexivity|]. vm_compute. discriminate.
Qed.

(** A constructor whose steps depend on the contents of an array: the saved State
    does not fit the definition of the other run, and merging raises. *)
Definition ex_branch (k : nat) : prog unit :=
  Do (CSet 0 "w" (param k)) (fun _ => Do (CGet 0 "w") (fun a =>
  match a with
  | AValue (ACont (mkCont _ _ (PyObj _ 0))) => Finish (Ok tt)
  | _ => Do (CNew (Mod_cls "Linear")) (fun _ => Do (CSet 1 "bias" (arr 1)) (fun _ => Do (CLink 0 "enc" 1) (fun _ => Finish (Ok tt))))
  end)).
Theorem C91_branch_refuted :
  exists (p p' : prog unit) c w w1 m w1' m' s d', wf_world w /\ In "Module" c /\ ok_prog p /\ ok_prog p' /\
    (exists k k', p = ex_branch k /\ p' = ex_branch k') /\
    construct w c p = (w1, m, Ok tt) /\ construct w c p' = (w1', m', Ok tt) /\
    get_state w1 m = Ok s /\ get_module_def w1' m' = Ok d' /\ get_module_def w1 m <> Ok d' /\ merge w d' [s] = Err KeyError.
Proof.
  assert (OK : forall k, ok_prog (ex_branch k)).
  { intros k. unfold ex_branch. apply ok_do; [split; [apply wf_containerb_ok; reflexivity|reflexivity]|]. intros _ _. apply ok_do; [exact Logic.I|]. intros a _.
    assert (B : ok_prog (Do (CNew (Mod_cls "Linear")) (fun _ => Do (CSet 1 "bias" (arr 1)) (fun _ => Do (CLink 0 "enc" 1) (fun _ => Finish (Ok tt)))))).
    { apply ok_do; [right; left; reflexivity|]. intros _ _. apply ok_do; [split; [exact Logic.I|reflexivity]|]. intros _ _. apply ok_do; [exact Logic.I|]. intros _ _. constructor. }
    destruct a as [|[v|[c0 m0 v]]| | | | |]; try exact B. destruct v as [| | | | | |? [|?]]; try exact B; constructor. }
  destruct ex_cyc_ok as (W & _). exists (ex_branch 5), (ex_branch 0), (Mod_cls "Net"), ex_cyc. do 6 eexists.
  split; [exact W|]. split; [right; left; reflexivity|]. split; [apply OK|]. split; [apply OK|]. split; [eexists _, _; split; reflexivity|].
  split; [vm_compute; reflexivity|]. split; [vm_compute; reflexivity|]. split; [vm_compute; reflexivity|]. split; [vm_compute; reflexivity|].
  split; [vm_compute; discriminate|]. vm_compute. reflexivity.
Qed.
Print Assumptions C91_branch_refuted.

(** An array kept in a Static container is part of the definition, not of the
    State: loading gives the array of the run that made the definition, not the
    saved one, and nothing is raised. *)
Definition ex_static (k : nat) : prog unit :=
  Do (CSet 0 "w" (param k)) (fun _ => Do (CSet 0 "table" (ACont (mkCont Static_cls [] (PyObj Array_cls k)))) (fun _ => Finish (Ok tt))).
Theorem C91_static_refuted :
  exists (p p' : prog unit) c w w1 m w1' m' s d' k wb', wf_world w /\ In "Module" c /\ ok_prog p /\ ok_prog p' /\
    (exists k k', p = ex_static k /\ p' = ex_static k') /\
    construct w c p = (w1, m, Ok tt) /\ construct w c p' = (w1', m', Ok tt) /\
    get_state w1 m = Ok s /\ get_module_def w1' m' = Ok d' /\ merge w d' [s] = Ok (k, wb') /\
    get_state wb' k = Ok s /\ getattr wb' k "table" <> getattr w1 m "table".
Proof.
  assert (OK : forall k, ok_prog (ex_static k)).
  { intros k. unfold ex_static. apply ok_do; [split; [apply wf_containerb_ok; reflexivity|reflexivity]|]. intros _ _.
    apply ok_do; [split; [apply wf_containerb_ok; reflexivity|reflexivity]|]. intros; constructor. }
  destruct ex_cyc_ok as (W & _). exists (ex_static 5), (ex_static 0), (Mod_cls "Net"), ex_cyc. do 8 eexists.
  split; [exact W|]. split; [right; left; reflexivity|]. split; [apply OK|]. split; [apply OK|]. split; [eexists _, _; split; reflexivity|].
  split; [vm_compute; reflexivity|]. split; [vm_compute; reflexivity|]. split; [vm_compute; reflexivity|]. split; [vm_compute; reflexivity|].
  split; [vm_compute; reflexivity|]. split; [vm_compute; reflexivity|]. vm_compute. discriminate.
Qed.
Print Assumptions C91_static_refuted.
