(** Property C100: snapshots of a Module that are taken while other threads run. *)
From Coq Require Import Lia.
From Verif Require Import PyBase PyBaseFacts ValuesM FiltersM StateM Spec_State ModuleM Spec_Module SnapshotM Spec_Snapshot Snapshot_proofs Ex_Module.
Local Open Scope string_scope.
Local Open Scope nat_scope.
Local Open Scope list_scope.

(** while the others only assign new values to node attributes, [get_state] returns,
    with the paths of the module, and every value is the one its path had at some moment
    of the call *)
Theorem C100_values_partial :
  forall (w : world) (acts : list (list (world -> world))) (r fuel : nat),
  wf_world w -> r < List.length (w_heap w) -> only_values w acts -> dfs_fuel w <= fuel ->
  exists st s' k', get_state_during fuel (mkRun w acts) r = Ok (st, s') /\ at_moment w acts s' k' /\
    (forall n, exists sn, get_state (moment w acts n) r = Ok sn /\ keys sn = keys st) /\
    (forall p a, dget p st = Some a -> exists n sn, n <= k' /\ get_state (moment w acts n) r = Ok sn /\ dget p sn = Some a).
Proof.
  intros w acts r fuel W V O Hf. destruct (torn_state w acts r fuel (mkRun w acts) 0 W V O Hf (at_start w acts)) as (st & s' & k' & P1 & _ & P2 & P3 & P4).
  exists st, s', k'. split; [exact P1|]. split; [exact P2|]. split; [exact P3|]. intros p a H. destruct (P4 p a H) as (n & sn & [_ H1] & H2 & H3). eauto.
Qed.
Print Assumptions C100_values_partial.

(** the definition does not notice such assignments *)
Theorem C100_definition_partial :
  forall (w : world) (acts : list (list (world -> world))) (r fuel : nat),
  wf_world w -> r < List.length (w_heap w) -> only_values w acts -> dfs_fuel w <= fuel ->
  exists d s', get_module_def_during fuel (mkRun w acts) r = Ok (d, s') /\ get_module_def w r = Ok d.
Proof.
  intros w acts r fuel W V O Hf. destruct (steady_def w acts r fuel (mkRun w acts) 0 W V O Hf (at_start w acts)) as (d & s' & k' & P1 & P2 & _). eauto.
Qed.
Print Assumptions C100_definition_partial.

(** [module.attribute = value] is such an action, when the attribute holds a node (not a
    submodule) and the value is one *)
Theorem C100_assignments :
  forall (w : world) (q : nat) (o : mobj) (name : string) (old v : attr),
  wf_world w -> get_obj w q = Some o -> dget name (m_vars o) = Some old -> leaf (w_nodes w) old -> leaf (w_nodes w) v ->
  forall w', same_skeleton w w' -> same_skeleton w (assign q name v w').
Proof. exact assign_value_keeps. Qed.
Print Assumptions C100_assignments.

(** what [partition] returns, with any filters, merges into a module with the structure
    of the original and the values of the snapshot *)
Theorem C100_partition_partial :
  forall (w : world) (acts : list (list (world -> world))) (r fuel : nat) (fs : list filt),
  wf_world w -> r < List.length (w_heap w) -> names_ok w r -> only_values w acts -> dfs_fuel w <= fuel ->
  (forall n, wf_world (moment w acts n)) ->
  exists d st s', get_module_def w r = Ok d /\
    partition_during fuel (mkRun w acts) r fs = (do x <- partition_state st fs; Ok (mkPure x d, s')) /\
    (forall p a, dget p st = Some a -> exists n sn, get_state (moment w acts n) r = Ok sn /\ dget p sn = Some a) /\
    (exists s0, get_state w r = Ok s0 /\ keys st = keys s0) /\
    forall x wb, partition_state st fs = Ok x -> wf_world wb -> w_nodes wb = w_nodes w ->
      exists m wb', merge wb d (sts_list x) = Ok (m, wb') /\ refilled_copy w r st wb wb' m.
Proof. exact partition_torn. Qed.
Print Assumptions C100_partition_partial.

(** if the others make a single assignment during the call, of whatever value to whatever
    attribute of whatever module, [get_state] returns the state before it or the state
    after it *)
Theorem C100_one_assignment_partial :
  forall (w : world) (r fuel q : nat) (name : string) (v : attr) (acts : list (list (world -> world))),
  wf_world w -> r < List.length (w_heap w) -> dfs_fuel w <= fuel -> attr_ok w v -> List.concat acts = [assign q name v] ->
  exists st s', get_state_during fuel (mkRun w acts) r = Ok (st, s') /\
    (get_state w r = Ok st \/ get_state (assign q name v w) r = Ok st).
Proof. exact single_state. Qed.
Print Assumptions C100_one_assignment_partial.

(** *** cases *)
(** the training thread writes [w] and then [inp.w]; the reads are of the root, inp, norm,
    the root again, out and norm *)
Definition ex_two : list (list (world -> world)) := [[]; [assign 0 "w" (arr 90); assign 1 "w" (param 91)]; [assign 3 "mean" (stat 92)]].
Lemma ex_two_values : only_values ex_cyc ex_two.
Proof.
  pose proof (proj1 ex_cyc_ok) as W.
  assert (L : forall a, is_node default_node_types a = true -> is_submodule a = false -> leaf (w_nodes ex_cyc) a).
  { intros a H1 H2. split; [exact H1|]. intros r ->. discriminate. }
  intros act [<-|[<-|[<-|[]]]] w'; eapply C100_assignments; try exact W; try reflexivity; apply L; reflexivity.
Qed.
Example C100_ex_hyps : wf_world ex_cyc /\ names_ok ex_cyc 0 /\ only_values ex_cyc ex_two /\ (forall n, wf_world (moment ex_cyc ex_two n)).
Proof.
  destruct ex_cyc_ok as (W & N & _). split; [exact W|]. split; [exact N|]. split; [exact ex_two_values|].
  intros [|[|[|[|n]]]]; apply wf_worldb_ok; try (vm_compute; reflexivity).
Qed.
(** the snapshot has the old [w], the new [inp/w] and the new [inp/norm/mean] *)
Example C100_ex_run : exists s', get_state_during 6 (mkRun ex_cyc ex_two) 0 =
  Ok ([("inp/norm/mean", stat 92); ("inp/w", param 91); ("out/buf", arr 13); ("out/w", param 12); ("w", param 10)], s').
Proof. eexists. vm_compute. reflexivity. Qed.
(** a structural assignment: the old or the new state *)
Example C100_ex_one : attr_ok ex_cyc (sub 4) /\
  (exists s', get_state_during 6 (mkRun ex_cyc [[]; []; [assign 0 "inp" (sub 4)]]) 0 =
     (do st <- get_state ex_cyc 0; Ok (st, s'))) /\
  (exists s', get_state_during 6 (mkRun ex_cyc [[assign 0 "inp" (sub 4)]]) 0 =
     (do st <- get_state (assign 0 "inp" (sub 4) ex_cyc) 0; Ok (st, s'))) /\
  get_state (assign 0 "inp" (sub 4) ex_cyc) 0 <> get_state ex_cyc 0.
Proof.
  split; [split; [exact I|intros x [= <-]; cbn; lia]|]. split; [eexists; vm_compute; reflexivity|]. split; [eexists; vm_compute; reflexivity|]. vm_compute. discriminate.
Qed.

(** with two assignments the snapshot may be a state that never existed *)
Theorem C100_never_refuted :
  ~ (forall (w : world) (acts : list (list (world -> world))) (r fuel : nat) (st : state) (s' : running),
     wf_world w -> r < List.length (w_heap w) -> only_values w acts -> dfs_fuel w <= fuel ->
     get_state_during fuel (mkRun w acts) r = Ok (st, s') -> exists n, get_state (moment w acts n) r = Ok st).
Proof.
  intros H. destruct C100_ex_run as (s' & E). destruct ex_cyc_ok as (W & _ & _ & V).
  destruct (H ex_cyc ex_two 0 6 _ s' W V ex_two_values (le_n _) E) as (n & G). destruct n as [|[|[|[|n]]]]; try (vm_compute in G; discriminate).
Qed.
Print Assumptions C100_never_refuted.

(** with one structural assignment between the definition and the state, [partition]
    returns a Pure that no module has: it does not merge *)
Theorem C100_structure_refuted :
  ~ (forall (w : world) (r fuel q : nat) (name : string) (v : attr) (acts : list (list (world -> world))) (p : pure) (s' : running),
     wf_world w -> r < List.length (w_heap w) -> names_ok w r -> dfs_fuel w <= fuel -> attr_ok w v -> List.concat acts = [assign q name v] ->
     partition_during fuel (mkRun w acts) r [] = Ok (p, s') -> exists m wb', merge w (p_def p) (sts_list (p_states p)) = Ok (m, wb')).
Proof.
  intros H. destruct ex_cyc_ok as (W & N & _ & V).
  assert (A : attr_ok ex_cyc (sub 4)) by (split; [exact I|intros x [= <-]; cbn; lia]).
  assert (E : exists p s', partition_during 6 (mkRun ex_cyc (repeat [] 10 ++ [[assign 0 "extra" (sub 4)]])) 0 [] = Ok (p, s') /\ match merge ex_cyc (p_def p) (sts_list (p_states p)) with Ok _ => false | Err _ => true end = true).
  { do 2 eexists. split; vm_compute; reflexivity. }
  destruct E as (p & s' & E & F). destruct (H ex_cyc 0 6 0 "extra" (sub 4) (repeat [] 10 ++ [[assign 0 "extra" (sub 4)]]) p s' W V N (le_n _) A eq_refl E) as (m & wb' & G). rewrite G in F. discriminate.
Qed.
Print Assumptions C100_structure_refuted.
