(** Arguments of differentiated functions. *)
From Coq Require Import ZArith Lia.
From Verif Require Import PyBase PyBaseFacts ValuesM Spec_Eq FiltersM StateM ModuleM ContextM TransformM JitArgsM GradArgsM Spec_State Spec_Module Spec_Prog Spec_JitArgs Spec_GradArgs.
From Verif Require Import Graph_facts Dfs_proofs Clone_proofs Laws_proofs State_proofs Bisim_proofs Transform_proofs JitArgs_proofs.
Local Open Scope string_scope.
Local Open Scope list_scope.

Lemma array_class c : leaf_ok (LVal (PyObj c 0)) = true <-> In "jax.Array" c \/ In "numpy.ndarray" c \/ In "numpy.generic" c \/ In "float" c \/ In "complex" c.
Proof. exact (leaf_ok_spec (LVal (PyObj c 0))). Qed.

Lemma kind_spec ai v : leaf_ok (LVal v) = true ->
  (leaf_kind ai (LVal v) = KReal <-> real_leaf ai v) /\ (leaf_kind ai (LVal v) = KComplex <-> complex_leaf ai v) /\
  (leaf_kind ai (LVal v) = KInteger <-> int_leaf ai v).
Proof.
  intros H. apply leaf_ok_spec in H.
  destruct v as [|b|z| | | |c i]; cbn [jax_leaf] in H; try contradiction; cbn [leaf_kind];
    [split; [split; intros K; [discriminate|inversion K]|split; split; intros K; try discriminate; try (now inversion K); constructor]..|].
  destruct (smem "float" c) eqn:F; [apply smem_In in F|apply smem_false in F; destruct (smem "complex" c) eqn:G; [apply smem_In in G|apply smem_false in G]].
  - split; [split; intros K; [now constructor|reflexivity]|split; split; intros K; try discriminate; inversion K; subst; contradiction].
  - split; [split; intros K; [discriminate|inversion K; subst; contradiction]|split; split; intros K; try discriminate; try (now constructor); inversion K; subst; contradiction || reflexivity].
  - assert (A : In "jax.Array" c \/ In "numpy.ndarray" c \/ In "numpy.generic" c) by tauto.
    split; [split; intros K; [now constructor|]|split; split; intros K; try (now constructor)]; inversion K; subst; try contradiction; assumption.
Qed.
Lemma kinds_ok ai v : real_leaf ai v \/ complex_leaf ai v \/ int_leaf ai v -> leaf_ok (LVal v) = true.
Proof. intros H. apply leaf_ok_spec. destruct H as [[]|[[]|[]]]; cbn; tauto. Qed.

Lemma diff_ok_spec h ii ai v : diff_ok h ii ai (LVal v) = true <-> may_differentiate h ii ai v.
Proof.
  unfold diff_ok, may_differentiate. split.
  - intros H. apply Bool.andb_true_iff in H as [O H]. destruct (kind_spec ai v O) as (A & B & C). destruct (leaf_kind ai (LVal v)).
    + apply Bool.andb_true_iff in H as [H1 H2]. apply Bool.negb_true_iff in H1. right. split; [exact H1|]. right. split; [exact H2|]. now apply C.
    + apply Bool.negb_true_iff in H. right. split; [exact H|]. left. now apply A.
    + left. now apply B.
  - intros H. assert (O : leaf_ok (LVal v) = true) by (apply (kinds_ok ai); tauto). destruct (kind_spec ai v O) as (A & B & C). rewrite O. cbn [andb].
    destruct H as [H|(-> & [H|(-> & H)])]; [apply B in H|apply A in H|apply C in H]; now rewrite H.
Qed.
Lemma loss_ok_spec h ai x : loss_ok h ai x = true <-> a_loss h ai x.
Proof.
  unfold a_loss. destruct x as [v| | | | | |]; cbn [loss_ok]; try (split; [discriminate|intros (v' & E & _); discriminate]). split.
  - intros H. apply Bool.andb_true_iff in H as [H K]. apply Bool.andb_true_iff in H as [O S1]. exists v. split; [reflexivity|].
    destruct (kind_spec ai v O) as (A & B & C). split.
    + destruct (leaf_kind ai (LVal v)); [discriminate|destruct h; [discriminate|now apply A]|subst h; now apply B].
    + intros c i ->. cbn [leaf_scalar] in S1. apply Bool.orb_true_iff in S1 as [S1|S1]; [|tauto]. apply Bool.orb_true_iff in S1 as [S1|S1]; apply smem_In in S1; tauto.
  - intros (v' & E & K & S1). injection E as <-. assert (O : leaf_ok (LVal v) = true) by (apply (kinds_ok ai); destruct h; tauto).
    destruct (kind_spec ai v O) as (A & B & C). rewrite O. cbn [andb]. apply Bool.andb_true_iff. split.
    + destruct v; try reflexivity. cbn [leaf_scalar]. destruct (S1 _ _ eq_refl) as [S2|[S2|S2]]; [apply smem_In in S2; rewrite S2; reflexivity|apply smem_In in S2; rewrite S2; now rewrite Bool.orb_true_r|rewrite S2; now rewrite Bool.orb_true_r].
    + destruct h; [apply B in K|apply A in K]; now rewrite K.
Qed.

Lemma wrt_ok_spec h ii ai w r wrt s : module_filter w r wrt [] = Ok (One s) -> NoDup (keys s) ->
  forallb (diff_ok h ii ai) (state_leaves s) = true <-> wrt_ok h ii ai w r wrt.
Proof.
  intros F N. rewrite forallb_forall. split.
  - intros H s' k a v F' D L. rewrite F in F'. injection F' as <-. apply diff_ok_spec. apply H. apply state_leaves_In; [exact N|]. exists k, a, v. auto.
  - intros H l Hl. apply state_leaves_In in Hl as (k & a & v & D & L & ->); [|exact N]. apply diff_ok_spec. eapply H; eauto.
Qed.

(** the result *)
Lemma unpack_pair st ai x a b : pair_of x a b -> unpack_arg st ai x = Ok (a, b).
Proof. intros []; reflexivity. Qed.
Lemma split_returns st ha h ai out aux : returns ha h ai out aux -> exists loss, split_out st ha ai out = Ok (loss, aux) /\ loss_ok h ai loss = true.
Proof.
  intros [-> H|loss au -> P H]; unfold split_out.
  - exists out. split; [reflexivity|now apply loss_ok_spec].
  - exists loss. rewrite (unpack_pair _ _ _ _ _ P). split; [reflexivity|now apply loss_ok_spec].
Qed.
Lemma unpack_inv st ai x a b : unpack_arg st ai x = Ok (a, b) -> pair_of x a b \/ exists s, a = GVal (PyStr s).
Proof.
  destruct x as [v|k|c|p|l|l|d]; cbn [unpack_arg].
  - destruct v as [|bb|z|s|l|m|c i]; cbn [unpack_arg]; try (destruct (st && _ && _); discriminate).
    + destruct st; [|discriminate]. destruct (list_ascii_of_string s) as [|c [|d [|e l]]]; try discriminate. intros [= <- <-]. right. eauto.
    + destruct l as [|x [|y [|z l]]]; try discriminate. intros [= <- <-]. left. constructor.
  - discriminate.
  - discriminate.
  - discriminate.
  - destruct l as [|x [|y [|z l]]]; try discriminate. intros [= <- <-]. left. constructor.
  - destruct l as [|x [|y [|z l]]]; try discriminate. intros [= <- <-]. left. constructor.
  - destruct d as [|[k x] [|[k' y] [|z l]]]; try discriminate. destruct st; [|discriminate]. intros [= <- <-]. right. eauto.
Qed.
Lemma unpack_err st ai x e : unpack_arg st ai x = Err e -> e = TypeError \/ e = ValueError \/ e = OutOfModel /\ big_array ai x.
Proof.
  destruct x as [v|k|c|p|l|l|d]; cbn [unpack_arg].
  - destruct v as [|bb|z|s|l|m|c i]; cbn [unpack_arg leaf_ok leaf_scalar];
      try (rewrite ?Bool.andb_false_r; intros [= <-]; tauto);
      try (rewrite ?Bool.andb_false_r; cbn; intros [= <-]; tauto).
    + destruct st; [|intros [= <-]; tauto]. destruct (list_ascii_of_string s) as [|c [|d [|e' l]]]; try discriminate; intros [= <-]; tauto.
    + destruct l as [|x [|y [|z l]]]; try discriminate; intros [= <-]; destruct st; tauto.
    + destruct (st && _ && negb _) eqn:E; intros [= <-]; [|tauto]. right; right. split; [reflexivity|]. exists c, i. split; [reflexivity|].
      apply Bool.andb_true_iff in E as [_ E]. apply Bool.negb_true_iff in E. apply Bool.orb_false_iff in E as [_ E]. exact E.
  - intros [= <-]; tauto.
  - intros [= <-]; tauto.
  - intros [= <-]; tauto.
  - destruct l as [|x [|y [|z l]]]; try discriminate; intros [= <-]; destruct st; tauto.
  - destruct l as [|x [|y [|z l]]]; try discriminate; intros [= <-]; destruct st; tauto.
  - destruct d as [|[k x] [|[k' y] [|z l]]]; destruct st; try discriminate; intros [= <-]; tauto.
Qed.
Lemma unpack_value st ai x : unpack_arg st ai x = Err ValueError -> st = true.
Proof.
  destruct st; [reflexivity|]. destruct x as [v|k|c|p|l|l|d]; cbn [unpack_arg]; try discriminate.
  - destruct v as [|bb|z|s|l|m|c i]; try discriminate. destruct l as [|x [|y [|z l]]]; discriminate.
  - destruct l as [|x [|y [|z l]]]; discriminate.
  - destruct l as [|x [|y [|z l]]]; discriminate.
  - destruct d as [|[k x] [|[k' y] [|z l]]]; discriminate.
Qed.
Lemma split_bad st ha h ai out : (ha = true -> ~ big_array ai out) -> ~ (exists aux, returns ha h ai out aux) ->
  (exists e, split_out st ha ai out = Err e /\ (e = TypeError \/ e = ValueError)) \/ exists loss aux, split_out st ha ai out = Ok (loss, aux) /\ loss_ok h ai loss = false.
Proof.
  intros B H. unfold split_out. destruct ha.
  - destruct (unpack_arg st ai out) as [[a b]|e] eqn:E; cbn.
    + right. exists a, (Some b). split; [reflexivity|]. destruct (loss_ok h ai a) eqn:L; [|reflexivity]. exfalso. apply H.
      apply unpack_inv in E as [P|(s & ->)]; [|discriminate]. exists (Some b). apply (ret_pair _ _ _ _ a); auto. now apply loss_ok_spec.
    + left. exists e. split; [reflexivity|]. apply unpack_err in E as [E|[E|[E K]]]; auto. now apply B in K.
  - right. exists out, None. split; [reflexivity|]. destruct (loss_ok h ai out) eqn:L; [|reflexivity]. exfalso. apply H. exists None. constructor; [reflexivity|now apply loss_ok_spec].
Qed.

Lemma unpack_items ai out n : items out n -> n <> 2 -> unpack_arg true ai out = Err ValueError.
Proof.
  intros I N. destruct I as [l|l|l|d|s].
  - destruct l as [|x [|y [|z l]]]; try reflexivity. now elim N.
  - destruct l as [|x [|y [|z l]]]; try reflexivity. now elim N.
  - destruct l as [|x [|y [|z l]]]; try reflexivity. now elim N.
  - destruct d as [|[k x] [|[k' y] [|z d]]]; try reflexivity. now elim N.
  - destruct s as [|x [|y [|z s]]]; try reflexivity. now elim N.
Qed.
Lemma split_items ai out n : items out n -> n <> 2 -> forall e, split_out true true ai out = Err e -> e = ValueError.
Proof. intros I N e. unfold split_out. rewrite (unpack_items ai out n I N). cbn. congruence. Qed.
Lemma split_items_ok ai out n : items out n -> n <> 2 -> forall la, split_out true true ai out = Ok la -> False.
Proof. intros I N e. unfold split_out. rewrite (unpack_items ai out n I N). cbn. congruence. Qed.

(** ** calls *)
Lemma filter_nodup w r wrt diff : wf_world w -> valid w r -> module_filter w r wrt [] = Ok (One diff) -> NoDup (keys diff).
Proof.
  intros W V F. destruct (get_state_total w r W V) as (s & S & Ws). unfold module_filter in F. rewrite S in F. cbn [rbind] in F.
  unfold state_filter in F. destruct (split_state s [wrt]) as [l|e] eqn:E; [|discriminate]. cbn [rbind] in F.
  destruct (removelast l) as [|x [|y l']]; cbn in F; try discriminate. injection F as <-. apply wf_NoDup, mk_state_wf.
Qed.

Section Through.
Variables (st ha h ii : bool) (ai : array_info) (wrt : filt) (t : trace_state) (g : string -> attr -> pyval) (f : list arg -> prog arg).
Variables (w : world) (r : nat) (args : list arg) (pred : predicate).
Hypothesis Hf : ok_prog (f args).
Hypothesis W : wf_world w.
Hypothesis V : valid w r.
Hypothesis N : names_ok w r.
Hypothesis L : live w r.
Hypothesis P : to_predicate wrt = Ok pred.
Hypothesis G : wrt_ok h ii ai w r wrt.
Let call := grad_args st ha h ii ai wrt t g (fun a => user_fun (f a)) w (ARaw (PyMod r)) args.

Lemma gthrough : exists diff m w2 wd res, module_filter w r wrt [] = Ok (One diff) /\ wf_world w2 /\ w_nodes w2 = w_nodes w /\
  user_fun (f args) w r = (wd, res) /\ wf_world wd /\ valid wd r /\
  all_unchanged w (set_trace w2 (w_trace w)) /\ get_state (set_trace w2 (w_trace w)) m = get_state wd r /\ valid w2 m /\
  call = match res with
         | Err e => (set_trace w2 (w_trace w), Err e)
         | Ok out =>
             match split_out st ha ai out with
             | Err e => (set_trace w2 (w_trace w), Err e)
             | Ok (loss, aux) =>
                 if negb (loss_ok h ai loss) then (set_trace w2 (w_trace w), Err TypeError)
                 else if st then let u := match get_state wd r with Ok u => u | Err _ => [] end in
                                 let (w3, res) := update_state (set_trace w2 (w_trace w)) r (UStates (One u)) in (w3, rmap (fun _ => (grad_tree g diff, aux)) res)
                      else (set_trace w2 (w_trace w), Ok (grad_tree g diff, aux))
             end
         end.
Proof.
  destruct (grad_parts w r wrt pred W V P) as (diff & nondiff & p & Hp & Es & Hfl).
  destruct (inner_run (f args) w r _ p t [diff; nondiff] Hf W V N L Hp) as (m & w1 & wd & w2 & res & Hm & E1 & E2 & W1 & W2 & V2 & Vd & N1 & N2 & Hun & Hst).
  { rewrite Es. reflexivity. }
  exists diff, m, w2, wd, res. repeat (split; [assumption|]). unfold call, grad_args. rewrite P, Hp, Es.
  assert (ND : NoDup (keys diff)) by exact (filter_nodup w r wrt diff W V Hfl).
  rewrite (proj2 (wrt_ok_spec h ii ai w r wrt diff Hfl ND) G). cbn [negb]. rewrite Hm, E2. destruct res as [out|e]; [|reflexivity].
  rewrite Hst. destruct (get_state_total wd r W1 Vd) as (u & U & _). rewrite U.
  destruct st; cbn [rmap rbind]; (destruct (split_out _ ha ai out) as [[loss aux]|e]; [|reflexivity]; destruct (negb (loss_ok h ai loss)); [reflexivity|]).
  - destruct (update_state _ r _) as [w3 [[]|e]]; reflexivity.
  - reflexivity.
Qed.
End Through.
