(** Threads_proofs: threads that do not copy each other's Contexts do not disturb each other. *)
From Coq Require Import Lia Permutation ZArith.
From Verif Require Import PyBase PyBaseFacts ModuleM ContextM Spec_Context Context_proofs ThreadsM Spec_Threads.
Local Open Scope string_scope.
Local Open Scope nat_scope.
Local Open Scope list_scope.

Definition agree (own : list nat) (t : nat) (a b : list stream) : Prop := forall i, nth_error own i = Some t -> nth_error a i = nth_error b i.
Definition owned (own : list nat) (t : nat) (items : list (string * nat)) : Prop := forall i, In i (map snd items) -> nth_error own i = Some t.

Lemma agree_set own t a b i s : agree own t a b -> agree own t (list_set i s a) (list_set i s b).
Proof.
  intros H j Hj. destruct (Nat.eq_dec i j) as [->|N]; [|rewrite !nth_list_set_other by congruence; now apply H].
  specialize (H j Hj). destruct (nth_error a j) eqn:E.
  - rewrite !nth_list_set_same; [reflexivity| |]; apply nth_error_Some; congruence.
  - transitivity (@None stream); [|symmetry]; apply nth_error_None; rewrite list_set_length; apply nth_error_None; congruence.
Qed.
Lemma fork_agree own t items : forall a b fs a1, owned own t items -> agree own t a b ->
  fork_all items a = (Ok fs, a1) -> exists b1, fork_all items b = (Ok fs, b1) /\ agree own t a1 b1.
Proof.
  induction items as [|[n i] l IH]; intros a b fs a1 O A H; cbn in *; [injection H as <- <-; eauto|].
  rewrite <- (A i (O i (or_introl eq_refl))). destruct (nth_error a i) as [s|]; [|discriminate].
  destruct (fork_all l (list_set i (bump s) a)) as [[fs1|e] a2] eqn:E; [|discriminate]. cbn in H. injection H as <- <-.
  destruct (IH _ (list_set i (bump s) b) fs1 a2 (fun j Hj => O j (or_intror Hj)) (agree_set _ _ _ _ i (bump s) A) E) as (b1 & -> & B).
  cbn. eauto.
Qed.
Lemma fork_frame own t items : forall a r a1 j, owned own t items -> fork_all items a = (r, a1) -> nth_error own j <> Some t -> nth_error a1 j = nth_error a j.
Proof.
  induction items as [|[n i] l IH]; intros a r a1 j O H Hj; cbn in *; [now injection H as _ <-|].
  destruct (nth_error a i) as [s|]; [|now injection H as _ <-].
  destruct (fork_all l (list_set i (bump s) a)) as [r1 a2] eqn:E. injection H as _ <-.
  rewrite (IH _ _ _ j (fun j Hj => O j (or_intror Hj)) E Hj). apply nth_list_set_other. intros ->. apply Hj. apply O. now left.
Qed.
Lemma fork_snoc items : forall a fs a1 n i s, fork_all items a = (Ok fs, a1) -> nth_error a1 i = Some s ->
  fork_all (items ++ [(n, i)]) a = (Ok (fs ++ [(n, mkStream (s_key s) 0 (s_path s ++ [s_count s]))]), list_set i (bump s) a1).
Proof.
  induction items as [|[m j] l IH]; intros a fs a1 n i s H Hi; cbn in *.
  - injection H as <- <-. rewrite Hi. reflexivity.
  - destruct (nth_error a j) as [s'|]; [|discriminate]. destruct (fork_all l (list_set j (bump s') a)) as [[fs1|e] a2] eqn:E; [|discriminate]. cbn in H. injection H as <- <-.
    rewrite (IH _ _ _ n i s E Hi). reflexivity.
Qed.

Lemma crun_app b w x y : crun b w (x ++ y) = (fst (crun b (fst (crun b w x)) y), snd (crun b w x) ++ snd (crun b (fst (crun b w x)) y)).
Proof.
  revert w. induction x as [|o x IH]; intros w; [cbn; now destruct (crun b w y)|]. cbn [app]. rewrite !crun_cons, IH. reflexivity.
Qed.

(** ** calls that only make objects *)
Definition maker (o : cop) : Prop := match o with ONew _ _ _ => passed_streams [o] = [] | OCopy _ | OMerge _ | OTrace _ => True | _ => False end.

Lemma make_two l : flat_map (fun na => arg_streams (snd na)) l = [] -> forall a b, List.length a = List.length b ->
  exists ns new, make_streams l a = (ns, a ++ new) /\ make_streams l b = (ns, b ++ new).
Proof.
  induction l as [|[n x] l IH]; intros H a b L; cbn in *; [exists [], []; now rewrite !app_nil_r|].
  destruct x as [z|k|i]; cbn in H; [| |discriminate].
  1: destruct (IH H (a ++ [mkStream (KSeed z) 0 []]) (b ++ [mkStream (KSeed z) 0 []])) as (ns & new & E1 & E2); [now rewrite !app_length, L|].
  2: destruct (IH H (a ++ [mkStream k 0 []]) (b ++ [mkStream k 0 []])) as (ns & new & E1 & E2); [now rewrite !app_length, L|].
  all: rewrite E1, E2, L; eexists _, (_ :: new); rewrite <- !app_assoc; cbn [app]; split; reflexivity.
Qed.
Lemma merge_two ks l : forall a b, List.length a = List.length b ->
  (exists ns new, merge_streams ks l a = Ok (ns, a ++ new) /\ merge_streams ks l b = Ok (ns, b ++ new)) \/
  (exists e, merge_streams ks l a = Err e /\ merge_streams ks l b = Err e).
Proof.
  induction l as [|[n p] l IH]; intros a b L; cbn; [left; exists [], []; now rewrite !app_nil_r|].
  destruct (dget n ks) as [k|]; [|right; eauto].
  destruct (IH (a ++ [mkStream k 0 p]) (b ++ [mkStream k 0 p])) as [(ns & new & E1 & E2)|(e & E1 & E2)]; [now rewrite !app_length, L| |].
  - left. rewrite E1, E2, L. cbn. eexists _, (_ :: new). rewrite <- !app_assoc. cbn [app]. split; reflexivity.
  - right. rewrite E1, E2. cbn. eauto.
Qed.

(** the new context, if there is one: fresh streams or those of an old one *)
Definition fresh_or_copy (w : cworld) (n : nat) (o : cop) (cs : list context) : Prop :=
  forall x, In x cs -> x_trace x = cw_trace w /\
    ((forall i, In i (ctx_streams x) -> List.length (cw_streams w) <= i < List.length (cw_streams w) + n) \/
     exists c y, o = OCopy c /\ nth_error (cw_ctxs w) c = Some y /\ x_rngs x = x_rngs y).
Lemma dict_of_streams (ns : list (string * nat)) i : In i (map snd (dict_of ns)) -> In i (map snd ns).
Proof. intros H. apply in_map_iff in H as (kv & <- & H). apply in_map. now apply dict_of_incl. Qed.
Lemma maker_two b ss1 ss2 ctxs pures tr o : maker o -> List.length ss1 = List.length ss2 ->
  exists new cs tr' out, crun1 b (mkCW ss1 ctxs pures tr) o = (mkCW (ss1 ++ new) (ctxs ++ cs) pures tr', out) /\
    crun1 b (mkCW ss2 ctxs pures tr) o = (mkCW (ss2 ++ new) (ctxs ++ cs) pures tr', out) /\
    fresh_or_copy (mkCW ss1 ctxs pures tr) (List.length new) o cs.
Proof.
  intros M L. destruct o as [p fl rs|c n|c|c|i|t']; cbn [maker] in M; try contradiction; cbn [crun1 cw_streams cw_ctxs cw_pures cw_trace].
  - rewrite L. destruct (args_exist _ _).
    + unfold new_context. change (match p with Some q => dset "params" q rs | None => rs end) with (call_args p rs).
      cbn [passed_streams flat_map] in M. rewrite app_nil_r in M.
      destruct (make_two _ M ss1 ss2 L) as (ns & new & E1 & E2). rewrite E1, E2.
      exists new, [mkCtx (dict_of ns) fl tr], tr, OutDone. unfold add_ctx, set_streams. cbn. split; [reflexivity|]. split; [reflexivity|].
      intros x [<-|[]]. split; [reflexivity|]. left. cbn. intros i Hi. apply dict_of_streams in Hi.
      destruct (make_streams_len _ _ _ _ E1) as (_ & _ & B). destruct (B i Hi) as [G|G]; [rewrite app_length in G; lia|]. rewrite M in G. destruct G.
    + exists [], [], tr, (OutErr OutOfModel). rewrite !app_nil_r. repeat split. all: contradiction.
  - destruct (nth_error ctxs c) as [x|] eqn:E.
    + exists [], [context_copy tr x], tr, OutDone. rewrite !app_nil_r. unfold add_ctx. cbn. split; [reflexivity|]. split; [reflexivity|].
      intros y [<-|[]]. split; [reflexivity|]. right. exists c, x. auto.
    + exists [], [], tr, (OutErr OutOfModel). rewrite !app_nil_r. repeat split. all: contradiction.
  - destruct (nth_error pures i) as [p|].
    + unfold pctx_merge. destruct (merge_two (pc_keys p) (pc_counts p) ss1 ss2 L) as [(ns & new & E1 & E2)|(e & E1 & E2)]; rewrite E1, E2; cbn.
      * exists new, [mkCtx (dict_of ns) (pc_flags p) tr], tr, OutDone. unfold add_ctx, set_streams. cbn. split; [reflexivity|]. split; [reflexivity|].
        intros x [<-|[]]. split; [reflexivity|]. left. cbn. intros j Hj. apply dict_of_streams in Hj.
        destruct (merge_streams_spec _ _ _ _ _ E1) as (nw & En & _ & B & _). apply B in Hj. rewrite app_length in Hj. lia.
      * exists [], [], tr, (OutErr e). rewrite !app_nil_r. repeat split. all: contradiction.
    + exists [], [], tr, (OutErr OutOfModel). rewrite !app_nil_r. repeat split. all: contradiction.
  - exists [], [], t', OutDone. rewrite !app_nil_r. repeat split. all: contradiction.
Qed.

(** ** the invariant *)
Section Run.
Variable blake : string -> nat.
Definition seq_world (s : tstate) : cworld := fst (crun blake (cstart (0, 0)) (one_by_one (ts_ret s))).

Definition drawing (ctxs : list context) (C : list stream) (t : nat) (th : tthread) (i c1 : nat) : Prop :=
  exists c name rest x st, tt_todo th = ODraw c name :: rest /\ nth_error ctxs c = Some x /\ dget name (x_rngs x) = Some i /\
    trace_ok (t, tt_level th) (x_trace x) = true /\ nth_error C i = Some st /\ s_count st = c1.
Definition forking (own : list nat) (ctxs : list context) (SA C : list stream) (t : nat) (th : tthread) (x : context)
    (done : list (string * stream)) (todo : list (string * nat)) : Prop :=
  exists c rest pre ss1, tt_todo th = OPart c :: rest /\ nth_error ctxs c = Some x /\ trace_ok (t, tt_level th) (x_trace x) = true /\
    x_rngs x = pre ++ todo /\ fork_all pre SA = (Ok done, ss1) /\ agree own t C ss1.
Definition thread_ok (own : list nat) (ctxs : list context) (SA C : list stream) (t : nat) (th : tthread) : Prop :=
  match tt_pc th with
  | TIdle => agree own t C SA
  | TDraw1 i c1 => agree own t C SA /\ drawing ctxs C t th i c1
  | TDraw2 i c1 v => agree own t C SA /\ drawing ctxs C t th i c1 /\ v = c1
  | TForks x done todo => forking own ctxs SA C t th x done todo
  | TFork1 x done n i c1 todo => forking own ctxs SA C t th x done ((n, i) :: todo) /\ exists st, nth_error C i = Some st /\ s_count st = c1
  | TFork2 x done n i c1 v todo => forking own ctxs SA C t th x done ((n, i) :: todo) /\ (exists st, nth_error C i = Some st /\ s_count st = c1) /\ v = c1
  end.
Definition ctx_owned (own : list nat) (ctxs : list context) : Prop :=
  forall c x, nth_error ctxs c = Some x -> owned own (fst (x_trace x)) (x_rngs x).
Record inv (own : list nat) (s : tstate) : Prop := {
  in_ctxs : cw_ctxs (seq_world s) = ts_ctxs s;
  in_pures : cw_pures (seq_world s) = ts_pures s;
  in_len : List.length (ts_streams s) = List.length (cw_streams (seq_world s));
  in_own : List.length own = List.length (ts_streams s);
  in_ctx : ctx_owned own (ts_ctxs s);
  in_thr : forall t th, nth_error (ts_threads s) t = Some th -> thread_ok own (ts_ctxs s) (cw_streams (seq_world s)) (ts_streams s) t th;
  in_real : forall i t, nth_error own i = Some t -> t < List.length (ts_threads s);
  in_outs : snd (crun blake (cstart (0, 0)) (one_by_one (ts_ret s))) = results (ts_ret s);
  in_todo : forall t th, nth_error (ts_threads s) t = Some th -> passed_streams (tt_todo th) = []
}.

Lemma trace_fst t l x : trace_ok (t, l) (x_trace x) = true -> fst (x_trace x) = t.
Proof. intros H. apply trace_ok_iff in H. now rewrite <- H. Qed.
Lemma nth_app_some {A} (l l' : list A) i x : nth_error l i = Some x -> nth_error (l ++ l') i = Some x.
Proof. intros H. rewrite nth_error_app1; [exact H|]. apply nth_error_Some. now rewrite H. Qed.

(** another thread moved *)
Lemma agree_sym own t a b : agree own t a b -> agree own t b a.
Proof. intros H i Hi. symmetry. now apply H. Qed.
Lemma agree_trans own t a b c : agree own t a b -> agree own t b c -> agree own t a c.
Proof. intros H K i Hi. now rewrite (H i Hi), (K i Hi). Qed.
Lemma owned_app own t a b : owned own t (a ++ b) -> owned own t a /\ owned own t b.
Proof. intros H. split; intros i Hi; apply H; rewrite map_app; apply in_or_app; auto. Qed.
Lemma other_ok own own' ctxs cs SA SA' C C' t th : ctx_owned own ctxs ->
  thread_ok own ctxs SA C t th ->
  (forall i, nth_error own' i = Some t -> nth_error own i = Some t) ->
  agree own t C C' -> agree own t SA SA' -> thread_ok own' (ctxs ++ cs) SA' C' t th.
Proof.
  intros CO K W AC AS.
  assert (G : agree own t C SA -> agree own' t C' SA').
  { intros H i Hi. apply W in Hi. now rewrite <- (AC i Hi), <- (AS i Hi), (H i Hi). }
  assert (D : forall i c1, drawing ctxs C t th i c1 -> drawing (ctxs ++ cs) C' t th i c1).
  { intros i c1 (c & name & rest & x & st & H1 & H2 & H3 & H4 & H5 & H6). exists c, name, rest, x, st.
    repeat split; auto using nth_app_some. rewrite <- (AC i); [exact H5|].
    rewrite <- (trace_fst _ _ _ H4). apply (CO c x H2). apply dget_In in H3. now apply (in_map snd) in H3. }
  assert (F : forall x done todo, forking own ctxs SA C t th x done todo -> forking own' (ctxs ++ cs) SA' C' t th x done todo /\ owned own t todo).
  { intros x done todo (c & rest & pre & ss1 & H1 & H2 & H3 & H4 & H5 & H6).
    pose proof (CO c x H2) as O. rewrite (trace_fst _ _ _ H3), H4 in O. apply owned_app in O as [O1 O2]. split; [|exact O2].
    destruct (fork_agree own t pre SA SA' done ss1 O1 AS H5) as (ss2 & E & A2).
    exists c, rest, pre, ss2. repeat split; auto using nth_app_some.
    intros i Hi. apply W in Hi. now rewrite <- (AC i Hi), (H6 i Hi), (A2 i Hi). }
  unfold thread_ok in *. destruct (tt_pc th) as [|i c1|i c1 v|x done todo|x done n i c1 todo|x done n i c1 v todo].
  - auto.
  - destruct K as [K1 K2]. auto.
  - destruct K as (K1 & K2 & K3). auto.
  - now apply F.
  - destruct K as (K1 & st & K2 & K3). destruct (F _ _ _ K1) as [K O]. split; [exact K|]. exists st. split; [|exact K3]. rewrite <- (AC i); [exact K2|]. apply O. now left.
  - destruct K as (K1 & (st & K2 & K3) & K4). destruct (F _ _ _ K1) as [K O]. split; [exact K|]. split; [|exact K4]. exists st. split; [|exact K3]. rewrite <- (AC i); [exact K2|]. apply O. now left.
Qed.

Lemma nth_set_cases {A} n m (x y : A) l : nth_error (list_set n x l) m = Some y -> (n = m /\ y = x) \/ (n <> m /\ nth_error l m = Some y).
Proof. rewrite nth_list_set. destruct (Nat.eqb_spec n m) as [->|N]; [|auto]. destruct (Nat.ltb _ _); [|discriminate]. intros [= <-]. auto. Qed.

Lemma inv_set own s t th th' C' : inv own s -> nth_error (ts_threads s) t = Some th -> tt_todo th' = tt_todo th ->
  List.length C' = List.length (ts_streams s) -> (forall i, nth_error own i <> Some t -> nth_error C' i = nth_error (ts_streams s) i) ->
  thread_ok own (ts_ctxs s) (cw_streams (seq_world s)) C' t th' -> inv own (set_tt (set_ss s C') t th').
Proof.
  intros [I1 I2 I3 I4 I5 I6 I7 I8 I9] T E L Fr K. constructor; cbn [ts_streams ts_ctxs ts_pures ts_threads ts_ret set_tt set_ss]; auto.
  - change (seq_world (set_tt (set_ss s C') t th')) with (seq_world s). congruence.
  - congruence.
  - change (seq_world (set_tt (set_ss s C') t th')) with (seq_world s). intros u th1 H. apply nth_set_cases in H as [[<- ->]|[N H]]; [exact K|].
    rewrite <- (app_nil_r (ts_ctxs s)). eapply other_ok; eauto.
    + intros i Hi. symmetry. apply Fr. congruence.
    + intros i Hi. reflexivity.
  - intros i u H. rewrite list_set_length. eauto.
  - intros u th1 H. apply nth_set_cases in H as [[<- ->]|[N H]]; [|eauto]. rewrite E. eauto.
Qed.

Lemma inv_ret own k s t th op0 rest op out SA' C' cs pures' tr' lvl' : inv own s -> nth_error (ts_threads s) t = Some th -> tt_todo th = op0 :: rest ->
  crun1 blake (mkCW (cw_streams (seq_world s)) (ts_ctxs s) (ts_pures s) (t, tt_level th)) op = (mkCW SA' (ts_ctxs s ++ cs) pures' tr', out) ->
  List.length C' = List.length SA' -> List.length C' = List.length own + k ->
  (forall i, i < List.length own -> nth_error own i <> Some t -> nth_error C' i = nth_error (ts_streams s) i /\ nth_error SA' i = nth_error (cw_streams (seq_world s)) i) ->
  agree (own ++ repeat t k) t C' SA' -> ctx_owned (own ++ repeat t k) (ts_ctxs s ++ cs) ->
  inv (own ++ repeat t k) (mkTS C' (ts_ctxs s ++ cs) pures' (list_set t (mkTT lvl' TIdle rest) (ts_threads s)) (ts_ret s ++ [mkCall t (tt_level th) op out])).
Proof.
  intros [I1 I2 I3 I4 I5 I6 I7 I8 I9] T E R L1 L2 Fr A CO.
  assert (W : crun blake (cstart (0, 0)) (one_by_one (ts_ret s ++ [mkCall t (tt_level th) op out])) =
              (mkCW SA' (ts_ctxs s ++ cs) pures' tr', results (ts_ret s ++ [mkCall t (tt_level th) op out]))).
  { unfold one_by_one, results. rewrite !flat_map_app. fold (one_by_one (ts_ret s)). fold (results (ts_ret s)). rewrite crun_app, I8.
    fold (seq_world s). cbn [flat_map app tc_thread tc_level tc_op tc_out]. rewrite !crun_cons. cbn [crun1 fst snd crun]. rewrite I1, I2, R. reflexivity. }
  set (s' := mkTS _ _ _ _ _). assert (W' : seq_world s' = mkCW SA' (ts_ctxs s ++ cs) pures' tr') by (unfold seq_world, s'; cbn [ts_ret]; now rewrite W).
  constructor; rewrite ?W'; cbn [cw_streams cw_ctxs cw_pures]; unfold s'; cbn [ts_streams ts_ctxs ts_pures ts_threads ts_ret]; auto.
  - rewrite app_length, repeat_length. congruence.
  - intros u th1 H. apply nth_set_cases in H as [[<- ->]|[N H]]; [exact A|].
    assert (O : forall i, nth_error (own ++ repeat t k) i = Some u -> nth_error own i = Some u).
    { intros i Hi. destruct (Nat.ltb_spec i (List.length own)) as [G|G]; [now rewrite nth_error_app1 in Hi|].
      rewrite nth_error_app2 in Hi by lia. apply nth_error_In, repeat_spec in Hi. congruence. }
    eapply other_ok; eauto; intros i Hi; symmetry; apply Fr; (congruence || (apply nth_error_Some; congruence)).
  - intros i u H. rewrite list_set_length. apply nth_error_In, in_app_or in H as [H|H].
    + apply In_nth_error in H as [j H]. eauto.
    + apply repeat_spec in H as ->. apply nth_error_Some. congruence.
  - now rewrite W.
  - intros u th1 H. apply nth_set_cases in H as [[<- ->]|[N H]]; [|eauto]. cbn. pose proof (I9 _ _ T) as P. rewrite E in P. cbn in P.
    now apply app_eq_nil in P.
Qed.

(** ** one step *)
Lemma inv_quiet own s t th op rest out : inv own s -> nth_error (ts_threads s) t = Some th -> tt_todo th = op :: rest ->
  (forall tr, op <> OTrace tr) -> agree own t (ts_streams s) (cw_streams (seq_world s)) ->
  crun1 blake (mkCW (cw_streams (seq_world s)) (ts_ctxs s) (ts_pures s) (t, tt_level th)) op =
    (mkCW (cw_streams (seq_world s)) (ts_ctxs s) (ts_pures s) (t, tt_level th), out) ->
  inv own (returns s t th op out).
Proof.
  intros I T E N A R. unfold returns. rewrite E. cbn [tl].
  replace (match op with OTrace tr => snd tr | _ => tt_level th end) with (tt_level th) by (destruct op; try reflexivity; exfalso; eapply N; reflexivity).
  rewrite <- (app_nil_r (ts_ctxs s)). rewrite <- (app_nil_r own). change (@nil nat) with (repeat t 0).
  eapply inv_ret with (op0 := op) (SA' := cw_streams (seq_world s)); eauto using in_len.
  - rewrite app_nil_r. exact R.
  - rewrite Nat.add_0_r. symmetry. now apply in_own.
  - cbn. rewrite app_nil_r. exact A.
  - cbn. rewrite !app_nil_r. now apply (in_ctx _ _ I).
Qed.
Lemma inv_make own s t th op0 op rest : inv own s -> nth_error (ts_threads s) t = Some th -> tt_pc th = TIdle -> tt_todo th = op0 :: rest ->
  maker op -> (forall c x, op = OCopy c -> nth_error (ts_ctxs s) c = Some x -> fst (x_trace x) = t) ->
  (forall tr, op = OTrace tr -> fst tr = t) ->
  exists own', inv own' (at_once blake s t th op).
Proof.
  intros I T PC E M NC NT. unfold at_once, view.
  destruct (maker_two blake (ts_streams s) (cw_streams (seq_world s)) (ts_ctxs s) (ts_pures s) (t, tt_level th) op M (in_len _ _ I)) as (new & cs & tr' & out & E1 & E2 & F).
  rewrite E1. unfold returns. cbn [cw_streams cw_ctxs cw_pures ts_streams ts_ctxs ts_pures ts_threads ts_ret]. rewrite E. cbn [tl].
  exists (own ++ repeat t (List.length new)).
  pose proof (in_own _ _ I) as LO. pose proof (in_len _ _ I) as LL.
  assert (A : agree own t (ts_streams s) (cw_streams (seq_world s))) by (pose proof (in_thr _ _ I _ _ T) as K; unfold thread_ok in K; now rewrite PC in K).
  eapply inv_ret with (op0 := op0); eauto.
  - rewrite !app_length. congruence.
  - rewrite app_length. congruence.
  - intros i Hi _. split; apply nth_error_app1; congruence.
  - intros i Hi. destruct (Nat.ltb_spec i (List.length own)) as [G|G].
    + rewrite nth_error_app1 in Hi by lia. rewrite !nth_error_app1 by congruence. now apply A.
    + rewrite !nth_error_app2 by congruence. now rewrite LL.
  - intros c x H. destruct (Nat.ltb_spec c (List.length (ts_ctxs s))) as [G|G].
    + rewrite nth_error_app1 in H by lia. intros i Hi. apply nth_app_some. now apply (in_ctx _ _ I c x).
    + rewrite nth_error_app2 in H by lia. apply nth_error_In in H. destruct (F x H) as [Ft [Fs|(c0 & y & -> & Hy & Er)]]; cbn in Ft; rewrite Ft; cbn [fst].
      * intros i Hi. apply Fs in Hi. cbn in Hi. rewrite nth_error_app2 by lia. apply nth_error_repeat. lia.
      * cbn in Hy. intros i Hi. rewrite Er in Hi. apply nth_app_some. rewrite <- (NC c0 y eq_refl Hy). now apply (in_ctx _ _ I c0 y Hy).
Qed.

Lemma inv_step own s t : inv own s -> ~ copies_foreign s t -> exists own', inv own' (tstep blake s t).
Proof.
  intros I NC. unfold tstep. destruct (nth_error (ts_threads s) t) as [th|] eqn:T; [|eauto].
  destruct (tt_todo th) as [|op rest] eqn:E; [eauto|].
  pose proof (in_thr _ _ I _ _ T) as K. unfold thread_ok in K.
  pose proof (in_own _ _ I) as LO. pose proof (in_len _ _ I) as LL.
  assert (EX : forall c x i, nth_error (ts_ctxs s) c = Some x -> trace_ok (t, tt_level th) (x_trace x) = true -> In i (map snd (x_rngs x)) ->
            nth_error own i = Some t /\ i < List.length (ts_streams s)).
  { intros c x i H1 H2 H3. pose proof (in_ctx _ _ I c x H1 i H3) as O. rewrite (trace_fst _ _ _ H2) in O. split; [exact O|].
    rewrite <- LO. apply nth_error_Some. congruence. }
  assert (GO : forall pc, thread_ok own (ts_ctxs s) (cw_streams (seq_world s)) (ts_streams s) t (mkTT (tt_level th) pc (tt_todo th)) ->
            exists own', inv own' (set_tt s t (mkTT (tt_level th) pc (tt_todo th)))).
  { intros pc H. exists own. change (set_tt s t (mkTT (tt_level th) pc (tt_todo th))) with (set_tt (set_ss s (ts_streams s)) t (mkTT (tt_level th) pc (tt_todo th))). eapply inv_set; eauto. }
  assert (DR : forall i c1, tt_pc th = tt_pc th -> drawing (ts_ctxs s) (ts_streams s) t th i c1 -> nth_error own i = Some t).
  { intros i c1 _ (c & name & r & x & st & H1 & H2 & H3 & H4 & H5 & H6). eapply EX; eauto. apply dget_In in H3. now apply (in_map snd) in H3. }
  unfold tstep_op. destruct (tt_pc th) as [|i c1|i c1 v|x done todo|x done n i c1 todo|x done n i c1 v todo] eqn:PC.
  - (* idle *)
    assert (P : passed_streams [op] = []). { pose proof (in_todo _ _ I _ _ T) as P. rewrite E in P. cbn in P. apply app_eq_nil in P as [P _]. cbn. now rewrite app_nil_r. }
    assert (Q : forall out, (forall tr, op <> OTrace tr) -> crun1 blake (mkCW (cw_streams (seq_world s)) (ts_ctxs s) (ts_pures s) (t, tt_level th)) op =
       (mkCW (cw_streams (seq_world s)) (ts_ctxs s) (ts_pures s) (t, tt_level th), out) -> exists own', inv own' (returns s t th op out)).
    { intros out H1 H2. exists own. eapply inv_quiet; eauto. }
    destruct op as [p fl rs|c name|c|c|j|tr].
    + eapply inv_make; eauto; congruence.
    + cbn [crun1 cw_ctxs cw_streams cw_trace] in Q. unfold make_rng in Q. destruct (nth_error (ts_ctxs s) c) as [x|] eqn:X1; [|apply Q; [congruence|reflexivity]].
      destruct (dget name (x_rngs x)) as [i|] eqn:X2; [|apply Q; [congruence|reflexivity]].
      destruct (trace_ok (t, tt_level th) (x_trace x)) eqn:X3; cbn [negb] in *; [|apply Q; [congruence|reflexivity]].
      destruct (EX c x i X1 X3) as [O LI]; [apply dget_In in X2; now apply (in_map snd) in X2|].
      destruct (nth_error (ts_streams s) i) as [st|] eqn:X4; [|apply nth_error_None in X4; lia].
      apply GO. split; [exact K|]. exists c, name, rest, x, st. auto 10.
    + eapply inv_make; eauto; [exact Logic.I| |congruence]. intros c' x [= <-] Hx.
      destruct (Nat.eq_dec (fst (x_trace x)) t) as [G|G]; [exact G|]. exfalso. apply NC. exists th, c, rest, x. auto 10.
    + cbn [crun1 cw_ctxs cw_streams cw_trace] in Q. unfold context_partition in Q. destruct (nth_error (ts_ctxs s) c) as [x|] eqn:X1; [|apply Q; [congruence|reflexivity]].
      destruct (trace_ok (t, tt_level th) (x_trace x)) eqn:X3; cbn [negb] in *; [|apply Q; [congruence|reflexivity]].
      apply GO. cbn. exists c, rest, [], (cw_streams (seq_world s)). auto 10.
    + eapply inv_make; eauto; try exact Logic.I; congruence.
    + eapply inv_make; eauto; try exact Logic.I; try congruence. intros tr' [= <-]. reflexivity.
  - (* draw: second load *)
    destruct K as [K1 K2]. destruct (nth_error (ts_streams s) i) as [st|] eqn:X4.
    + apply GO. split; [exact K1|]. destruct K2 as (c & name & r & x & st' & H1 & H2 & H3 & H4 & H5 & H6). rewrite X4 in H5. injection H5 as <-.
      split; [|exact H6]. exists c, name, r, x, st. auto 10.
    + destruct K2 as (c & name & r & x & st' & H1 & H2 & H3 & H4 & H5 & H6). congruence.
  - (* draw: store *)
    destruct K as (K1 & K2 & ->). pose proof (DR _ _ eq_refl K2) as O. destruct K2 as (c & name & r & x & st & H1 & H2 & H3 & H4 & H5 & <-).
    rewrite E in H1. injection H1 as -> ->. rewrite H5. change (mkStream (s_key st) (S (s_count st)) (s_path st)) with (bump st).
    exists (own ++ repeat t 0). unfold returns, set_ss. cbn [ts_streams ts_ctxs ts_pures ts_threads ts_ret]. rewrite E. cbn [tl].
    pose proof (inv_ret own 0 s t th (ODraw c name) r (ODraw c name) (OutKey (KFold (s_key st) (stable_hash blake (s_path st ++ [s_count st]))))
      (list_set i (bump st) (cw_streams (seq_world s))) (list_set i (bump st) (ts_streams s)) [] (ts_pures s) (t, tt_level th) (tt_level th)) as R.
    rewrite app_nil_r in R. apply R; auto; clear R.
    + cbn [crun1 cw_ctxs cw_streams cw_trace]. unfold make_rng. rewrite H2, H3, H4. cbn [negb]. rewrite <- (K1 i O), H5. reflexivity.
    + now rewrite !list_set_length.
    + rewrite list_set_length. lia.
    + intros j _ Hj. split; apply nth_list_set_other; congruence.
    + rewrite app_nil_r. now apply agree_set.
    + rewrite app_nil_r. apply (in_ctx _ _ I).
  - (* forks *)
    destruct K as (c & r & pre & ss1 & H1 & H2 & H3 & H4 & H5 & H6).
    assert (OP : owned own t (pre ++ todo)). { intros j Hj. rewrite <- H4 in Hj. now apply (EX c x j). }
    destruct todo as [|[n i] todo].
    + rewrite E in H1. injection H1 as -> ->. rewrite app_nil_r in H4. subst pre.
      exists (own ++ repeat t 0). unfold returns. cbn [ts_streams ts_ctxs ts_pures ts_threads ts_ret]. rewrite E. cbn [tl].
      pose proof (inv_ret own 0 s t th (OPart c) r (OPart c) OutDone ss1 (ts_streams s) []
        (ts_pures s ++ [mkPctx (dict_of (map (fun ns => (fst ns, s_key (snd ns))) done)) (map (fun ns => (fst ns, s_path (snd ns))) done) (x_flags x)])
        (t, tt_level th) (tt_level th)) as R.
      rewrite app_nil_r in R. apply R; auto; clear R.
      * cbn [crun1 cw_ctxs cw_streams cw_trace]. unfold context_partition. rewrite H2, H3. cbn [negb]. rewrite H5. reflexivity.
      * now rewrite (fork_all_len _ _ _ _ H5).
      * lia.
      * intros j _ Hj. split; [reflexivity|]. rewrite app_nil_r in OP. eapply fork_frame; eauto.
      * now rewrite app_nil_r.
      * rewrite app_nil_r. apply (in_ctx _ _ I).
    + destruct (nth_error (ts_streams s) i) as [st|] eqn:X4.
      * apply GO. cbn. split; [|eauto]. exists c, r, pre, ss1. repeat split; auto.
      * destruct (EX c x i H2 H3) as [_ G]; [rewrite H4, map_app; apply in_or_app; right; now left|]. apply nth_error_None in X4. lia.
  - (* fork: second load *)
    destruct K as (K1 & st & K2 & K3). rewrite K2. apply GO. cbn. split; [exact K1|]. split; eauto.
  - (* fork: store *)
    destruct K as ((c & r & pre & ss1 & H1 & H2 & H3 & H4 & H5 & H6) & (st & K2 & <-) & ->). rewrite K2.
    change (mkStream (s_key st) (S (s_count st)) (s_path st)) with (bump st).
    destruct (EX c x i H2 H3) as [O G]; [rewrite H4, map_app; apply in_or_app; right; now left|].
    exists own. eapply inv_set; eauto.
    + now rewrite list_set_length.
    + intros j Hj. apply nth_list_set_other. congruence.
    + cbn. exists c, r, (pre ++ [(n, i)]), (list_set i (bump st) ss1). repeat split; auto.
      * now rewrite <- app_assoc.
      * apply fork_snoc; [exact H5|]. now rewrite <- (H6 i O).
      * now apply agree_set.
Qed.
Lemma inv_run sched : forall own s, inv own s -> no_foreign_copies blake s sched -> exists own', inv own' (trun blake s sched).
Proof.
  induction sched as [|t l IH]; intros own s I N; cbn; [eauto|]. destruct N as [N1 N2]. destruct (inv_step own s t I N1) as [own' I']. now apply (IH own').
Qed.
Lemma inv_start progs : no_streams progs -> inv [] (tstart progs).
Proof.
  intros N. constructor; cbn; auto.
  - intros c x H. destruct c; discriminate.
  - intros t th H. apply nth_error_In, in_map_iff in H as (p & <- & _). cbn. intros i Hi. destruct i; discriminate.
  - intros i t H. destruct i; discriminate.
  - intros t th H. apply nth_error_In, in_map_iff in H as (p & <- & Hp). cbn. auto.
Qed.
Lemma nth_ext_err {A} : forall (a b : list A), List.length a = List.length b -> (forall i, i < List.length a -> nth_error a i = nth_error b i) -> a = b.
Proof.
  induction a as [|x a IH]; intros [|y b] L H; cbn in *; try discriminate; [reflexivity|]. f_equal.
  - specialize (H 0 ltac:(lia)). now injection H.
  - apply IH; [lia|]. intros i Hi. apply (H (S i)). lia.
Qed.
Theorem threads_sequential progs sched : no_streams progs -> no_foreign_copies blake (tstart progs) sched ->
  let s := trun blake (tstart progs) sched in
  let alone := crun blake (cstart (0, 0)) (one_by_one (ts_ret s)) in
  snd alone = results (ts_ret s) /\ cw_ctxs (fst alone) = ts_ctxs s /\ cw_pures (fst alone) = ts_pures s /\
  (all_idle s -> cw_streams (fst alone) = ts_streams s).
Proof.
  intros N P s alone. destruct (inv_run sched [] (tstart progs) (inv_start _ N) P) as [own I]. fold s in I.
  split; [apply (in_outs _ _ I)|]. split; [apply (in_ctxs _ _ I)|]. split; [apply (in_pures _ _ I)|].
  intros D. symmetry. apply nth_ext_err; [apply (in_len _ _ I)|]. intros i Hi. rewrite <- (in_own _ _ I) in Hi.
  destruct (nth_error own i) as [t|] eqn:Ot; [|apply nth_error_None in Ot; lia].
  pose proof (in_real _ _ I _ _ Ot) as Lt. destruct (nth_error (ts_threads s) t) as [th|] eqn:T; [|apply nth_error_None in T; lia].
  pose proof (in_thr _ _ I _ _ T) as K. unfold thread_ok in K. rewrite (D th) in K by (eapply nth_error_In; eauto). now apply K.
Qed.
End Run.

(** ** every schedule *)
Definition pc_ok (ctxs : list context) (t : nat) (th : tthread) : Prop :=
  match tt_pc th with
  | TIdle => True
  | TDraw1 _ _ | TDraw2 _ _ _ => exists c name rest x, tt_todo th = ODraw c name :: rest /\ nth_error ctxs c = Some x /\ trace_ok (t, tt_level th) (x_trace x) = true
  | TForks x _ _ | TFork1 x _ _ _ _ _ | TFork2 x _ _ _ _ _ _ =>
      exists c rest, tt_todo th = OPart c :: rest /\ nth_error ctxs c = Some x /\ trace_ok (t, tt_level th) (x_trace x) = true
  end.
Definition used_ok (ctxs : list context) (t : nat) (op : cop) (out : cout) : Prop :=
  forall c, used (mkCall t 0 op out) c -> exists x, nth_error ctxs c = Some x /\ fst (x_trace x) = t.
Definition made (t : nat) (op : cop) (out : cout) : list nat := if makes_context (mkCall t 0 op out) then [t] else [].
(** What a step does: moves inside a call, or returns from it. *)
Inductive tmove (s : tstate) (t : nat) (th : tthread) (op : cop) (rest : list cop) : tstate -> Prop :=
| tm_in C' pc' : pc_ok (ts_ctxs s) t (mkTT (tt_level th) pc' (tt_todo th)) ->
    tmove s t th op rest (set_tt (set_ss s C') t (mkTT (tt_level th) pc' (tt_todo th)))
| tm_ret C' cs pures' lvl' out : map (fun x => fst (x_trace x)) cs = made t op out -> used_ok (ts_ctxs s) t op out ->
    tmove s t th op rest (mkTS C' (ts_ctxs s ++ cs) pures' (list_set t (mkTT lvl' TIdle rest) (ts_threads s))
                               (ts_ret s ++ [mkCall t (tt_level th) (by_thread t op) out])).

Lemma tm_quiet s t th op rest C' pures' out : tt_todo th = op :: rest -> (forall tr, op <> OTrace tr) -> made t op out = [] -> used_ok (ts_ctxs s) t op out ->
  tmove s t th op rest (returns (mkTS C' (ts_ctxs s) pures' (ts_threads s) (ts_ret s)) t th op out).
Proof.
  intros E N M U. unfold returns. cbn [ts_streams ts_ctxs ts_pures ts_threads ts_ret]. rewrite E. cbn [tl].
  replace (ts_ctxs s) with (ts_ctxs s ++ []) by apply app_nil_r.
  replace (mkCall t (tt_level th) op out) with (mkCall t (tt_level th) (by_thread t op) out) by (destruct op; try reflexivity; exfalso; eapply N; reflexivity).
  constructor; [now rewrite M|exact U].
Qed.
Lemma used_err ctxs t op e : used_ok ctxs t op (OutErr e).
Proof. intros c [(n & k & _ & H)|[_ H]]; discriminate H. Qed.
Lemma made_err t op e : made t op (OutErr e) = [].
Proof. unfold made, makes_context. cbn. now destruct op. Qed.

Lemma tm_once blake s t th op rest op' : tt_todo th = op :: rest -> op' = by_thread t op ->
  match op with ONew _ _ _ | OCopy _ | OMerge _ | OTrace _ => True | _ => False end ->
  tmove s t th op rest (at_once blake s t th op').
Proof.
  intros E -> M. unfold at_once, view, returns. rewrite E. cbn [tl].
  assert (K : forall C' cs pures' tr' out, map (fun x => fst (x_trace x)) cs = made t op out -> used_ok (ts_ctxs s) t op out ->
    crun1 blake (mkCW (ts_streams s) (ts_ctxs s) (ts_pures s) (t, tt_level th)) (by_thread t op) = (mkCW C' (ts_ctxs s ++ cs) pures' tr', out) ->
    tmove s t th op rest (let (w, out) := crun1 blake (mkCW (ts_streams s) (ts_ctxs s) (ts_pures s) (t, tt_level th)) (by_thread t op) in
      mkTS (cw_streams w) (cw_ctxs w) (cw_pures w) (list_set t (mkTT (match by_thread t op with OTrace tr => snd tr | _ => tt_level th end) TIdle rest) (ts_threads s))
           (ts_ret s ++ [mkCall t (tt_level th) (by_thread t op) out]))).
  { intros C' cs pures' tr' out M1 U -> . cbn [cw_streams cw_ctxs cw_pures]. now constructor. }
  cbn [ts_streams ts_ctxs ts_pures ts_threads ts_ret].
  assert (ER : forall e C' pures' tr', crun1 blake (mkCW (ts_streams s) (ts_ctxs s) (ts_pures s) (t, tt_level th)) (by_thread t op) = (mkCW C' (ts_ctxs s) pures' tr', OutErr e) ->
    tmove s t th op rest (let (w, out) := crun1 blake (mkCW (ts_streams s) (ts_ctxs s) (ts_pures s) (t, tt_level th)) (by_thread t op) in
      mkTS (cw_streams w) (cw_ctxs w) (cw_pures w) (list_set t (mkTT (match by_thread t op with OTrace tr => snd tr | _ => tt_level th end) TIdle rest) (ts_threads s))
           (ts_ret s ++ [mkCall t (tt_level th) (by_thread t op) out]))).
  { intros e C' pures' tr' H. eapply (K C' [] pures' tr' (OutErr e)); [now rewrite made_err|apply used_err|now rewrite app_nil_r]. }
  assert (U : forall out, used_ok (ts_ctxs s) t op out) by (intros out c [(n & k & H & _)|[H _]]; cbn in H; subst op; contradiction).
  destruct op as [p fl rs|c n|c|c|i|tr]; try contradiction; cbn [by_thread crun1 cw_streams cw_ctxs cw_pures cw_trace] in *.
  - destruct (args_exist _ _) eqn:A; [|eapply ER; reflexivity]. destruct (new_context _ _ _ _ _) as [x ss] eqn:NC.
    eapply (K ss [x]); [|apply U|reflexivity]. cbn. unfold new_context in NC. destruct (make_streams _ _) as [ns ss1]. injection NC as <- _. reflexivity.
  - destruct (nth_error (ts_ctxs s) c) as [x|] eqn:X1; [|eapply ER; reflexivity]. eapply (K (ts_streams s) [_]); [|apply U|reflexivity]. reflexivity.
  - destruct (nth_error (ts_pures s) i) as [x|] eqn:X1; [|eapply ER; reflexivity]. destruct (pctx_merge _ _ _) as [[x2 ss]|e] eqn:P; [|eapply ER; reflexivity].
    eapply (K ss [x2]); [|apply U|reflexivity]. cbn. unfold pctx_merge in P. destruct (merge_streams _ _ _) as [[ns ss1]|e]; [|discriminate]. cbn in P. injection P as <- _. reflexivity.
  - eapply (K (ts_streams s) []); [reflexivity|apply U|rewrite app_nil_r; reflexivity].
Qed.

Lemma step_move blake s t th op rest : nth_error (ts_threads s) t = Some th -> tt_todo th = op :: rest -> pc_ok (ts_ctxs s) t th ->
  tmove s t th op rest (tstep_op blake s t th op).
Proof.
  intros T E P. unfold pc_ok in P.
  assert (Q : forall e, (forall tr, op <> OTrace tr) -> tmove s t th op rest (returns s t th op (OutErr e))).
  { intros e N. destruct s. apply tm_quiet; auto using made_err, used_err. }
  assert (G : forall pc, pc_ok (ts_ctxs s) t (mkTT (tt_level th) pc (tt_todo th)) -> tmove s t th op rest (set_tt s t (mkTT (tt_level th) pc (tt_todo th)))).
  { intros pc H. exact (tm_in s t th op rest (ts_streams s) pc H). }
  unfold tstep_op. destruct (tt_pc th) as [|i c1|i c1 v|x done todo|x done n i c1 todo|x done n i c1 v todo] eqn:PC.
  - destruct op as [p fl rs|c name|c|c|j|tr]; try (apply tm_once; easy).
    + destruct (nth_error (ts_ctxs s) c) as [x|] eqn:X1; [|apply Q; congruence].
      destruct (dget name (x_rngs x)) as [i|] eqn:X2; [|apply Q; congruence].
      destruct (trace_ok (t, tt_level th) (x_trace x)) eqn:X3; cbn [negb] in *; [|apply Q; congruence].
      destruct (nth_error (ts_streams s) i) as [st|] eqn:X4; [|apply Q; congruence].
      apply G. cbn. exists c, name, rest, x. auto.
    + destruct (nth_error (ts_ctxs s) c) as [x|] eqn:X1; [|apply Q; congruence].
      destruct (trace_ok (t, tt_level th) (x_trace x)) eqn:X3; cbn [negb] in *; [|apply Q; congruence].
      apply G. cbn. exists c, rest. auto.
  - destruct P as (c & name & r & x & H1 & H2 & H3). rewrite E in H1. injection H1 as -> ->.
    destruct (nth_error (ts_streams s) i) as [st|] eqn:X4; [|apply Q; congruence]. apply G. cbn. exists c, name, r, x. auto.
  - destruct P as (c & name & r & x & H1 & H2 & H3). rewrite E in H1. injection H1 as -> ->.
    destruct (nth_error (ts_streams s) i) as [st|] eqn:X4; [|apply Q; congruence].
    apply tm_quiet; auto; [congruence|]. intros c' [(n & k & H & _)|[H _]]; [|discriminate]. cbn in H. injection H as <- _. exists x. split; [exact H2|]. now apply trace_fst in H3.
  - destruct P as (c & r & H1 & H2 & H3). rewrite E in H1. injection H1 as -> ->. destruct todo as [|[n i] todo].
    + apply tm_quiet; auto; [congruence|]. intros c' [(n & k & H & _)|[H _]]; [discriminate|]. cbn in H. injection H as <-. exists x. split; [exact H2|]. now apply trace_fst in H3.
    + destruct (nth_error (ts_streams s) i) as [st|] eqn:X4; [|apply Q; congruence]. apply G. cbn. exists c, r. auto.
  - destruct P as (c & r & H1 & H2 & H3). rewrite E in H1. injection H1 as -> ->.
    destruct (nth_error (ts_streams s) i) as [st|] eqn:X4; [|apply Q; congruence]. apply G. cbn. exists c, r. auto.
  - destruct P as (c & r & H1 & H2 & H3). rewrite E in H1. injection H1 as -> ->.
    destruct (nth_error (ts_streams s) i) as [st|] eqn:X4; [|apply Q; congruence].
    apply (tm_in s t th (OPart c) r). cbn. exists c, r. auto.
Qed.

Definition norm (o : cop) : cop := match o with OTrace _ => OTrace (0, 0) | _ => o end.
Record shape (progs : list (list cop)) (s : tstate) : Prop := {
  sh_pc : forall t th, nth_error (ts_threads s) t = Some th -> pc_ok (ts_ctxs s) t th;
  sh_len : List.length (ts_threads s) = List.length progs;
  sh_order : forall t th p, nth_error (ts_threads s) t = Some th -> nth_error progs t = Some p ->
     map tc_op (calls_of t s) ++ map (by_thread t) (tt_todo th) = map (by_thread t) p;
  sh_made : map (fun x => fst (x_trace x)) (ts_ctxs s) = made_by s;
  sh_used : forall r c, In r (ts_ret s) -> used r c -> nth_error (made_by s) c = Some (tc_thread r);
  sh_perm : Permutation (map norm (the_calls s ++ List.concat (map tt_todo (ts_threads s)))) (map norm (List.concat progs))
}.
Lemma pc_ok_more ctxs cs t th : pc_ok ctxs t th -> pc_ok (ctxs ++ cs) t th.
Proof.
  unfold pc_ok. destruct (tt_pc th); auto.
  1,2: intros (c & n & r & x & H1 & H2 & H3); exists c, n, r, x; auto using nth_app_some.
  all: intros (c & r & H1 & H2 & H3); exists c, r; auto using nth_app_some.
Qed.
Lemma concat_set (l : list tthread) : forall t th th' op rest, nth_error l t = Some th -> tt_todo th = op :: rest -> tt_todo th' = rest ->
  Permutation (op :: List.concat (map tt_todo (list_set t th' l))) (List.concat (map tt_todo l)).
Proof.
  induction l as [|y l IH]; intros [|t] th th' op rest T E E'; cbn in *; try discriminate.
  - injection T as ->. rewrite E, E'. reflexivity.
  - rewrite <- (IH t th th' op rest T E E'). apply Permutation_middle.
Qed.
Lemma shape_step blake progs s t : shape progs s -> shape progs (tstep blake s t).
Proof.
  intros Hs. unfold tstep. destruct (nth_error (ts_threads s) t) as [th|] eqn:T; [|exact Hs].
  destruct (tt_todo th) as [|op rest] eqn:E; [exact Hs|].
  destruct (step_move blake s t th op rest T E (sh_pc _ _ Hs _ _ T)) as [C' pc' P|C' cs pures' lvl' out M U].
  - destruct Hs as [S1 S2 S3 S4 S5 S6]. constructor; cbn [ts_streams ts_ctxs ts_pures ts_threads ts_ret set_tt set_ss]; auto.
    + intros u th1 H. apply nth_set_cases in H as [[<- ->]|[N H]]; auto.
    + now rewrite list_set_length.
    + intros u th1 p H Hp. apply nth_set_cases in H as [[<- ->]|[N H]]; [cbn [tt_todo]; now apply (S3 t th p)|now apply (S3 u th1 p)].
    + assert (EQ : map tt_todo (list_set t (mkTT (tt_level th) pc' (tt_todo th)) (ts_threads s)) = map tt_todo (ts_threads s)); [|rewrite EQ; exact S6].
      clear - T. revert t T. induction (ts_threads s) as [|y l IH]; intros [|t] T; cbn in *; try discriminate; [now injection T as ->|]. now rewrite IH.
  - destruct Hs as [S1 S2 S3 S4 S5 S6].
    assert (MB : forall l, map tc_thread (filter makes_context (l ++ [mkCall t (tt_level th) (by_thread t op) out])) = map tc_thread (filter makes_context l) ++ made t op out).
    { intros l. rewrite filter_app, map_app. f_equal. unfold made. cbn. unfold makes_context. cbn. destruct op, out; reflexivity. }
    constructor; unfold made_by, calls_of, the_calls in *; cbn [ts_streams ts_ctxs ts_pures ts_threads ts_ret]; rewrite ?MB.
    + intros u th1 H. apply nth_set_cases in H as [[<- ->]|[N H]]; [exact Logic.I|]. apply pc_ok_more. auto.
    + now rewrite list_set_length.
    + intros u th1 p H Hp. rewrite filter_app, map_app. cbn [filter tc_thread]. apply nth_set_cases in H as [[<- ->]|[N H]].
      * rewrite Nat.eqb_refl. cbn [map tc_op tt_todo]. rewrite <- (S3 t th p T Hp), E, <- app_assoc. reflexivity.
      * destruct (Nat.eqb_spec t u); [contradiction|]. rewrite app_nil_r. now apply (S3 u th1 p).
    + rewrite map_app. congruence.
    + intros r c Hr Hc. apply in_app_or in Hr as [Hr|[<-|[]]]; [apply nth_app_some; auto|]. cbn [tc_thread].
      assert (Hc' : used (mkCall t 0 op out) c) by (destruct op; exact Hc || destruct Hc as [(n & k & H & _)|[H _]]; discriminate H).
      destruct (U c Hc') as (x & X1 & X2). apply nth_app_some. rewrite <- S4. rewrite nth_error_map, X1. cbn. now rewrite X2.
    + rewrite <- S6. rewrite !map_app. cbn [map tc_op]. rewrite <- app_assoc. apply Permutation_app_head. cbn [app map].
      replace (norm (by_thread t op)) with (norm op) by now destruct op.
      rewrite <- (concat_set _ t th (mkTT lvl' TIdle rest) op rest T E eq_refl). reflexivity.
Qed.
Lemma shape_start progs : shape progs (tstart progs).
Proof.
  constructor; cbn.
  - intros t th H. apply nth_error_In, in_map_iff in H as (p & <- & _). exact Logic.I.
  - apply map_length.
  - intros t th p H Hp. rewrite nth_error_map, Hp in H. injection H as <-. reflexivity.
  - reflexivity.
  - intros r c [].
  - unfold the_calls. cbn. rewrite map_map. cbn. now rewrite map_id.
Qed.
Lemma shape_run blake progs sched : shape progs (trun blake (tstart progs) sched).
Proof.
  unfold trun. rewrite <- fold_left_rev_right. induction (rev sched) as [|t l IH]; cbn; [apply shape_start|now apply shape_step].
Qed.

(** ** keys *)
Lemma root_keys_norm l : root_keys (map norm l) = root_keys l.
Proof. unfold root_keys. induction l as [|o l IH]; cbn; [reflexivity|]. rewrite IH. now destruct o. Qed.
Lemma merges_norm l : merges (map norm l) = merges l.
Proof. unfold merges. induction l as [|o l IH]; cbn; [reflexivity|]. rewrite IH. now destruct o. Qed.
Lemma root_keys_one l : root_keys (one_by_one l) = root_keys (map tc_op l).
Proof. unfold root_keys, one_by_one. induction l as [|o l IH]; cbn; [reflexivity|]. now rewrite IH. Qed.
Lemma merges_one l : merges (one_by_one l) = merges (map tc_op l).
Proof. unfold merges, one_by_one. induction l as [|o l IH]; cbn; [reflexivity|]. now rewrite IH. Qed.
Lemma drawn_results l : drawn (results l) = drawn (map tc_out l).
Proof. unfold drawn, results. induction l as [|o l IH]; cbn; [reflexivity|]. now rewrite IH. Qed.
Lemma NoDup_app_l {A} (a b : list A) : NoDup (a ++ b) -> NoDup a.
Proof. induction a as [|x a IH]; intros H; [constructor|]. cbn in H. inversion H as [|? ? H1 H2]. constructor; [|auto]. intros G. apply H1, in_or_app. auto. Qed.
Lemma threads_fresh blake progs sched : no_streams progs -> no_foreign_copies blake (tstart progs) sched ->
  NoDup (root_keys (List.concat progs)) -> NoDup (merges (List.concat progs)) ->
  NoDup (root_keys (one_by_one (ts_ret (trun blake (tstart progs) sched)))) /\ NoDup (merges (one_by_one (ts_ret (trun blake (tstart progs) sched)))).
Proof.
  intros _ _ R M. pose proof (sh_perm _ _ (shape_run blake progs sched)) as P. rewrite root_keys_one, merges_one.
  set (s := trun blake (tstart progs) sched) in *. fold (the_calls s). set (td := List.concat (map tt_todo (ts_threads s))) in *.
  split.
  - apply (NoDup_app_l _ (root_keys td)). replace (root_keys (the_calls s) ++ root_keys td) with (root_keys (the_calls s ++ td)) by apply flat_map_app.
    rewrite <- root_keys_norm. eapply Permutation_NoDup; [|exact R]. rewrite <- (root_keys_norm (List.concat progs)). unfold root_keys. apply Permutation_flat_map. now symmetry.
  - apply (NoDup_app_l _ (merges td)). replace (merges (the_calls s) ++ merges td) with (merges (the_calls s ++ td)) by apply flat_map_app.
    rewrite <- merges_norm. eapply Permutation_NoDup; [|exact M]. rewrite <- (merges_norm (List.concat progs)). unfold merges. apply Permutation_flat_map. now symmetry.
Qed.

(** ** a copy in another thread *)
Definition nth_key (blake : string -> nat) (n : nat) : key := KFold (KSeed 0%Z) (stable_hash blake [n]).
Lemma trun_app b s x y : trun b s (x ++ y) = trun b (trun b s x) y.
Proof. apply fold_left_app. Qed.
Definition two (c : nat) (tr0 tr1 : nat) (th0 : tthread) (todo1 : list cop) (ret : list tcall) : tstate :=
  mkTS [mkStream (KSeed 0%Z) c []] [mkCtx [("params", 0)] [] (0, tr0); mkCtx [("params", 0)] [] (1, tr1)] [] [th0; mkTT tr1 TIdle todo1] ret.
Lemma draw_many b n : forall c th0 todo ret,
  trun b (two c 0 0 th0 (repeat (ODraw 1 "params") n ++ todo) ret) (repeat 1 (3 * n)) =
  two (c + n) 0 0 th0 todo (ret ++ map (fun k => mkCall 1 0 (ODraw 1 "params") (OutKey (nth_key b k))) (seq c n)).
Proof.
  induction n as [|n IH]; intros c th0 todo ret.
  - cbn. now rewrite Nat.add_0_r, app_nil_r.
  - replace (3 * S n) with (3 + 3 * n) by lia. rewrite repeat_app, trun_app.
    change (trun b (two c 0 0 th0 (repeat (ODraw 1 "params") (S n) ++ todo) ret) (repeat 1 3)) with
      (two (S c) 0 0 th0 (repeat (ODraw 1 "params") n ++ todo) (ret ++ [mkCall 1 0 (ODraw 1 "params") (OutKey (nth_key b c))])).
    rewrite IH. cbn [seq map]. rewrite <- app_assoc. cbn [app]. now rewrite Nat.add_succ_r.
Qed.

(** ** checking *)
Definition copies_foreignb (s : tstate) (t : nat) : bool :=
  match nth_error (ts_threads s) t with
  | Some th => match tt_todo th with
               | OCopy c :: _ => match nth_error (ts_ctxs s) c with Some x => negb (Nat.eqb (fst (x_trace x)) t) | None => false end
               | _ => false
               end
  | None => false
  end.
Fixpoint no_foreign_copiesb (blake : string -> nat) (s : tstate) (schedule : list nat) : bool :=
  match schedule with [] => true | t :: l => if copies_foreignb s t then false else no_foreign_copiesb blake (tstep blake s t) l end.
Lemma no_foreign_check b l : forall s, no_foreign_copiesb b s l = true -> no_foreign_copies b s l.
Proof.
  induction l as [|t l IH]; intros s H; cbn in *; [exact Logic.I|]. destruct (copies_foreignb s t) eqn:E; [discriminate|]. split; [|auto].
  intros (th & c & rest & x & H1 & H2 & H3 & H4). unfold copies_foreignb in E. rewrite H1, H2, H3 in E. apply Bool.negb_false_iff, Nat.eqb_eq in E. contradiction.
Qed.
