(** Proofs about RNG contexts: freshness of derivations, isolation, counters. *)
From Coq Require Import ZArith Decimal DecimalString DecimalNat Permutation.
From Verif Require Import PyBase PyBaseFacts ModuleM ContextM Spec_Context.
Local Open Scope string_scope.
Local Open Scope list_scope.

(** ** The encoding of counts *)

Definition no_space (s : string) : Prop := has_char " "%char s = false.

Lemma uint_no_space d : no_space (NilEmpty.string_of_uint d).
Proof. unfold no_space. induction d; cbn; auto. Qed.
Lemma uint_string_inj d : forall e, NilEmpty.string_of_uint d = NilEmpty.string_of_uint e -> d = e.
Proof.
  intros e H. apply (f_equal NilEmpty.uint_of_string) in H.
  rewrite !NilEmpty.usu in H. congruence.
Qed.
Lemma nat_str_inj n m : nat_str n = nat_str m -> n = m.
Proof. intros H. apply uint_string_inj in H. now apply Unsigned.to_uint_inj. Qed.
Lemma nat_str_space n : no_space (nat_str n).
Proof. apply uint_no_space. Qed.
Lemma nat_str_nonempty n : nat_str n <> "".
Proof.
  unfold nat_str. intros H.
  assert (E : Nat.to_uint n = Decimal.Nil)
    by (apply uint_string_inj; exact H).
  pose proof (Unsigned.of_to n) as O. rewrite E in O. cbn in O. subst n. discriminate E.
Qed.

Lemma app_space_inj a : forall b s t, no_space a -> no_space b ->
  (a ++ String " "%char s = b ++ String " "%char t)%string -> a = b /\ s = t.
Proof.
  induction a as [|c a IH]; intros [|d b] s t Ha Hb E; cbn in *.
  - inversion E. auto.
  - inversion E; subst. unfold no_space in Hb. cbn in Hb. discriminate.
  - inversion E; subst. unfold no_space in Ha. cbn in Ha. discriminate.
  - inversion E; subst. unfold no_space in Ha, Hb. cbn in Ha, Hb.
    apply Bool.orb_false_iff in Ha as [_ Ha]. apply Bool.orb_false_iff in Hb as [_ Hb].
    destruct (IH b s t Ha Hb ltac:(assumption)) as [-> ->]. auto.
Qed.
Lemma no_space_app a s : no_space (a ++ String " "%char s)%string -> False.
Proof.
  unfold no_space. induction a as [|c a IH]; cbn; [discriminate|].
  intros H. apply Bool.orb_false_iff in H as [_ H]. auto.
Qed.
Lemma hash_str_cons n m t : hash_str (n :: m :: t) = (nat_str n ++ String " "%char (hash_str (m :: t)))%string.
Proof. reflexivity. Qed.
Lemma hash_str_inj p : forall q, hash_str p = hash_str q -> p = q.
Proof.
  induction p as [|n p IH]; intros [|m q] E.
  - reflexivity.
  - exfalso. destruct q as [|m' q]; [cbn in E; symmetry in E; now apply nat_str_nonempty in E|].
    rewrite hash_str_cons in E. cbn in E. destruct (nat_str m); discriminate.
  - exfalso. destruct p as [|n' p]; [cbn in E; now apply nat_str_nonempty in E|].
    rewrite hash_str_cons in E. cbn in E. destruct (nat_str n); discriminate.
  - destruct p as [|n' p], q as [|m' q].
    + cbn in E. now rewrite (nat_str_inj _ _ E).
    + exfalso. rewrite hash_str_cons in E. change (hash_str [n]) with (nat_str n) in E.
      apply (no_space_app (nat_str m) (hash_str (m' :: q))). rewrite <- E. apply nat_str_space.
    + exfalso. rewrite hash_str_cons in E. change (hash_str [m]) with (nat_str m) in E.
      apply (no_space_app (nat_str n) (hash_str (n' :: p))). rewrite E. apply nat_str_space.
    + rewrite !hash_str_cons in E.
      apply app_space_inj in E as [E1 E2]; auto using nat_str_space.
      rewrite (nat_str_inj _ _ E1). f_equal. now apply IH.
Qed.

(** ** Which tokens a history consumes *)

Definition sid (s : stream) : key * counts := (s_key s, s_path s).
Definition token (s : stream) : key * counts := (s_key s, s_path s ++ [s_count s]).

Definition tok (w : cworld) (o : cop) : list (key * counts) :=
  match o with
  | ODraw c name =>
      match nth_error (cw_ctxs w) c with
      | None => []
      | Some x => match dget name (x_rngs x) with
                  | None => []
                  | Some i => if negb (trace_ok (cw_trace w) (x_trace x)) then []
                              else match nth_error (cw_streams w) i with
                                   | None => []
                                   | Some s => [token s]
                                   end
                  end
      end
  | _ => []
  end.
Definition zero_hash (s : string) : nat := 0.
Fixpoint toks (w : cworld) (ops : list cop) : list (key * counts) :=
  match ops with
  | [] => []
  | o :: t => tok w o ++ toks (fst (crun1 zero_hash w o)) t
  end.

Definition derive (blake : string -> nat) (kp : key * counts) : key :=
  KFold (fst kp) (stable_hash blake (snd kp)).

Lemma crun1_blake b1 b2 w o : fst (crun1 b1 w o) = fst (crun1 b2 w o).
Proof.
  destruct o as [p fl rs|c name|c|c|i|t]; try reflexivity. cbn [crun1].
  destruct (nth_error (cw_ctxs w) c) as [x|]; [|reflexivity].
  unfold make_rng. destruct (dget name (x_rngs x)) as [i|]; [|reflexivity].
  destruct (negb _); [reflexivity|]. destruct (nth_error (cw_streams w) i); reflexivity.
Qed.

Lemma drawn_app l1 l2 : drawn (l1 ++ l2) = drawn l1 ++ drawn l2.
Proof. apply flat_map_app. Qed.
Lemma crun_cons b w o t :
  crun b w (o :: t) = (fst (crun b (fst (crun1 b w o)) t),
                       snd (crun1 b w o) :: snd (crun b (fst (crun1 b w o)) t)).
Proof.
  cbn [crun]. destruct (crun1 b w o) as [w1 out]. cbn [fst snd].
  destruct (crun b w1 t) as [w2 outs]. reflexivity.
Qed.
Lemma drawn1 b w o : drawn [snd (crun1 b w o)] = map (derive b) (tok w o).
Proof.
  destruct o as [p fl rs|c name|c|c|i|t]; cbn [crun1 tok].
  - destruct (args_exist _ _); [|reflexivity].
    destruct (new_context _ _ _ _ _) as [x ss]. reflexivity.
  - destruct (nth_error (cw_ctxs w) c) as [x|]; [|reflexivity].
    unfold make_rng. destruct (dget name (x_rngs x)) as [i|]; [|reflexivity].
    destruct (negb _); [reflexivity|]. destruct (nth_error (cw_streams w) i); reflexivity.
  - destruct (nth_error (cw_ctxs w) c) as [x|]; reflexivity.
  - destruct (nth_error (cw_ctxs w) c) as [x|]; [|reflexivity].
    destruct (context_partition _ _ _) as [[p|e] ss]; reflexivity.
  - destruct (nth_error (cw_pures w) i) as [p|]; [|reflexivity].
    destruct (pctx_merge _ _ _) as [[x ss]|e]; reflexivity.
  - reflexivity.
Qed.
Lemma drawn_toks b ops : forall w, drawn (snd (crun b w ops)) = map (derive b) (toks w ops).
Proof.
  induction ops as [|o t IH]; intros w; [reflexivity|].
  rewrite crun_cons. cbn [snd toks]. rewrite map_app, <- drawn1, <- (IH (fst (crun1 zero_hash w o))).
  rewrite (crun1_blake zero_hash b).
  change (snd (crun1 b w o) :: snd (crun b (fst (crun1 b w o)) t))
    with ([snd (crun1 b w o)] ++ snd (crun b (fst (crun1 b w o)) t)).
  now rewrite drawn_app.
Qed.

(** ** The freshness invariant *)

Definition used (ss : list stream) (kp : key * counts) : Prop :=
  snd kp = [] \/ exists p c i s, snd kp = p ++ [c] /\ nth_error ss i = Some s /\
    sid s = (fst kp, p) /\ c < s_count s.

Record core (ss : list stream) (X : list (key * counts)) (R : list key) : Prop := mkCore {
  co_nd : NoDup (map sid ss ++ X);
  co_used : forall kp, In kp (map sid ss ++ X) -> used ss kp;
  co_root : forall kp, In kp (map sid ss ++ X) -> In (fst kp) R }.

Lemma core_perm ss X Y R : Permutation X Y -> core ss X R -> core ss Y R.
Proof.
  intros P [N U O]. assert (P2 : Permutation (map sid ss ++ X) (map sid ss ++ Y)) by now apply Permutation_app_head.
  constructor.
  - eapply Permutation_NoDup; eauto.
  - intros kp H. apply U. eapply Permutation_in; [apply Permutation_sym; exact P2|exact H].
  - intros kp H. apply O. eapply Permutation_in; [apply Permutation_sym; exact P2|exact H].
Qed.
Lemma core_roots ss X R R' : (forall k, In k R -> In k R') -> core ss X R -> core ss X R'.
Proof. intros I [N U O]. constructor; auto. Qed.

Lemma map_list_set {A B} (f : A -> B) n x (l : list A) :
  map f (list_set n x l) = list_set n (f x) (map f l).
Proof. revert n. induction l as [|y l IH]; intros [|n]; cbn; auto. now rewrite IH. Qed.
Lemma sids_bump i s ss : nth_error ss i = Some s -> map sid (list_set i (bump s) ss) = map sid ss.
Proof.
  intros H. rewrite map_list_set. apply list_set_id. change (sid (bump s)) with (sid s).
  now apply map_nth_error.
Qed.
Lemma used_bump i s ss kp : nth_error ss i = Some s -> used ss kp -> used (list_set i (bump s) ss) kp.
Proof.
  intros H [U|(p & c & j & s' & E & N & I & L)]; [now left|]. right.
  destruct (Nat.eq_dec i j) as [<-|D].
  - rewrite H in N. inversion N; subst s'. exists p, c, i, (bump s). repeat split; auto.
    + apply nth_list_set_same. apply nth_error_Some. congruence.
    + cbn. lia.
  - exists p, c, j, s'. repeat split; auto. now rewrite nth_list_set_other.
Qed.

Lemma sid_unique ss X R i j s s' : core ss X R -> nth_error ss i = Some s -> nth_error ss j = Some s' ->
  sid s = sid s' -> i = j.
Proof.
  intros [N _ _] H1 H2 E. apply NoDup_app_l in N.
  apply (NoDup_nth_error (map sid ss)); auto.
  - apply nth_error_Some. rewrite (map_nth_error sid _ _ H1). discriminate.
  - rewrite (map_nth_error sid _ _ H1), (map_nth_error sid _ _ H2). now rewrite E.
Qed.
Lemma token_fresh ss X R i s : core ss X R -> nth_error ss i = Some s -> ~ In (token s) (map sid ss ++ X).
Proof.
  intros C H I. destruct (co_used _ _ _ C _ I) as [E|(p & c & j & s' & E & N & S1 & L)].
  - cbn in E. now apply app_eq_nil in E as [_ E].
  - cbn in E. apply app_inj_tail in E as [E1 E2]. cbn in S1.
    assert (i = j) by (eapply sid_unique; eauto; unfold sid at 1; congruence). subst j.
    rewrite H in N. inversion N; subst s'. lia.
Qed.
Lemma core_use ss X R i s : core ss X R -> nth_error ss i = Some s ->
  core (list_set i (bump s) ss) (token s :: X) R.
Proof.
  intros C H. pose proof (token_fresh _ _ _ _ _ C H) as F. destruct C as [N U O].
  assert (IN : forall kp, In kp (map sid ss ++ token s :: X) -> kp = token s \/ In kp (map sid ss ++ X)).
  { intros kp I. apply in_app_or in I as [I|[I|I]]; [right; apply in_or_app; auto|left; auto|right; apply in_or_app; auto]. }
  constructor; rewrite sids_bump by exact H.
  - eapply Permutation_NoDup; [apply Permutation_middle|]. now constructor.
  - intros kp I. destruct (IN kp I) as [->|I'].
    + right. exists (s_path s), (s_count s), i, (bump s). repeat split; auto.
      apply nth_list_set_same. apply nth_error_Some. congruence.
    + now apply used_bump; auto.
  - intros kp I. destruct (IN kp I) as [->|I']; auto.
    apply (O (sid s)). apply in_or_app. left. apply in_map. now apply nth_error_In in H.
Qed.

Lemma used_app ss ss' kp : used ss kp -> used (ss ++ ss') kp.
Proof.
  intros [U|(p & c & j & s' & E & N & I & L)]; [now left|]. right.
  exists p, c, j, s'. repeat split; auto. rewrite nth_error_app1; auto. apply nth_error_Some. congruence.
Qed.
Lemma core_merge ss Y X R new : core ss (Y ++ X) R -> map sid new = Y -> core (ss ++ new) X R.
Proof.
  intros [N U O] E. assert (EQ : map sid (ss ++ new) ++ X = map sid ss ++ Y ++ X).
  { rewrite map_app, E. now rewrite <- app_assoc. }
  constructor; rewrite EQ; auto. intros kp I. apply used_app. auto.
Qed.
Lemma core_new ss X R k : core ss X R -> ~ In k R -> core (ss ++ [mkStream k 0 []]) X (k :: R).
Proof.
  intros C F. assert (EQ : Permutation (map sid (ss ++ [mkStream k 0 []]) ++ X) ((k, []) :: map sid ss ++ X)).
  { rewrite map_app, <- app_assoc. cbn. apply Permutation_sym, Permutation_middle. }
  destruct C as [N U O]. constructor.
  - eapply Permutation_NoDup; [apply Permutation_sym; exact EQ|]. constructor; auto.
    intros I. apply F. apply (O (k, [])). exact I.
  - intros kp I. apply (Permutation_in _ EQ) in I as [<-|I]; [now left|]. apply used_app. auto.
  - intros kp I. apply (Permutation_in _ EQ) in I as [<-|I]; cbn; auto.
Qed.

(** pending pure contexts *)
Definition pents (p : pctx) : list (key * counts) :=
  flat_map (fun np => match dget (fst np) (pc_keys p) with Some k => [(k, snd np)] | None => [] end) (pc_counts p).
Fixpoint pend (M : list nat) (n : nat) (ps : list pctx) : list (key * counts) :=
  match ps with
  | [] => []
  | p :: t => (if nmem n M then [] else pents p) ++ pend M (S n) t
  end.
Lemma pend_app M ps p : forall n, ~ In (n + List.length ps) M ->
  pend M n (ps ++ [p]) = pend M n ps ++ pents p.
Proof.
  induction ps as [|q ps IH]; intros n H; cbn [app pend].
  - cbn in H. rewrite Nat.add_0_r in H. apply nmem_false in H. rewrite H. now rewrite app_nil_r.
  - rewrite IH, app_assoc; auto. cbn in H. now rewrite Nat.add_succ_r in H.
Qed.
Lemma pend_skip M i ps : forall n, i < n -> pend (i :: M) n ps = pend M n ps.
Proof.
  induction ps as [|q ps IH]; intros n H; cbn [pend]; auto.
  rewrite IH by lia. f_equal. cbn. destruct (Nat.eqb_spec n i); [lia|]. reflexivity.
Qed.
Lemma pend_remove M i ps p : forall n, nth_error ps i = Some p -> ~ In (n + i) M ->
  Permutation (pend M n ps) (pents p ++ pend ((n + i) :: M) n ps).
Proof.
  revert i. induction ps as [|q ps IH]; intros [|i] n H F; try discriminate; cbn [pend].
  - inversion H; subst q. rewrite Nat.add_0_r in *.
    rewrite pend_skip by lia. apply nmem_false in F. rewrite F.
    assert (E : nmem n (n :: M) = true) by (apply nmem_In; now left). now rewrite E.
  - cbn in H. specialize (IH i (S n) H). rewrite Nat.add_succ_r in *. cbn [Nat.add] in IH.
    specialize (IH F).
    assert (E : nmem n (S (n + i) :: M) = nmem n M).
    { cbn. destruct (Nat.eqb n (S (n + i))) eqn:Q; [apply Nat.eqb_eq in Q; lia|]. reflexivity. }
    rewrite E. rewrite (Permutation_app_head _ IH). apply Permutation_app_swap_app.
Qed.

Record cinv (w : cworld) (M : list nat) (R : list key) (L : list (key * counts)) : Prop := mkCinv {
  ci_core : core (cw_streams w) (pend M 0 (cw_pures w) ++ L) R;
  ci_merged : forall i, In i M -> i < List.length (cw_pures w);
  ci_names : forall x, In x (cw_ctxs w) -> NoDup (keys (x_rngs x));
  ci_ctx : forall x i, In x (cw_ctxs w) -> In i (ctx_streams x) -> i < List.length (cw_streams w) }.

Lemma fork_all_len items : forall ss r ss', fork_all items ss = (r, ss') -> List.length ss' = List.length ss.
Proof.
  induction items as [|[name i] t IH]; intros ss r ss' H; cbn in H; [now inversion H|].
  destruct (nth_error ss i) as [s|]; [|now inversion H].
  destruct (fork_all t _) as [r1 ss1] eqn:E. inversion H; subst. apply IH in E. now rewrite list_set_length in E.
Qed.
Lemma fork_all_ok items : forall ss, (forall i, In i (map snd items) -> i < List.length ss) ->
  exists fs ss', fork_all items ss = (Ok fs, ss').
Proof.
  induction items as [|[name i] t IH]; intros ss B; cbn; [eauto|].
  destruct (nth_error ss i) as [s|] eqn:E.
  2:{ apply nth_error_None in E. specialize (B i (or_introl eq_refl)). lia. }
  destruct (IH (list_set i (bump s) ss)) as (fs & ss' & ->).
  { intros j J. rewrite list_set_length. apply B. now right. }
  cbn. eauto.
Qed.
Lemma fork_all_core items : forall ss X R fs ss', core ss X R -> fork_all items ss = (Ok fs, ss') ->
  core ss' (map (fun ns => sid (snd ns)) fs ++ X) R /\ keys fs = keys items.
Proof.
  induction items as [|[name i] t IH]; intros ss X R fs ss' C H; cbn in H.
  { inversion H; subst. auto. }
  destruct (nth_error ss i) as [s|] eqn:E; [|discriminate].
  destruct (fork_all t _) as [[fs1|e] ss1] eqn:F; [|discriminate]. inversion H; subst fs ss'.
  pose proof (core_use _ _ _ _ _ C E) as C1.
  destruct (IH _ _ _ _ _ C1 F) as [C2 K]. split; [|unfold keys in *; cbn [map fst]; now rewrite K].
  eapply core_perm; [|exact C2]. cbn [map app fst snd]. apply Permutation_sym.
  change (sid (mkStream (s_key s) 0 (s_path s ++ [s_count s]))) with (token s).
  apply Permutation_middle.
Qed.
Lemma pents_forks (fs : list (string * stream)) flags : NoDup (keys fs) ->
  pents (mkPctx (dict_of (map (fun ns => (fst ns, s_key (snd ns))) fs))
                (map (fun ns => (fst ns, s_path (snd ns))) fs) flags)
  = map (fun ns => sid (snd ns)) fs.
Proof.
  intros N. unfold pents. cbn [pc_keys pc_counts].
  assert (K : keys (map (fun ns : string * stream => (fst ns, s_key (snd ns))) fs) = keys fs).
  { unfold keys. rewrite map_map. reflexivity. }
  rewrite dict_of_nodup by now rewrite K.
  assert (G : forall l, incl l fs ->
     flat_map (fun np : string * counts => match dget (fst np)
        (map (fun ns : string * stream => (fst ns, s_key (snd ns))) fs) with Some k => [(k, snd np)] | None => [] end)
       (map (fun ns : string * stream => (fst ns, s_path (snd ns))) l) = map (fun ns => sid (snd ns)) l).
  { induction l as [|[n s] l IH]; intros I; [reflexivity|]. cbn [map flat_map fst snd].
    rewrite IH by (intros q Q; apply I; now right).
    rewrite (In_dget n (s_key s)).
    - reflexivity.
    - now rewrite K.
    - apply in_map_iff. exists (n, s). split; auto. apply I. now left. }
  apply G. apply incl_refl.
Qed.
Lemma merge_streams_spec ks l : forall ss ns ss', merge_streams ks l ss = Ok (ns, ss') ->
  exists new, ss' = ss ++ new /\
    map sid new = flat_map (fun np => match dget (fst np) ks with Some k => [(k, snd np)] | None => [] end) l /\
    (forall i, In i (map snd ns) -> List.length ss <= i < List.length ss') /\ keys ns = keys l /\
    Forall (fun s => s_count s = 0) new.
Proof.
  induction l as [|[name path] t IH]; intros ss ns ss' H; cbn in H.
  - inversion H; subst. exists []. rewrite app_nil_r. repeat split; auto; now cbn.
  - destruct (dget name ks) as [k|] eqn:E; [|discriminate].
    destruct (merge_streams ks t _) as [[ns1 ss1]|e] eqn:M; [|discriminate]. cbn in H. inversion H; subst.
    destruct (IH _ _ _ M) as (new & -> & S1 & B & K & Z).
    exists (mkStream k 0 path :: new). rewrite <- app_assoc. cbn [app]. repeat split; auto.
    + cbn [map flat_map fst snd]. rewrite E. cbn. now rewrite <- S1.
    + cbn in H0. destruct H0 as [<-|I]; [auto|]. apply B in I. rewrite app_length in I. cbn in I. lia.
    + cbn in H0. destruct H0 as [<-|I].
      * rewrite app_length. cbn. lia.
      * apply B in I. rewrite <- app_assoc in I. cbn in I. lia.
    + unfold keys in *. cbn [map fst]. now rewrite K.
Qed.
Lemma make_streams_spec l : forall ss X R ns ss', core ss X R ->
  NoDup (R ++ flat_map (fun na => arg_roots (snd na)) l) ->
  make_streams l ss = (ns, ss') ->
  core ss' X (R ++ flat_map (fun na => arg_roots (snd na)) l) /\ List.length ss <= List.length ss'.
Proof.
  assert (ROOT : forall ss X R k m, core ss X R -> NoDup (R ++ k :: m) ->
            core (ss ++ [mkStream k 0 []]) X (R ++ [k]) /\ NoDup ((R ++ [k]) ++ m)).
  { intros ss X R k m C N. split; [|now rewrite <- app_assoc].
    eapply core_roots; [|apply core_new; [exact C|]].
    - intros q [->|Q]; apply in_or_app; [right; now left|now left].
    - apply NoDup_remove_2 in N. intros I. apply N. apply in_or_app. now left. }
  induction l as [|[name a] t IH]; intros ss X R ns ss' C N H; cbn in H.
  - inversion H; subst. cbn. rewrite app_nil_r. auto.
  - destruct a as [z|k|i]; cbn [flat_map snd arg_roots app] in N |- *.
    + destruct (make_streams t _) as [ns1 ss1] eqn:M. inversion H; subst.
      destruct (ROOT _ _ _ _ _ C N) as [C1 N1].
      destruct (IH _ _ _ _ _ C1 N1 M) as [C2 L].
      rewrite <- app_assoc in C2. rewrite app_length in L. cbn in L. split; [exact C2|lia].
    + destruct (make_streams t _) as [ns1 ss1] eqn:M. inversion H; subst.
      destruct (ROOT _ _ _ _ _ C N) as [C1 N1].
      destruct (IH _ _ _ _ _ C1 N1 M) as [C2 L].
      rewrite <- app_assoc in C2. rewrite app_length in L. cbn in L. split; [exact C2|lia].
    + destruct (make_streams t _) as [ns1 ss1] eqn:M. inversion H; subst.
      exact (IH _ _ _ _ _ C N M).
Qed.
Lemma make_streams_len l : forall ss ns ss', make_streams l ss = (ns, ss') ->
  List.length ss <= List.length ss' /\ (exists new, ss' = ss ++ new) /\
  (forall i, In i (map snd ns) -> List.length ss <= i < List.length ss' \/ In i (flat_map (fun na => arg_streams (snd na)) l)).
Proof.
  induction l as [|[name a] t IH]; intros ss ns ss' H; cbn in H.
  - inversion H; subst. split; [auto|split]; [exists []; now rewrite app_nil_r|intros i []].
  - destruct a as [z|k|i].
    1,2: destruct (make_streams t _) as [ns1 ss1] eqn:M; inversion H; subst;
      destruct (IH _ _ _ M) as (L & (new & ->) & B); rewrite !app_length in *; cbn in *;
      repeat split; [lia|eexists; now rewrite <- app_assoc|];
      intros j [<-|J]; [left; lia|]; destruct (B j J) as [I|I]; [left; lia|now right].
    destruct (make_streams t _) as [ns1 ss1] eqn:M; inversion H; subst.
    destruct (IH _ _ _ M) as (L & X & B). repeat split; auto.
    intros j [<-|J]; cbn; [right; now left|]. destruct (B j J) as [I|I]; [now left|right; now right].
Qed.
Lemma dict_of_incl {A} (l : list (string * A)) kv : In kv (dict_of l) -> In kv l.
Proof.
  unfold dict_of.
  assert (G : forall l d, In kv (dupdate d l) -> In kv l \/ In kv d).
  { induction l0 as [|[k v] l0 IH]; intros d I; [now right|]. rewrite dupdate_cons in I. cbn [fst snd] in I.
    apply IH in I as [I|I]; [left; now right|].
    assert (Q : In kv (dset k v d) -> kv = (k, v) \/ In kv d).
    { clear. induction d as [|[k' v'] d IHd]; cbn; [intros [<-|[]]; auto|].
      destruct (String.eqb_spec k k') as [->|D]; cbn; intros [<-|I]; auto. apply IHd in I as [I|I]; auto. }
    apply Q in I as [->|I]; [left; now left|now right]. }
  intros I. apply G in I as [I|[]]. exact I.
Qed.
Lemma call_args_streams p rs i :
  In i (flat_map (fun na => arg_streams (snd na)) (call_args p rs)) ->
  forall n, args_exist n (match p with Some a => ("params", a) :: rs | None => rs end) = true -> i < n.
Proof.
  intros I n E. unfold args_exist in E. rewrite forallb_forall in E.
  apply in_flat_map in I as ([nm a] & I & J). cbn in J.
  assert (I' : exists nm', In (nm', a) (match p with Some a => ("params", a) :: rs | None => rs end)).
  { destruct p as [q|]; cbn [call_args] in I; [|eauto].
    assert (Q : forall d, In (nm, a) (dset "params" q d) -> a = q \/ In (nm, a) d).
    { clear. induction d as [|[k v] d IH]; cbn [dset In]; [intros [H|[]]; inversion H; auto|].
      destruct (String.eqb "params" k); cbn [In]; intros [H|H]; try (inversion H; auto; fail); auto.
      destruct (IH H); auto. }
    destruct (Q _ I) as [->|Q']; [exists "params"; now left|exists nm; now right]. }
  destruct I' as [nm' I']. specialize (E _ I'). cbn in E. destruct a; cbn in J; try contradiction.
  destruct J as [<-|[]]. now apply Nat.ltb_lt.
Qed.

Lemma in_list_set_len {A} i (x : A) l : List.length (list_set i x l) = List.length l.
Proof. apply list_set_length. Qed.

Lemma cinv_step w M R L o :
  cinv w M R L ->
  NoDup (R ++ op_roots o) ->
  (forall i, o = OMerge i -> ~ In i M) ->
  exists M', cinv (fst (crun1 zero_hash w o)) M' (R ++ op_roots o) (tok w o ++ L) /\
    (forall i, In i M' -> In i M \/ o = OMerge i).
Proof.
  intros [C B N X] ND FM.
  assert (RT : op_roots o = [] -> R ++ op_roots o = R) by (intros ->; apply app_nil_r).
  destruct o as [p fl rs|c name|c|c|i|t].
  - cbn [crun1 tok app op_roots] in *. exists M. split; [|auto].
    destruct (args_exist _ _) eqn:AE.
    2:{ constructor; auto. eapply core_roots; [|exact C]. intros k K. apply in_or_app. now left. }
    unfold new_context. change (match p with Some p0 => dset "params" p0 rs | None => rs end) with (call_args p rs).
    destruct (make_streams (call_args p rs) (cw_streams w)) as [ns ss] eqn:MS.
    destruct (make_streams_spec _ _ _ _ _ _ C ND MS) as [C1 L1].
    destruct (make_streams_len _ _ _ _ MS) as (_ & _ & BB).
    constructor; cbn [fst cw_streams cw_ctxs cw_pures add_ctx set_streams]; auto.
    + intros x I. apply in_app_or in I as [I|[<-|[]]]; auto. apply NoDup_keys_dict_of.
    + intros x i I J. apply in_app_or in I as [I|[<-|[]]].
      * specialize (X x i I J). lia.
      * unfold ctx_streams in J. cbn [x_rngs] in J. apply in_map_iff in J as ([nm j] & E & J). cbn in E. subst j.
        apply dict_of_incl in J. apply (in_map snd) in J. cbn [snd] in J. apply BB in J as [J|J]; [lia|].
        pose proof (call_args_streams p rs i J _ AE). lia.
  - rewrite (RT eq_refl). exists M. split; [|auto]. cbn [crun1 tok].
    destruct (nth_error (cw_ctxs w) c) as [x|] eqn:EX; [|now constructor].
    unfold make_rng. destruct (dget name (x_rngs x)) as [i|]; [|now constructor].
    destruct (negb _); [now constructor|].
    destruct (nth_error (cw_streams w) i) as [s|] eqn:ES; [|now constructor].
    constructor; cbn [fst cw_streams cw_ctxs cw_pures set_streams]; auto.
    + eapply core_perm; [|apply core_use; [exact C|exact ES]]. cbn [app]. apply Permutation_middle.
    + intros y j I J. rewrite list_set_length. eauto.
  - rewrite (RT eq_refl). exists M. split; [|auto]. cbn [crun1 tok app].
    destruct (nth_error (cw_ctxs w) c) as [x|] eqn:EX; [|now constructor].
    apply nth_error_In in EX.
    constructor; cbn [fst cw_streams cw_ctxs cw_pures add_ctx]; auto.
    + intros y I. apply in_app_or in I as [I|[<-|[]]]; auto. apply (N x EX).
    + intros y i I J. apply in_app_or in I as [I|[<-|[]]]; eauto.
  - rewrite (RT eq_refl). exists M. split; [|auto]. cbn [crun1 tok app].
    destruct (nth_error (cw_ctxs w) c) as [x|] eqn:EX; [|now constructor].
    apply nth_error_In in EX.
    unfold context_partition. destruct (negb _); [now constructor|].
    destruct (fork_all_ok (x_rngs x) (cw_streams w)) as (fs & ss' & F).
    { intros i I. eapply X; eauto. }
    rewrite F. cbn [rmap]. destruct (fork_all_core _ _ _ _ _ _ C F) as [C1 K].
    apply fork_all_len in F.
    constructor; cbn [fst cw_streams cw_ctxs cw_pures add_pure set_streams]; auto.
    + rewrite pend_app.
      2:{ cbn. intros I. apply B in I. lia. }
      rewrite pents_forks by (rewrite K; auto).
      eapply core_perm; [|exact C1]. rewrite <- app_assoc. apply Permutation_app_swap_app.
    + intros i I. rewrite app_length. apply B in I. lia.
    + intros y i I J. rewrite F. eauto.
  - rewrite (RT eq_refl). cbn [crun1 tok app].
    destruct (nth_error (cw_pures w) i) as [p|] eqn:EP.
    2:{ exists M. split; [now constructor|auto]. }
    unfold pctx_merge. destruct (merge_streams _ _ _) as [[ns ss']|e] eqn:MS; cbn [rbind].
    2:{ exists M. split; [now constructor|auto]. }
    exists (i :: M). split; [|intros j [<-|J]; auto].
    destruct (merge_streams_spec _ _ _ _ _ MS) as (new & -> & S1 & BB & K & _).
    constructor; cbn [fst cw_streams cw_ctxs cw_pures add_ctx set_streams].
    + apply (core_merge _ (pents p)).
      * eapply core_perm; [|exact C].
        pose proof (pend_remove M i (cw_pures w) p 0 EP) as P. cbn [Nat.add] in P.
        rewrite app_assoc. apply Permutation_app_tail. apply P. auto.
      * exact S1.
    + intros j [<-|J]; auto. apply nth_error_Some. congruence.
    + intros x I. apply in_app_or in I as [I|[<-|[]]]; auto. apply NoDup_keys_dict_of.
    + intros x j I J. apply in_app_or in I as [I|[<-|[]]].
      * specialize (X x j I J). rewrite app_length. lia.
      * unfold ctx_streams in J. cbn [x_rngs] in J. apply in_map_iff in J as ([nm q] & E & J). cbn in E. subst q.
        apply dict_of_incl in J. apply (in_map snd) in J. cbn [snd] in J. apply BB in J. lia.
  - rewrite (RT eq_refl). exists M. split; [now constructor|auto].
Qed.

Lemma toks_nodup ops : forall w M R L, cinv w M R L ->
  NoDup (R ++ root_keys ops) -> NoDup (merges ops) -> (forall i, In i (merges ops) -> ~ In i M) ->
  NoDup (L ++ toks w ops).
Proof.
  induction ops as [|o t IH]; intros w M R L I ND NM FM.
  - cbn [toks]. rewrite app_nil_r. destruct I as [[N _ _] _ _ _]. apply NoDup_app_r in N. now apply NoDup_app_r in N.
  - cbn [root_keys flat_map] in ND. fold (root_keys t) in ND.
    destruct (cinv_step w M R L o I) as (M' & I' & FM').
    { rewrite app_assoc in ND. now apply NoDup_app_l in ND. }
    { intros i ->. apply FM. cbn. now left. }
    cbn [toks].
    assert (P : Permutation ((tok w o ++ L) ++ toks (fst (crun1 zero_hash w o)) t) (L ++ tok w o ++ toks (fst (crun1 zero_hash w o)) t)).
    { rewrite <- app_assoc. apply Permutation_app_swap_app. }
    eapply Permutation_NoDup; [exact P|].
    apply (IH _ M' (R ++ op_roots o)); auto.
    + now rewrite <- app_assoc.
    + destruct o; cbn in NM; auto. now inversion NM.
    + intros i Hi J. apply FM' in J as [J|J].
      * apply (FM i); [|exact J]. unfold merges in Hi |- *. cbn [flat_map]. apply in_or_app. now right.
      * subst o. cbn in NM. inversion NM; contradiction.
Qed.

Theorem derivations_fresh t ops :
  NoDup (root_keys ops) -> NoDup (merges ops) ->
  exists T : list (key * counts), NoDup T /\
    forall blake, drawn (snd (crun blake (cstart t) ops)) =
                  map (fun kp => KFold (fst kp) (stable_hash blake (snd kp))) T.
Proof.
  intros NR NM. exists (toks (cstart t) ops). split.
  - apply (toks_nodup ops (cstart t) [] [] []); auto.
    constructor; cbn; try contradiction. constructor; cbn; [constructor|contradiction|contradiction].
  - intros blake. apply drawn_toks.
Qed.
Theorem keys_distinct blake t ops :
  (forall a b, blake a = blake b -> a = b) ->
  NoDup (root_keys ops) -> NoDup (merges ops) ->
  NoDup (drawn (snd (crun blake (cstart t) ops))).
Proof.
  intros INJ NR NM. destruct (derivations_fresh t ops NR NM) as (T & NT & ->).
  apply FinFun.Injective_map_NoDup; [|exact NT].
  intros [k p] [k' p'] E. cbn in E. inversion E as [[E1 E2]]. apply INJ in E2. apply hash_str_inj in E2. congruence.
Qed.

(** ** Isolation: a simulation between a full history and its family part *)

Lemma Forall2_imp {A B} (P P' : A -> B -> Prop) l m : (forall a b, P a b -> P' a b) -> Forall2 P l m -> Forall2 P' l m.
Proof. intros H F. induction F; constructor; auto. Qed.

Definition ctx_rel (Q : nat -> nat -> Prop) (a b : context) : Prop :=
  Forall2 (fun p q => fst p = fst q /\ Q (snd p) (snd q)) (x_rngs a) (x_rngs b) /\
  x_flags a = x_flags b /\ x_trace a = x_trace b.

Record csim (Q : nat -> nat -> Prop) (mem : list nat) (a b : cworld) : Prop := mkCsim {
  cs_trace : cw_trace a = cw_trace b;
  cs_len : List.length mem = List.length (cw_ctxs b);
  cs_nd : NoDup mem;
  cs_ctx : forall j c, nth_error mem j = Some c -> exists xa xb,
     nth_error (cw_ctxs a) c = Some xa /\ nth_error (cw_ctxs b) j = Some xb /\ ctx_rel Q xa xb;
  cs_stream : forall i j, Q i j -> exists s, nth_error (cw_streams a) i = Some s /\ nth_error (cw_streams b) j = Some s;
  cs_fun : forall i j j', Q i j -> Q i j' -> j = j';
  cs_inj : forall i i' j, Q i j -> Q i' j -> i = i';
  cs_out : forall c x i j, ~ In c mem -> nth_error (cw_ctxs a) c = Some x -> In i (ctx_streams x) -> ~ Q i j }.

Lemma dget_rel (Q : nat -> nat -> Prop) name d : forall e,
  Forall2 (fun p q : string * nat => fst p = fst q /\ Q (snd p) (snd q)) d e ->
  match dget name d, dget name e with
  | Some i, Some j => Q i j
  | None, None => True
  | _, _ => False
  end.
Proof.
  induction d as [|[k i] d IH]; intros e F; inversion F as [|p [k' j] d' e' [E1 E2] F']; subst; cbn; auto.
  cbn in E1, E2. subst k'. destruct (String.eqb name k); [exact E2|exact (IH _ F')].
Qed.

Definition same_streams (Q : nat -> nat -> Prop) (sa sb : list stream) : Prop :=
  forall i j, Q i j -> exists s, nth_error sa i = Some s /\ nth_error sb j = Some s.

Lemma same_bump (Q : nat -> nat -> Prop) sa sb i j s :
  (forall i j j', Q i j -> Q i j' -> j = j') -> (forall i i' j, Q i j -> Q i' j -> i = i') ->
  same_streams Q sa sb -> Q i j -> nth_error sa i = Some s ->
  same_streams Q (list_set i (bump s) sa) (list_set j (bump s) sb).
Proof.
  intros FU IN S q E i' j' q'.
  destruct (S _ _ q) as (s1 & A1 & B1). destruct (S _ _ q') as (s' & A & B).
  destruct (Nat.eq_dec i i') as [<-|D].
  - assert (j = j') by (eapply FU; eauto). subst j'. exists (bump s).
    split; apply nth_list_set_same; apply nth_error_Some; congruence.
  - assert (j <> j') by (intros <-; apply D; eapply IN; eauto).
    exists s'. rewrite !nth_list_set_other; auto.
Qed.
Lemma same_bump_out (Q : nat -> nat -> Prop) sa sb i s :
  same_streams Q sa sb -> (forall j, ~ Q i j) -> same_streams Q (list_set i s sa) sb.
Proof.
  intros S O i' j' q'. destruct (S _ _ q') as (s' & A & B). exists s'. split; auto.
  rewrite nth_list_set_other; auto. intros ->. exact (O _ q').
Qed.
Lemma same_app (Q : nat -> nat -> Prop) sa sb new : same_streams Q sa sb -> same_streams Q (sa ++ new) sb.
Proof.
  intros S i j q. destruct (S i j q) as (s & A & B). exists s. split; auto.
  rewrite nth_error_app1; auto. apply nth_error_Some. congruence.
Qed.

Lemma fork_all_rel (Q : nat -> nat -> Prop) :
  (forall i j j', Q i j -> Q i j' -> j = j') -> (forall i i' j, Q i j -> Q i' j -> i = i') ->
  forall d e sa sb, Forall2 (fun p q : string * nat => fst p = fst q /\ Q (snd p) (snd q)) d e ->
  same_streams Q sa sb ->
  fst (fork_all d sa) = fst (fork_all e sb) /\ same_streams Q (snd (fork_all d sa)) (snd (fork_all e sb)) /\
  exists fs, fst (fork_all d sa) = Ok fs.
Proof.
  intros FU IN. induction d as [|[k i] d IH]; intros e sa sb F S;
    inversion F as [|p [k' j] d' e' [E1 E2] F']; subst; cbn [fork_all].
  - cbn. eauto.
  - cbn in E1, E2. subst k'. destruct (S _ _ E2) as (s & A & B). rewrite A, B.
    destruct (IH e' (list_set i (bump s) sa) (list_set j (bump s) sb) F') as (X1 & X2 & fs & X3).
    { eapply same_bump; eauto. }
    destruct (fork_all d _) as [ra sa']. destruct (fork_all e' _) as [rb sb']. cbn in *. subst rb.
    rewrite X3. cbn. eauto.
Qed.
Lemma fork_all_out (Q : nat -> nat -> Prop) items : forall sa sb,
  (forall i j, In i (map snd items) -> ~ Q i j) -> same_streams Q sa sb ->
  same_streams Q (snd (fork_all items sa)) sb.
Proof.
  induction items as [|[k i] t IH]; intros sa sb O S; cbn [fork_all]; auto.
  destruct (nth_error sa i) as [s|]; auto.
  specialize (IH (list_set i (bump s) sa) sb). destruct (fork_all t _) as [r ss']. cbn in *.
  apply IH; auto. apply same_bump_out; auto.
Qed.

Lemma trace_rel (Q : nat -> nat -> Prop) xa xb : ctx_rel Q xa xb -> x_trace xa = x_trace xb.
Proof. now intros (_ & _ & H). Qed.

Lemma nth_app_old {A} (l : list A) x c y : nth_error l c = Some y -> nth_error (l ++ [x]) c = Some y.
Proof. intros H. rewrite nth_error_app1; auto. apply nth_error_Some. congruence. Qed.
Lemma nth_app_inv {A} (l : list A) x c y : nth_error (l ++ [x]) c = Some y ->
  nth_error l c = Some y \/ c = List.length l /\ y = x.
Proof.
  intros H. destruct (Nat.lt_ge_cases c (List.length l)) as [L|L].
  - left. now rewrite nth_error_app1 in H.
  - right. rewrite nth_error_app2 in H by exact L. remember (c - List.length l) as n eqn:E.
    destruct n as [|n]; cbn in H; [|destruct n; discriminate]. inversion H. split; [lia|auto].
Qed.

Section family.
Variables (blake : string -> nat) (Q : nat -> nat -> Prop).

Lemma csim_streams mem a b sa sb : csim Q mem a b -> same_streams Q sa sb ->
  csim Q mem (set_streams a sa) (set_streams b sb).
Proof. intros [T L N C S F I O] SS. now constructor. Qed.
Lemma csim_streams_l mem a b sa : csim Q mem a b -> same_streams Q sa (cw_streams b) ->
  csim Q mem (set_streams a sa) b.
Proof. intros [T L N C S F I O] SS. now constructor. Qed.
Lemma csim_pure_l mem a b p : csim Q mem a b -> csim Q mem (add_pure a p) b.
Proof. intros [T L N C S F I O]. now constructor. Qed.
Lemma csim_pure_r mem a b p : csim Q mem a b -> csim Q mem a (add_pure b p).
Proof. intros [T L N C S F I O]. now constructor. Qed.
Lemma mem_lt mem a b c : csim Q mem a b -> In c mem -> c < List.length (cw_ctxs a).
Proof.
  intros H I. apply In_nth_error in I as [j J]. destruct (cs_ctx _ _ _ _ H _ _ J) as (xa & xb & A & _).
  apply nth_error_Some. congruence.
Qed.
Lemma csim_ctx_l mem a b x : csim Q mem a b -> (forall i j, In i (ctx_streams x) -> ~ Q i j) ->
  csim Q mem (add_ctx a x) b.
Proof.
  intros H OX. pose proof H as [T L N C S F I O]. constructor; auto.
  - intros j c J. destruct (C j c J) as (xa & xb & A & B & R). exists xa, xb. repeat split; auto; try apply R.
    cbn. now apply nth_app_old.
  - intros c y i j NM NC IY. cbn in NC. apply nth_app_inv in NC as [NC|[-> ->]]; eauto.
Qed.
Lemma csim_copy mem a b j c xa xb : csim Q mem a b -> nth_error mem j = Some c ->
  nth_error (cw_ctxs a) c = Some xa -> nth_error (cw_ctxs b) j = Some xb -> ctx_rel Q xa xb ->
  csim Q (mem ++ [List.length (cw_ctxs a)]) (add_ctx a (context_copy (cw_trace a) xa))
                                            (add_ctx b (context_copy (cw_trace b) xb)).
Proof.
  intros H J A B R. pose proof H as [T L N C S F I O].
  constructor; auto.
  - cbn. rewrite !app_length. cbn. now rewrite L.
  - apply NoDup_app_intro; auto; [repeat constructor; intros []|].
    intros y Y [<-|[]]. apply (mem_lt _ _ _ _ H) in Y. lia.
  - intros j' c' J'. apply nth_app_inv in J' as [J'|[-> ->]].
    + destruct (C _ _ J') as (ya & yb & A' & B' & R'). exists ya, yb. cbn.
      repeat split; try apply R'; now apply nth_app_old.
    + exists (context_copy (cw_trace a) xa), (context_copy (cw_trace b) xb). cbn. repeat split.
      * rewrite nth_error_app2, Nat.sub_diag by lia. reflexivity.
      * rewrite L, nth_error_app2, Nat.sub_diag by lia. reflexivity.
      * apply R.
      * apply R.
      * exact T.
  - intros c' y i' j' NM NC IY. cbn in NC. apply nth_app_inv in NC as [NC|[-> ->]].
    + eapply O; eauto. intros K. apply NM. apply in_or_app. now left.
    + exfalso. apply NM. apply in_or_app. right. now left.
Qed.

Lemma family_run ops : forall mem a b, csim Q mem a b ->
  (forall i j, In i (passed_streams ops) -> ~ Q i j) ->
  family_outs blake a mem ops = snd (crun blake b (family_ops blake a mem ops)).
Proof.
  induction ops as [|o t IH]; intros mem a b H P; [reflexivity|].
  assert (Pt : forall i j, In i (passed_streams t) -> ~ Q i j).
  { intros i j I. apply P. unfold passed_streams in *. cbn [flat_map]. apply in_or_app. now right. }
  cbn [family_outs family_ops]. destruct o as [p fl rs|c name|c|c|i|tr].
  - apply IH; auto. cbn [crun1]. destruct (args_exist _ _); [|exact H].
    unfold new_context. change (match p with Some p0 => dset "params" p0 rs | None => rs end) with (call_args p rs).
    destruct (make_streams (call_args p rs) (cw_streams a)) as [ns ss] eqn:MS. cbn [fst].
    destruct (make_streams_len _ _ _ _ MS) as (_ & (new & ->) & BB).
    apply csim_ctx_l.
    + apply csim_streams_l; auto. apply same_app. exact (cs_stream _ _ _ _ H).
    + intros i j I q. unfold ctx_streams in I. cbn [x_rngs] in I. apply in_map_iff in I as ([nm k] & E & I). cbn in E. subst k.
      apply dict_of_incl in I. apply (in_map snd) in I. cbn [snd] in I. apply BB in I as [I|I].
      * destruct (cs_stream _ _ _ _ H _ _ q) as (s & A & _).
        assert (i < List.length (cw_streams a)) by (apply nth_error_Some; congruence). lia.
      * apply (P i j); [|exact q]. unfold passed_streams. cbn [flat_map]. apply in_or_app. now left.
  - destruct (index_of c mem) as [j|] eqn:IX.
    + apply index_of_Some in IX. destruct (cs_ctx _ _ _ _ H _ _ IX) as (xa & xb & A & B & R).
      rewrite crun_cons. cbn [snd].
      assert (G : snd (crun1 blake a (ODraw c name)) = snd (crun1 blake b (ODraw j name)) /\
                  csim Q mem (fst (crun1 blake a (ODraw c name))) (fst (crun1 blake b (ODraw j name)))).
      { cbn [crun1]. rewrite A, B. unfold make_rng.
        pose proof (dget_rel Q name _ _ (proj1 R)) as D.
        destruct (dget name (x_rngs xa)) as [i|], (dget name (x_rngs xb)) as [k|]; try contradiction.
        2:{ cbn. split; auto. apply csim_streams; [exact H|exact (cs_stream _ _ _ _ H)]. }
        rewrite <- (cs_trace _ _ _ _ H), <- (trace_rel _ _ _ R).
        destruct (negb _).
        { cbn. split; auto. apply csim_streams; [exact H|exact (cs_stream _ _ _ _ H)]. }
        destruct (cs_stream _ _ _ _ H _ _ D) as (s & SA & SB). rewrite SA, SB. cbn. split; auto.
        apply csim_streams; auto. exact (same_bump Q _ _ _ _ _ (cs_fun _ _ _ _ H) (cs_inj _ _ _ _ H) (cs_stream _ _ _ _ H) D SA). }
      destruct G as [-> G]. f_equal. now apply IH.
    + apply IH; auto. apply index_of_None in IX. cbn [crun1].
      destruct (nth_error (cw_ctxs a) c) as [x|] eqn:A; [|exact H].
      unfold make_rng. destruct (dget name (x_rngs x)) as [i|] eqn:D.
      2:{ apply csim_streams_l; [exact H|exact (cs_stream _ _ _ _ H)]. }
      destruct (negb _). { apply csim_streams_l; [exact H|exact (cs_stream _ _ _ _ H)]. }
      destruct (nth_error (cw_streams a) i) as [s|]; cbn [fst]; apply csim_streams_l; auto; try exact (cs_stream _ _ _ _ H).
      apply same_bump_out; [exact (cs_stream _ _ _ _ H)|]. intros j.
      eapply (cs_out _ _ _ _ H); eauto. apply dget_In in D. now apply (in_map snd) in D.
  - destruct (index_of c mem) as [j|] eqn:IX.
    + apply index_of_Some in IX. destruct (cs_ctx _ _ _ _ H _ _ IX) as (xa & xb & A & B & R).
      rewrite crun_cons. cbn [snd]. cbn [crun1]. rewrite A, B. cbn [fst snd]. f_equal.
      apply IH; auto. eapply csim_copy; eauto.
    + apply IH; auto. apply index_of_None in IX. cbn [crun1].
      destruct (nth_error (cw_ctxs a) c) as [x|] eqn:A; [|exact H]. cbn [fst].
      apply csim_ctx_l; auto. intros i j I. eapply (cs_out _ _ _ _ H); eauto.
  - destruct (index_of c mem) as [j|] eqn:IX.
    + apply index_of_Some in IX. destruct (cs_ctx _ _ _ _ H _ _ IX) as (xa & xb & A & B & R).
      rewrite crun_cons. cbn [snd].
      assert (G : snd (crun1 blake a (OPart c)) = snd (crun1 blake b (OPart j)) /\
                  csim Q mem (fst (crun1 blake a (OPart c))) (fst (crun1 blake b (OPart j)))).
      { cbn [crun1]. rewrite A, B. unfold context_partition.
        rewrite <- (cs_trace _ _ _ _ H), <- (trace_rel _ _ _ R).
        destruct (negb _).
        { cbn. split; auto. apply csim_streams; [exact H|exact (cs_stream _ _ _ _ H)]. }
        destruct (fork_all_rel Q (cs_fun _ _ _ _ H) (cs_inj _ _ _ _ H) _ _ _ _ (proj1 R) (cs_stream _ _ _ _ H))
          as (X1 & X2 & fs & X3).
        destruct (fork_all (x_rngs xa) _) as [ra sa]. destruct (fork_all (x_rngs xb) _) as [rb sb]. cbn [fst snd] in *.
        subst rb ra. cbn. split; auto. apply csim_pure_l, csim_pure_r, csim_streams; auto. }
      destruct G as [-> G]. f_equal. now apply IH.
    + apply IH; auto. apply index_of_None in IX. cbn [crun1].
      destruct (nth_error (cw_ctxs a) c) as [x|] eqn:A; [|exact H].
      unfold context_partition. destruct (negb _). { apply csim_streams_l; [exact H|exact (cs_stream _ _ _ _ H)]. }
      pose proof (fork_all_out Q (x_rngs x) (cw_streams a) (cw_streams b)) as FO.
      destruct (fork_all (x_rngs x) _) as [[fs|e] ss]; cbn [fst snd rmap] in *; [apply csim_pure_l|];
        apply csim_streams_l; auto; apply FO; try exact (cs_stream _ _ _ _ H);
        intros i j I; eapply (cs_out _ _ _ _ H); eauto.
  - apply IH; auto. cbn [crun1]. destruct (nth_error (cw_pures a) i) as [p|]; [|exact H].
    unfold pctx_merge. destruct (merge_streams _ _ _) as [[ns ss]|e] eqn:MS; [|exact H]. cbn [rbind fst].
    destruct (merge_streams_spec _ _ _ _ _ MS) as (new & -> & _ & BB & _).
    apply csim_ctx_l.
    + apply csim_streams_l; auto. apply same_app. exact (cs_stream _ _ _ _ H).
    + intros k j I q. unfold ctx_streams in I. cbn [x_rngs] in I. apply in_map_iff in I as ([nm k'] & E & I). cbn in E. subst k'.
      apply dict_of_incl in I. apply (in_map snd) in I. cbn [snd] in I. apply BB in I.
      destruct (cs_stream _ _ _ _ H _ _ q) as (s & A & _).
      assert (k < List.length (cw_streams a)) by (apply nth_error_Some; congruence). lia.
  - rewrite crun_cons. cbn [crun1 fst snd]. f_equal. apply IH; auto.
    destruct H as [T L N C S F I O]. now constructor.
Qed.
End family.

(** every context of a reachable world refers to existing streams *)
Definition ctxs_ok (w : cworld) : Prop :=
  forall x i, In x (cw_ctxs w) -> In i (ctx_streams x) -> i < List.length (cw_streams w).
Lemma ctxs_ok_step b w o : ctxs_ok w -> ctxs_ok (fst (crun1 b w o)).
Proof.
  intros H.
  assert (GROW : forall ss, List.length ss = List.length (cw_streams w) -> ctxs_ok (set_streams w ss)).
  { intros ss L x i X I. cbn. rewrite L. eapply H; eauto. }
  destruct o as [p fl rs|c name|c|c|i|t]; cbn [crun1].
  - destruct (args_exist _ _) eqn:AE; [|exact H].
    unfold new_context. change (match p with Some p0 => dset "params" p0 rs | None => rs end) with (call_args p rs).
    destruct (make_streams (call_args p rs) (cw_streams w)) as [ns ss] eqn:MS.
    destruct (make_streams_len _ _ _ _ MS) as (LE & _ & BB).
    intros x i X I. cbn in X |- *. apply in_app_or in X as [X|[<-|[]]].
    + specialize (H x i X I). lia.
    + unfold ctx_streams in I. cbn [x_rngs] in I. apply in_map_iff in I as ([nm k] & E & I). cbn in E. subst k.
      apply dict_of_incl in I. apply (in_map snd) in I. cbn [snd] in I. apply BB in I as [I|I]; [lia|].
      pose proof (call_args_streams p rs i I _ AE). lia.
  - destruct (nth_error (cw_ctxs w) c) as [x|]; [|exact H].
    unfold make_rng. destruct (dget name (x_rngs x)) as [i|]; [|now apply GROW].
    destruct (negb _); [now apply GROW|].
    destruct (nth_error (cw_streams w) i); apply GROW; auto. apply list_set_length.
  - destruct (nth_error (cw_ctxs w) c) as [x|] eqn:E; [|exact H]. apply nth_error_In in E.
    intros y i Y I. cbn in Y |- *. apply in_app_or in Y as [Y|[<-|[]]]; eapply H; eauto.
  - destruct (nth_error (cw_ctxs w) c) as [x|]; [|exact H].
    unfold context_partition. destruct (negb _); [now apply GROW|].
    destruct (fork_all (x_rngs x) _) as [[fs|e] ss] eqn:F; apply fork_all_len in F; cbn [rmap fst]; [|now apply GROW].
    intros y i Y I. cbn in Y |- *. rewrite F. eapply H; eauto.
  - destruct (nth_error (cw_pures w) i) as [p|]; [|exact H].
    unfold pctx_merge. destruct (merge_streams _ _ _) as [[ns ss]|e] eqn:MS; [|exact H]. cbn [rbind fst].
    destruct (merge_streams_spec _ _ _ _ _ MS) as (new & -> & _ & BB & _).
    intros x k X I. cbn in X |- *. apply in_app_or in X as [X|[<-|[]]].
    + specialize (H x k X I). rewrite app_length. lia.
    + unfold ctx_streams in I. cbn [x_rngs] in I. apply in_map_iff in I as ([nm k'] & E & I). cbn in E. subst k'.
      apply dict_of_incl in I. apply (in_map snd) in I. cbn [snd] in I. apply BB in I. lia.
  - exact H.
Qed.
Lemma ctxs_ok_run b ops : forall w, ctxs_ok w -> ctxs_ok (fst (crun b w ops)).
Proof.
  induction ops as [|o t IH]; intros w H; [exact H|]. rewrite crun_cons. cbn [fst]. apply IH. now apply ctxs_ok_step.
Qed.
Lemma ctxs_ok_start t : ctxs_ok (cstart t).
Proof. intros x i []. Qed.

(** *** a family in a reachable world *)
Lemma flat_only w mem : (forall c, In c mem -> c < List.length (cw_ctxs w)) ->
  forall j c, nth_error mem j = Some c -> nth_error (cw_ctxs (only w mem)) j = nth_error (cw_ctxs w) c.
Proof.
  cbn. induction mem as [|m mem IH]; intros B [|j] c J; try discriminate; cbn in J |- *.
  - inversion J; subst. destruct (nth_error (cw_ctxs w) c) as [x|] eqn:E; [reflexivity|].
    apply nth_error_None in E. specialize (B c (or_introl eq_refl)). lia.
  - destruct (nth_error (cw_ctxs w) m) as [x|] eqn:E; [cbn; apply IH; auto; intros; apply B; now right|].
    apply nth_error_None in E. specialize (B m (or_introl eq_refl)). lia.
Qed.
Lemma only_len w mem : (forall c, In c mem -> c < List.length (cw_ctxs w)) ->
  List.length mem = List.length (cw_ctxs (only w mem)).
Proof.
  cbn. induction mem as [|m mem IH]; intros B; [reflexivity|]. cbn.
  destruct (nth_error (cw_ctxs w) m) as [x|] eqn:E.
  - cbn. rewrite <- IH; auto. intros; apply B; now right.
  - apply nth_error_None in E. specialize (B m (or_introl eq_refl)). lia.
Qed.
Theorem family_isolated blake w mem ops :
  ctxs_ok w -> NoDup mem -> (forall c, In c mem -> c < List.length (cw_ctxs w)) -> separate w mem ->
  (forall i, In i (passed_streams ops) -> ~ In i (streams_of w mem)) ->
  family_outs blake w mem ops = snd (crun blake (only w mem) (family_ops blake w mem ops)).
Proof.
  intros OK N B SEP P.
  apply (family_run blake (fun i j => i = j /\ In i (streams_of w mem))).
  - constructor; auto.
    + now apply only_len.
    + intros j c J. pose proof (flat_only w mem B j c J) as E.
      assert (C : c < List.length (cw_ctxs w)) by (apply B; now apply nth_error_In in J).
      destruct (nth_error (cw_ctxs w) c) as [x|] eqn:X; [|apply nth_error_None in X; lia].
      exists x, x. repeat split; auto. apply nth_error_In in J.
      assert (IN : forall i, In i (map snd (x_rngs x)) -> In i (streams_of w mem)).
      { intros i I. unfold streams_of. apply in_flat_map. exists c. rewrite X. auto. }
      clear -IN. revert IN. generalize (streams_of w mem). intros S.
      induction (x_rngs x) as [|[n i] d IH]; intros IN; constructor.
      * cbn. split; auto. split; auto. apply IN. now left.
      * apply IH. intros k K. apply IN. now right.
    + intros i j [<- I]. cbn. unfold streams_of in I. apply in_flat_map in I as (c & C & I).
      destruct (nth_error (cw_ctxs w) c) as [x|] eqn:X; [|contradiction]. apply nth_error_In in X.
      specialize (OK x i X I). destruct (nth_error (cw_streams w) i) as [s|] eqn:E; [eauto|].
      apply nth_error_None in E. lia.
    + intros i j j' [<- _] [<- _]. reflexivity.
    + intros i i' j [-> _] [-> _]. reflexivity.
    + intros c x i j NM X I [<- J]. exact (SEP c x i NM X I J).
  - intros i j I [<- J]. exact (P i I J).
Qed.

(** *** a merged context is determined by its pure context *)
Lemma merge_shift ks l : forall sa sb na sa', merge_streams ks l sa = Ok (na, sa') ->
  exists nb sb', merge_streams ks l sb = Ok (nb, sb') /\
    (exists new, sa' = sa ++ new /\ sb' = sb ++ new) /\
    Forall2 (fun p q : string * nat => fst p = fst q /\
       exists d, snd p = List.length sa + d /\ snd q = List.length sb + d /\ snd p < List.length sa') na nb.
Proof.
  induction l as [|[name path] t IH]; intros sa sb na sa' H; cbn in H |- *.
  - inversion H; subst. exists [], sb. split; auto. split; [exists []; rewrite !app_nil_r; auto|constructor].
  - destruct (dget name ks) as [k|]; [|discriminate].
    destruct (merge_streams ks t (sa ++ _)) as [[na1 sa1]|e] eqn:M; [|discriminate]. cbn in H. inversion H; subst.
    destruct (IH _ (sb ++ [mkStream k 0 path]) _ _ M) as (nb & sb' & M2 & (new & -> & ->) & F).
    rewrite M2. cbn. exists ((name, List.length sb) :: nb), ((sb ++ [mkStream k 0 path]) ++ new).
    split; auto. split; [exists (mkStream k 0 path :: new); rewrite <- !app_assoc; auto|].
    constructor.
    + cbn. split; auto. exists 0. rewrite !app_length. cbn. lia.
    + eapply Forall2_imp; [|exact F]. cbn. intros p q (E & d & D1 & D2 & D3). split; auto.
      rewrite !app_length in *. cbn in *. exists (S d). lia.
Qed.
Lemma dset_Forall2 (P : nat -> nat -> Prop) k i j d : forall e,
  Forall2 (fun p q : string * nat => fst p = fst q /\ P (snd p) (snd q)) d e -> P i j ->
  Forall2 (fun p q : string * nat => fst p = fst q /\ P (snd p) (snd q)) (dset k i d) (dset k j e).
Proof.
  induction d as [|[k1 i1] d IH]; intros e F H; inversion F as [|p [k2 j2] d' e' [E1 E2] F']; subst; cbn.
  - repeat constructor; auto.
  - cbn in E1. subst k2. destruct (String.eqb k k1); constructor; auto.
Qed.
Lemma dict_of_Forall2 (P : nat -> nat -> Prop) a b :
  Forall2 (fun p q : string * nat => fst p = fst q /\ P (snd p) (snd q)) a b ->
  Forall2 (fun p q : string * nat => fst p = fst q /\ P (snd p) (snd q)) (dict_of a) (dict_of b).
Proof.
  unfold dict_of. assert (G : forall d e, Forall2 (fun p q : string * nat => fst p = fst q /\ P (snd p) (snd q)) d e ->
    Forall2 (fun p q : string * nat => fst p = fst q /\ P (snd p) (snd q)) a b ->
    Forall2 (fun p q : string * nat => fst p = fst q /\ P (snd p) (snd q)) (dupdate d a) (dupdate e b)).
  { intros d e D F. revert d e D. induction F as [|[k i] [k' j] a b [E1 E2] F IH]; intros d e D; [exact D|].
    rewrite !dupdate_cons. cbn in *. subst k'. apply IH. now apply dset_Forall2. }
  intros F. apply G; auto.
Qed.
Lemma Forall2_within (P : nat -> nat -> Prop) a b :
  Forall2 (fun p q : string * nat => fst p = fst q /\ P (snd p) (snd q)) a b ->
  Forall2 (fun p q : string * nat => fst p = fst q /\ P (snd p) (snd q) /\ In (snd p) (map snd a)) a b.
Proof.
  assert (G : forall S, (forall i, In i (map snd a) -> In i S) ->
    Forall2 (fun p q : string * nat => fst p = fst q /\ P (snd p) (snd q)) a b ->
    Forall2 (fun p q : string * nat => fst p = fst q /\ P (snd p) (snd q) /\ In (snd p) S) a b).
  { intros S I F. induction F as [|p q a b [E1 E2] F IH]; constructor.
    - repeat split; auto. apply I. now left.
    - apply IH. intros i J. apply I. now right. }
  apply G. auto.
Qed.
Theorem merged_isolated blake w p x ss ops :
  ctxs_ok w -> pctx_merge (cw_trace w) p (cw_streams w) = Ok (x, ss) ->
  (forall i, In i (passed_streams ops) -> ~ In i (ctx_streams x)) ->
  let w1 := add_ctx (set_streams w ss) x in
  let c := List.length (cw_ctxs w) in
  family_outs blake w1 [c] ops = snd (crun blake (alone (cw_trace w) p) (family_ops blake w1 [c] ops)).
Proof.
  intros OK M P w1 c. unfold alone. unfold pctx_merge in *.
  destruct (merge_streams (pc_keys p) (pc_counts p) (cw_streams w)) as [[na sa]|e] eqn:E; [|discriminate].
  cbn in M. inversion M; subst x ss.
  destruct (merge_shift _ _ _ [] _ _ E) as (nb & sb & -> & (new & -> & ->) & F). cbn [rbind].
  set (x := mkCtx (dict_of na) (pc_flags p) (cw_trace w)) in *.
  set (n := List.length (cw_streams w)) in *.
  apply (family_run blake (fun i j => i = n + j /\ i < List.length (cw_streams w ++ new) /\ In i (ctx_streams x))).
  - assert (F2 : Forall2 (fun p q : string * nat => fst p = fst q /\
              (snd p = n + snd q /\ snd p < List.length (cw_streams w ++ new))) na nb).
    { eapply Forall2_imp; [|exact F]. cbn. intros a b (E1 & d & D1 & D2 & D3). repeat split; auto; lia. }
    apply (dict_of_Forall2 (fun i j => i = n + j /\ i < List.length (cw_streams w ++ new))) in F2.
    constructor; auto.
    + repeat constructor. intros [].
    + intros j c' J. destruct j as [|j]; [|destruct j; discriminate]. cbn in J. inversion J; subst c'.
      exists x. eexists. split; [|split; [reflexivity|]].
      * cbn. unfold c. rewrite nth_error_app2, Nat.sub_diag by lia. reflexivity.
      * repeat split; cbn [x_rngs x].
        apply (Forall2_within (fun i j => i = n + j /\ i < List.length (cw_streams w ++ new))) in F2.
        eapply Forall2_imp; [|exact F2]. cbn. intros a b (E1 & (E2 & E3) & E4). repeat split; auto.
    + intros i j (D & L & I). subst i. cbn [cw_streams add_ctx set_streams w1].
      rewrite app_length in L. fold n in L.
      destruct (nth_error new j) as [s|] eqn:EN; [|apply nth_error_None in EN; lia].
      exists s. split; [|exact EN]. rewrite nth_error_app2 by (fold n; lia).
      fold n. replace (n + j - n) with j by lia. exact EN.
    + intros i j j' (A & _) (B & _). lia.
    + intros i i' j (A & _) (B & _). lia.
    + intros c' y i j NM NC IY (D & L & I). cbn in NC. apply nth_app_inv in NC as [NC|[-> ->]].
      * apply nth_error_In in NC. specialize (OK y i NC IY). fold n in OK. lia.
      * apply NM. now left.
  - intros i j I (_ & _ & J). exact (P i I J).
Qed.

(** ** Counters *)

Definition step_uses (blake : string -> nat) (i : nat) (w : cworld) (o : cop) : list (option key) :=
  match o, snd (crun1 blake w o) with
  | ODraw c name, OutKey k =>
      match nth_error (cw_ctxs w) c with
      | Some x => match dget name (x_rngs x) with
                  | Some j => if Nat.eqb i j then [Some k] else []
                  | None => []
                  end
      | None => []
      end
  | OPart c, OutDone =>
      match nth_error (cw_ctxs w) c with
      | Some x => map (fun _ => None) (filter (Nat.eqb i) (ctx_streams x))
      | None => []
      end
  | _, _ => []
  end.
Lemma stream_uses_cons b i w o t :
  stream_uses b i w (o :: t) = step_uses b i w o ++ stream_uses b i (fst (crun1 b w o)) t.
Proof. reflexivity. Qed.

Definition count_to (s : stream) (n : nat) : stream := mkStream (s_key s) (s_count s + n) (s_path s).
Lemma count_to_0 s : count_to s 0 = s.
Proof. destruct s. unfold count_to. cbn. now rewrite Nat.add_0_r. Qed.

Lemma fork_all_count i items : forall ss fs ss' s, fork_all items ss = (Ok fs, ss') -> nth_error ss i = Some s ->
  nth_error ss' i = Some (count_to s (List.length (filter (Nat.eqb i) (map snd items)))).
Proof.
  induction items as [|[n j] t IH]; intros ss fs ss' s F E; cbn in F.
  - inversion F; subst. cbn. now rewrite count_to_0.
  - destruct (nth_error ss j) as [s1|] eqn:J; [|discriminate].
    destruct (fork_all t _) as [[fs1|e] ss1] eqn:F1; [|discriminate]. inversion F; subst.
    cbn [map snd filter]. destruct (Nat.eqb_spec i j) as [<-|D].
    + rewrite E in J. inversion J; subst s1.
      rewrite (IH _ _ _ (bump s) F1) by (apply nth_list_set_same; apply nth_error_Some; congruence).
      cbn. unfold count_to. cbn. do 2 f_equal. lia.
    + apply (IH _ _ _ s F1). rewrite nth_list_set_other; auto.
Qed.
Lemma step_count b i w o s : ctxs_ok w -> nth_error (cw_streams w) i = Some s ->
  nth_error (cw_streams (fst (crun1 b w o))) i = Some (count_to s (List.length (step_uses b i w o))) /\
  (forall k, nth_error (step_uses b i w o) 0 = Some (Some k) ->
     k = KFold (s_key s) (stable_hash b (s_path s ++ [s_count s])) /\ List.length (step_uses b i w o) = 1) /\
  (forall n k, nth_error (step_uses b i w o) (S n) <> Some (Some k)).
Proof.
  intros OK E. assert (TRIV : forall w', nth_error (cw_streams w') i = Some s ->
    nth_error (cw_streams w') i = Some (count_to s (List.length (@nil (option key)))) /\
    (forall k, nth_error (@nil (option key)) 0 = Some (Some k) ->
     k = KFold (s_key s) (stable_hash b (s_path s ++ [s_count s])) /\ List.length (@nil (option key)) = 1) /\
    (forall n k, nth_error (@nil (option key)) (S n) <> Some (Some k))).
  { intros w' E'. cbn. rewrite count_to_0. repeat split; auto; discriminate. }
  unfold step_uses. destruct o as [p fl rs|c name|c|c|j|t]; cbn [crun1].
  - destruct (args_exist _ _); [|now apply TRIV].
    unfold new_context. destruct (make_streams _ _) as [ns ss] eqn:MS.
    destruct (make_streams_len _ _ _ _ MS) as (_ & (new & ->) & _). apply TRIV. cbn.
    rewrite nth_error_app1; auto. apply nth_error_Some. congruence.
  - destruct (nth_error (cw_ctxs w) c) as [x|] eqn:X; [|now apply TRIV].
    unfold make_rng. destruct (dget name (x_rngs x)) as [j|] eqn:D; [|now apply TRIV].
    destruct (negb _); [now apply TRIV|].
    destruct (nth_error (cw_streams w) j) as [s1|] eqn:J; [|now apply TRIV].
    cbn [fst snd cw_streams set_streams]. destruct (Nat.eqb_spec i j) as [<-|NE].
    + rewrite E in J. inversion J; subst s1.
      rewrite nth_list_set_same by (apply nth_error_Some; congruence). cbn.
      repeat split.
      * unfold count_to, bump. do 2 f_equal. lia.
      * intros. congruence.
      * intros [|n]; discriminate.
    + apply (TRIV (set_streams w (list_set j (bump s1) (cw_streams w)))). cbn. rewrite nth_list_set_other; auto.
  - destruct (nth_error (cw_ctxs w) c) as [x|]; now apply TRIV.
  - destruct (nth_error (cw_ctxs w) c) as [x|] eqn:X; [|now apply TRIV].
    unfold context_partition. destruct (negb _); [now apply TRIV|].
    destruct (fork_all_ok (x_rngs x) (cw_streams w)) as (fs & ss' & F).
    { intros k K. eapply OK; eauto. now apply nth_error_In in X. }
    rewrite F. cbn [rmap fst snd cw_streams add_pure set_streams]. rewrite map_length.
    assert (NK : forall n k, nth_error (map (fun _ : nat => @None key) (filter (Nat.eqb i) (ctx_streams x))) n <> Some (Some k)).
    { intros n k. generalize (filter (Nat.eqb i) (ctx_streams x)). intros l. revert n.
      induction l as [|y l IH]; intros [|n]; cbn; try discriminate. apply IH. }
    split; [|split; [intros k K; exfalso; exact (NK _ _ K)|intros n k; apply NK]].
    apply (fork_all_count i _ _ _ _ _ F E).
  - destruct (nth_error (cw_pures w) j) as [p|]; [|now apply TRIV].
    unfold pctx_merge. destruct (merge_streams _ _ _) as [[ns ss]|e] eqn:MS; [|now apply TRIV]. cbn [rbind].
    destruct (merge_streams_spec _ _ _ _ _ MS) as (new & -> & _). apply TRIV. cbn.
    rewrite nth_error_app1; auto. apply nth_error_Some. congruence.
  - now apply TRIV.
Qed.
Theorem stream_counts b i ops : forall w s, ctxs_ok w -> nth_error (cw_streams w) i = Some s ->
  (forall n k, nth_error (stream_uses b i w ops) n = Some (Some k) ->
     k = KFold (s_key s) (stable_hash b (s_path s ++ [s_count s + n]))) /\
  nth_error (cw_streams (fst (crun b w ops))) i =
    Some (mkStream (s_key s) (s_count s + List.length (stream_uses b i w ops)) (s_path s)).
Proof.
  induction ops as [|o t IH]; intros w s OK E.
  - cbn. split; [intros [|n]; discriminate|]. rewrite Nat.add_0_r. destruct s; exact E.
  - destruct (step_count b i w o s OK E) as (E1 & K0 & KS).
    destruct (IH _ _ (ctxs_ok_step b w o OK) E1) as [A B].
    rewrite stream_uses_cons, crun_cons. cbn [fst]. split.
    + intros n k H. destruct (Nat.lt_ge_cases n (List.length (step_uses b i w o))) as [L|L].
      * rewrite nth_error_app1 in H by exact L. destruct n as [|n]; [|now apply KS in H].
        apply K0 in H as [-> _]. now rewrite Nat.add_0_r.
      * rewrite nth_error_app2 in H by exact L. apply A in H. cbn in H. rewrite H.
        do 4 f_equal. lia.
    + rewrite B. cbn. do 2 f_equal. rewrite app_length. lia.
Qed.

(** ** The 32-bit hash collides *)

Lemma dup_or_nodup (l : list nat) : NoDup l \/ exists i j x, i < j /\ nth_error l i = Some x /\ nth_error l j = Some x.
Proof.
  induction l as [|y l [N|(i & j & x & L & A & B)]].
  - left. constructor.
  - destruct (in_dec Nat.eq_dec y l) as [I|I].
    + right. apply In_nth_error in I as [j J]. exists 0, (S j), y. repeat split; auto; lia.
    + left. now constructor.
  - right. exists (S i), (S j), x. repeat split; auto; lia.
Qed.
Lemma pigeonhole (f : nat -> nat) B : (forall n, f n < B) -> exists i j, i < j <= B /\ f i = f j.
Proof.
  intros H. destruct (dup_or_nodup (map f (seq 0 (S B)))) as [N|(i & j & x & L & A & C)].
  - exfalso. assert (I : incl (map f (seq 0 (S B))) (seq 0 B)).
    { intros y Y. apply in_map_iff in Y as (n & <- & _). apply in_seq. specialize (H n). lia. }
    apply (NoDup_incl_length N) in I. rewrite map_length, !seq_length in I. lia.
  - assert (J : j < List.length (map f (seq 0 (S B)))) by (apply nth_error_Some; congruence).
    rewrite map_length, seq_length in J. exists i, j. split; [lia|].
    assert (G : forall n y, n < S B -> nth_error (map f (seq 0 (S B))) n = Some y -> y = f n).
    { intros n y Ln Hn. pose proof (map_nth_error f n (seq 0 (S B)) (d := n)) as M.
      rewrite M in Hn; [congruence|]. rewrite nth_error_nth' with (d := 0) by (rewrite seq_length; lia).
      rewrite seq_nth by lia. reflexivity. }
    rewrite <- (G i x), <- (G j x); auto; lia.
Qed.
Lemma draws_run b n : forall w c name x i s,
  nth_error (cw_ctxs w) c = Some x -> dget name (x_rngs x) = Some i ->
  trace_ok (cw_trace w) (x_trace x) = true -> nth_error (cw_streams w) i = Some s ->
  snd (crun b w (repeat (ODraw c name) n)) =
  map (fun j => OutKey (KFold (s_key s) (stable_hash b (s_path s ++ [s_count s + j])))) (seq 0 n).
Proof.
  induction n as [|n IH]; intros w c name x i s X D T E; [reflexivity|].
  cbn [repeat]. rewrite crun_cons. cbn [snd crun1]. rewrite X. unfold make_rng. rewrite D, T, E. cbn [negb fst snd].
  rewrite (IH (set_streams w (list_set i (bump s) (cw_streams w))) c name x i (bump s)); auto.
  2:{ cbn. apply nth_list_set_same. apply nth_error_Some. congruence. }
  cbn [seq map]. rewrite Nat.add_0_r. f_equal. rewrite <- seq_shift, map_map. apply map_ext. intros j.
  cbn. do 5 f_equal. lia.
Qed.
Theorem draws_collide b B w c name x i s :
  (forall str, b str < B) ->
  nth_error (cw_ctxs w) c = Some x -> dget name (x_rngs x) = Some i ->
  trace_ok (cw_trace w) (x_trace x) = true -> nth_error (cw_streams w) i = Some s ->
  exists m n k, m < n <= B /\
    nth_error (snd (crun b w (repeat (ODraw c name) (S B)))) m = Some (OutKey k) /\
    nth_error (snd (crun b w (repeat (ODraw c name) (S B)))) n = Some (OutKey k).
Proof.
  intros H X D T E.
  destruct (pigeonhole (fun j => stable_hash b (s_path s ++ [s_count s + j])) B) as (m & n & L & EQ).
  { intros j. apply H. }
  exists m, n, (KFold (s_key s) (stable_hash b (s_path s ++ [s_count s + m]))). split; [exact L|].
  rewrite (draws_run b (S B) w c name x i s X D T E).
  assert (G : forall j, j <= B -> nth_error (seq 0 (S B)) j = Some j).
  { intros j J. rewrite nth_error_nth' with (d := 0) by (rewrite seq_length; lia). now rewrite seq_nth by lia. }
  split; erewrite map_nth_error; try apply G; try lia; [reflexivity|]. now rewrite EQ.
Qed.

(** ** Guards *)
Lemma trace_ok_iff a b : trace_ok a b = true <-> a = b.
Proof.
  unfold trace_ok. rewrite Bool.andb_true_iff, !Nat.eqb_eq. destruct a, b; cbn. split; [intros [-> ->]|intros [= -> ->]]; auto.
Qed.
Lemma make_rng_err b cur x name ss e : fst (make_rng b cur x name ss) = Err e -> snd (make_rng b cur x name ss) = ss.
Proof.
  unfold make_rng. destruct (dget name (x_rngs x)) as [i|]; [|auto]. destruct (negb _); [auto|].
  destruct (nth_error ss i); [discriminate|auto].
Qed.

(** ** Partition and merge keep names and flags *)
Lemma fork_all_names items : forall ss fs ss', fork_all items ss = (Ok fs, ss') ->
  map fst fs = map fst items /\
  Forall2 (fun a f => exists s, nth_error ss' (snd a) = Some s /\ s_key s = s_key (snd f)) items fs.
Proof.
  induction items as [|[n i] t IH]; intros ss fs ss' H; cbn in H.
  - inversion H; subst. split; constructor.
  - destruct (nth_error ss i) as [s|] eqn:E; [|discriminate].
    destruct (fork_all t _) as [[fs1|e] ss1] eqn:F; [|discriminate]. inversion H; subst. destruct (IH _ _ _ F) as [A B].
    split; [cbn; now rewrite A|]. constructor; auto. cbn.
    exists (count_to (bump s) (List.length (filter (Nat.eqb i) (map snd t)))). split; [|reflexivity].
    apply (fork_all_count i t _ _ _ (bump s) F). apply nth_list_set_same. apply nth_error_Some. congruence.
Qed.

(** ** Rng filters *)
Lemma rfilt_ind' (P : rfilt -> Prop) :
  P RNone -> P REllipsis -> (forall p, P (RPred p)) -> (forall s, P (RStr s)) ->
  (forall l, (forall g b, In (g, b) l -> P g) -> P (RMap l)) ->
  (forall l, (forall g, In g l -> P g) -> P (RSeq l)) -> P ROther -> forall f, P f.
Proof.
  intros HN HE HP HS HM HQ HO. fix self 1. intros [| |p|s|l|l|]; [exact HN|exact HE|apply HP|apply HS| | |exact HO].
  - apply HM. induction l as [|[g b] l IH]; intros g' b' I; [destruct I|].
    destruct I as [I|I]; [|eapply IH; eauto]. pose proof (self g) as G. inversion I; subst. exact G.
  - apply HQ. induction l as [|g l IH]; intros g' I; [destruct I|].
    destruct I as [<-|I]; [apply self|now apply IH].
Qed.

Fixpoint rng_seq (l : list rfilt) : result (list (string -> bool)) :=
  match l with
  | [] => Ok []
  | g :: t => do p <- to_rng_predicate g; do ps <- rng_seq t; Ok (p :: ps)
  end.
Lemma to_rng_seq l : to_rng_predicate (RSeq l) = (do ps <- rng_seq l; Ok (fun name => existsb (fun p => p name) ps)).
Proof.
  reflexivity.
Qed.
Definition included (l : list (rfilt * bool)) : list rfilt := map fst (filter snd l).
Lemma to_rng_map l : to_rng_predicate (RMap l) = to_rng_predicate (RSeq (included l)).
Proof.
  cbn [to_rng_predicate].
  assert (E : (fix go (l : list (rfilt * bool)) : result (list (string -> bool)) :=
                  match l with
                  | [] => Ok []
                  | (g, include) :: t =>
                      if include then do p <- to_rng_predicate g; do ps <- go t; Ok (p :: ps)
                      else go t
                  end) l = rng_seq (included l)).
  { induction l as [|[g [|]] l IH]; cbn; auto. now rewrite IH. }
  rewrite E. reflexivity.
Qed.
Lemma in_included g l : In g (included l) <-> In (g, true) l.
Proof.
  unfold included. rewrite in_map_iff. split.
  - intros ([g' b] & <- & I). apply filter_In in I as [I E]. cbn in *. now subst b.
  - intros I. exists (g, true). split; auto. apply filter_In. auto.
Qed.

Definition rspec (f : rfilt) : Prop :=
  match to_rng_predicate f with
  | Ok p => ~ rinvalid f /\ forall name, p name = true <-> rmatches f name
  | Err e => e = TypeError /\ rinvalid f
  end.
Lemma rng_seq_spec l : (forall g, In g l -> rspec g) ->
  match rng_seq l with
  | Ok ps => (forall g, In g l -> ~ rinvalid g) /\
             forall name, existsb (fun p => p name) ps = true <-> exists g, In g l /\ rmatches g name
  | Err e => e = TypeError /\ exists g, In g l /\ rinvalid g
  end.
Proof.
  induction l as [|g l IH]; intros H.
  - cbn. split; [intros g []|]. intros name. split; [discriminate|intros (g & [] & _)].
  - cbn [rng_seq]. pose proof (H g (or_introl eq_refl)) as G. unfold rspec in G.
    destruct (to_rng_predicate g) as [p|e]; cbn [rbind].
    2:{ destruct G as [-> G]. split; auto. exists g. split; [now left|exact G]. }
    specialize (IH (fun g' I => H g' (or_intror I))). destruct (rng_seq l) as [ps|e]; cbn [rbind].
    2:{ destruct IH as (-> & g' & I & V). split; auto. exists g'. split; [now right|exact V]. }
    destruct G as [G1 G2], IH as [I1 I2]. split.
    + intros g' [<-|I]; auto.
    + intros name. cbn [existsb]. rewrite Bool.orb_true_iff, G2, I2. split.
      * intros [M|(g' & I & M)]; [exists g|exists g']; split; auto; [now left|now right].
      * intros (g' & [<-|I] & M); [now left|right; eauto].
Qed.
Theorem rng_filter_spec f : rspec f.
Proof.
  induction f as [| |p|s|l IH|l IH|] using rfilt_ind'; unfold rspec.
  - cbn. split; [intros H; inversion H|]. intros name. split; [discriminate|intros H; inversion H].
  - cbn. split; [intros H; inversion H|]. intros name. split; [intros _; constructor|auto].
  - cbn. split; [intros H; inversion H|]. intros name. split; [intros M; now constructor|intros H; now inversion H].
  - cbn. split; [intros H; inversion H|]. intros name. rewrite String.eqb_eq.
    split; [intros ->; constructor|intros H; now inversion H].
  - rewrite to_rng_map, to_rng_seq.
    pose proof (rng_seq_spec (included l)) as S. destruct (rng_seq (included l)) as [ps|e]; cbn [rbind];
      destruct S as [S1 S2]; try (intros g I; apply in_included in I; eapply IH; eauto).
    + split; [intros H; inversion H; subst; eapply S1; [apply in_included|]; eauto|].
      intros name. rewrite S2. split.
      * intros (g & I & M). apply in_included in I. econstructor; eauto.
      * intros M. inversion M; subst. eexists. split; [apply in_included|]; eauto.
    + split; auto. destruct S2 as (g & I & V). apply in_included in I. econstructor; eauto.
  - rewrite to_rng_seq.
    pose proof (rng_seq_spec l IH) as S. destruct (rng_seq l) as [ps|e]; cbn [rbind]; destruct S as [S1 S2].
    + split; [intros H; inversion H; subst; eapply S1; eauto|].
      intros name. rewrite S2. split.
      * intros (g & I & M). econstructor; eauto.
      * intros M. inversion M; subst. eauto.
    + split; auto. destruct S2 as (g & I & V). econstructor; eauto.
  - cbn. split; auto. constructor.
Qed.

Lemma merge_lookup ks l : forall ss ns ss', NoDup (map fst l) -> merge_streams ks l ss = Ok (ns, ss') ->
  forall name path, In (name, path) l -> exists j k, dget name ns = Some j /\ dget name ks = Some k /\
    List.length ss <= j /\ nth_error ss' j = Some (mkStream k 0 path).
Proof.
  induction l as [|[n p] t IH]; intros ss ns ss' N H name path I; [destruct I|]. cbn in H.
  destruct (dget n ks) as [k|] eqn:D; [|discriminate].
  destruct (merge_streams ks t _) as [[ns1 ss1]|e] eqn:M; [|discriminate]. cbn in H. inversion H; subst.
  cbn in N. inversion N as [|a b NI N']; subst.
  destruct I as [I|I].
  - inversion I; subst. exists (List.length ss), k. cbn. rewrite String.eqb_refl. repeat split; auto.
    destruct (merge_streams_spec _ _ _ _ _ M) as (new & -> & _). rewrite <- app_assoc.
    rewrite nth_error_app2, Nat.sub_diag by lia. reflexivity.
  - destruct (IH _ _ _ N' M _ _ I) as (j & k' & A & B & C & E). exists j, k'. cbn.
    destruct (String.eqb_spec name n) as [->|NE].
    + exfalso. apply NI. now apply (in_map fst) in I.
    + repeat split; auto. rewrite app_length in C. cbn in C. lia.
Qed.
Theorem partition_merge_context cur cur' x ss p ss' ss2 x2 ss3 :
  NoDup (keys (x_rngs x)) ->
  context_partition cur x ss = (Ok p, ss') ->
  pctx_merge cur' p ss2 = Ok (x2, ss3) ->
  keys (x_rngs x2) = keys (x_rngs x) /\ x_flags x2 = x_flags x /\ x_trace x2 = cur' /\
  (exists new, ss3 = ss2 ++ new) /\
  (forall name i, dget name (x_rngs x) = Some i -> exists j s s2,
     dget name (x_rngs x2) = Some j /\ List.length ss2 <= j /\ nth_error ss' i = Some s /\ nth_error ss3 j = Some s2 /\
     s_key s2 = s_key s /\ s_count s2 = 0).
Proof.
  intros N P M. unfold context_partition in P. destruct (negb _); [discriminate|].
  destruct (fork_all (x_rngs x) ss) as [[fs|e] ss1] eqn:F; [|discriminate]. cbn in P. inversion P; subst p ss1.
  destruct (fork_all_names _ _ _ _ F) as [KN F2].
  unfold pctx_merge in M. cbn [pc_keys pc_counts pc_flags] in M.
  destruct (merge_streams _ _ _) as [[ns ss4]|e] eqn:MS; [|discriminate]. cbn in M. inversion M; subst.
  destruct (merge_streams_spec _ _ _ _ _ MS) as (new & -> & _ & _ & KE & _).
  assert (K1 : map fst (map (fun nf : string * stream => (fst nf, s_path (snd nf))) fs) = keys (x_rngs x)).
  { rewrite map_map. cbn. exact KN. }
  assert (KNS : keys ns = keys (x_rngs x)) by (rewrite KE; exact K1).
  cbn [x_rngs x_flags x_trace]. rewrite dict_of_nodup by (now rewrite KNS).
  repeat split; auto; [eauto|].
  intros name i D. apply dget_In in D.
  assert (FK : forall items, Forall2 (fun a f => exists s, nth_error ss' (snd a) = Some s /\ s_key s = s_key (snd f)) items fs ->
             map fst fs = map fst items -> In (name, i) items ->
             exists f s, In (name, f) fs /\ nth_error ss' i = Some s /\ s_key s = s_key f).
  { clear. intros items H. induction H as [|[n a] [m f] items fs (s & A & B) H IH]; intros E I; [destruct I|]. cbn in E. destruct I as [I|I].
    - inversion I; subst. inversion E; subst. exists f, s. cbn in *. auto.
    - inversion E. destruct IH as (f' & s' & X & Y); auto. exists f', s'. split; [now right|exact Y]. }
  destruct (FK _ F2 KN D) as (f & s & I & E & SK).
  destruct (merge_lookup _ _ _ _ _ ltac:(rewrite K1; exact N) MS name (s_path f)) as (j & k & A & B & C & G).
  { apply in_map_iff. exists (name, f). auto. }
  exists j, s, (mkStream k 0 (s_path f)). repeat split; auto. cbn.
  rewrite dict_of_nodup in B.
  2:{ unfold keys. rewrite map_map. cbn. change (NoDup (map fst fs)). rewrite KN. exact N. }
  assert (D2 : dget name (map (fun nf : string * stream => (fst nf, s_key (snd nf))) fs) = Some (s_key f)).
  { apply In_dget.
    - unfold keys. rewrite map_map. cbn. change (NoDup (map fst fs)). rewrite KN. exact N.
    - apply in_map_iff. exists (name, f). auto. }
  congruence.
Qed.
