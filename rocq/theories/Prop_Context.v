(** Properties C26-C33 and C57: RNG contexts (nnx/contextlib.py). *)
From Coq Require Import ZArith.
From Verif Require Import PyBase PyBaseFacts ModuleM ContextM Spec_Context Context_proofs.
Local Open Scope string_scope.
Local Open Scope list_scope.

Definition top : trace_state := (0, 0).
Definition inner : trace_state := (0, 1).

(** A history used in the examples: two streams, draws, a copy, a partition, a
    merge, a change of trace level. *)
Definition ex_ops : list cop :=
  [ ONew (Some (ArgInt 0%Z)) [("train", true)] [("dropout", ArgInt 1%Z)];
    ODraw 0 "params"; OCopy 0; ODraw 1 "params"; ODraw 1 "dropout"; OPart 0;
    OTrace inner; OMerge 0; ODraw 2 "params"; ODraw 0 "params"; OPart 2; OMerge 1;
    ODraw 3 "params"; ODraw 2 "params"; OTrace top; ODraw 1 "params"; ODraw 1 "nope" ].

(** *** C26 *)

(** In any history whose root keys are distinct and that merges each pure context
    at most once, the keys returned by make_rng are derived by folding data into
    root keys, and the (root key, count path) pairs used are pairwise different -
    whatever the hash function is. *)
Theorem C26_no_derivation_repeats : forall (t : trace_state) (ops : list cop),
  NoDup (root_keys ops) -> NoDup (merges ops) ->
  exists T : list (key * counts), NoDup T /\
    forall blake, drawn (snd (crun blake (cstart t) ops)) =
                  map (fun kp => KFold (fst kp) (stable_hash blake (snd kp))) T.
Proof. exact derivations_fresh. Qed.

(** Hence with a collision-free hash all keys ever returned are different. *)
Theorem C26_keys_distinct : forall (blake : string -> nat) (t : trace_state) (ops : list cop),
  (forall a b, blake a = blake b -> a = b) ->
  NoDup (root_keys ops) -> NoDup (merges ops) ->
  NoDup (drawn (snd (crun blake (cstart t) ops))).
Proof. exact keys_distinct. Qed.

Example C26_example :
  NoDup (root_keys ex_ops) /\ NoDup (merges ex_ops) /\
  map (fun o => match o with OutKey (KFold k _) => Some k | _ => None end)
      (snd (crun (fun _ => 0) (cstart top) ex_ops)) =
  [None; Some (KSeed 0); None; Some (KSeed 0); Some (KSeed 1); None; None; None; Some (KSeed 0); None;
   None; None; Some (KSeed 0); Some (KSeed 0); None; Some (KSeed 0); None].
Proof.
  split; [|split; [|vm_compute; reflexivity]].
  - repeat constructor; cbn; intuition discriminate.
  - repeat constructor; cbn; intuition discriminate.
Qed.

(** Both hypotheses are needed: merging a pure context twice repeats keys. *)
Example C26_merge_twice_repeats : exists ops, NoDup (root_keys ops) /\ forall blake,
  ~ NoDup (drawn (snd (crun blake (cstart top) ops))).
Proof.
  exists [ONew (Some (ArgInt 0%Z)) [] []; OPart 0; OMerge 0; OMerge 0; ODraw 1 "params"; ODraw 2 "params"].
  split; [repeat constructor; cbn; intuition discriminate|].
  intros blake N. cbn in N. inversion N as [|x l I _]. apply I. now left.
Qed.

(** *** C27 *)
Theorem C27_encoding_injective : forall p q : counts, hash_str p = hash_str q -> p = q.
Proof. exact hash_str_inj. Qed.
Example C27_example : hash_str [12; 3] = "12 3" /\ hash_str [1; 23] = "1 23".
Proof. vm_compute. auto. Qed.

(** *** C28 *)

(** In a reachable world, take any group of contexts that shares no stream with
    the others.  Whatever the rest of the program does, the calls made through the
    group (and its copies) return what they would return if only the group existed
    and only those calls were made. *)
Theorem C28_family_isolated : forall blake t hist mem ops,
  let w := fst (crun blake (cstart t) hist) in
  NoDup mem -> (forall c, In c mem -> c < List.length (cw_ctxs w)) -> separate w mem ->
  (forall i, In i (passed_streams ops) -> ~ In i (streams_of w mem)) ->
  family_outs blake w mem ops = snd (crun blake (only w mem) (family_ops blake w mem ops)).
Proof.
  intros blake t hist mem ops w. apply family_isolated. apply ctxs_ok_run, ctxs_ok_start.
Qed.

(** A context merged from a pure context [p] returns, whatever else happens, what
    a context merged from [p] in an otherwise empty world returns. *)
Theorem C28_merged_isolated : forall blake t hist p x ss ops,
  let w := fst (crun blake (cstart t) hist) in
  pctx_merge (cw_trace w) p (cw_streams w) = Ok (x, ss) ->
  (forall i, In i (passed_streams ops) -> ~ In i (ctx_streams x)) ->
  let w1 := add_ctx (set_streams w ss) x in
  let c := List.length (cw_ctxs w) in
  family_outs blake w1 [c] ops = snd (crun blake (alone (cw_trace w) p) (family_ops blake w1 [c] ops)).
Proof.
  intros blake t hist p x ss ops w. apply merged_isolated. apply ctxs_ok_run, ctxs_ok_start.
Qed.

(** So two contexts merged from one pure context, at any two points of any two
    histories, answer the same calls in the same way. *)
Theorem C28_deterministic : forall blake t hist t' hist' p x ss x' ss' ops ops',
  let w := fst (crun blake (cstart t) hist) in
  let w' := fst (crun blake (cstart t') hist') in
  pctx_merge (cw_trace w) p (cw_streams w) = Ok (x, ss) ->
  pctx_merge (cw_trace w') p (cw_streams w') = Ok (x', ss') ->
  (forall i, In i (passed_streams ops) -> ~ In i (ctx_streams x)) ->
  (forall i, In i (passed_streams ops') -> ~ In i (ctx_streams x')) ->
  cw_trace w = cw_trace w' ->
  let w1 := add_ctx (set_streams w ss) x in
  let w1' := add_ctx (set_streams w' ss') x' in
  let c := List.length (cw_ctxs w) in
  let c' := List.length (cw_ctxs w') in
  family_ops blake w1 [c] ops = family_ops blake w1' [c'] ops' ->
  family_outs blake w1 [c] ops = family_outs blake w1' [c'] ops'.
Proof.
  intros blake t hist t' hist' p x ss x' ss' ops ops' w w' M M' P P' T w1 w1' c c' E.
  pose proof (C28_merged_isolated blake t hist p x ss ops M P) as A.
  pose proof (C28_merged_isolated blake t' hist' p x' ss' ops' M' P') as B.
  cbv zeta in A, B. fold w in A. fold w' in B. fold w1 c in A. fold w1' c' in B.
  rewrite A, B, E, T. reflexivity.
Qed.

(** Merging and then using one side: the parent context 0 answers as if the merged
    context 1 did not exist. *)
Example C28_example :
  let blake := fun s : string => String.length s in
  let hist := [ONew (Some (ArgInt 0%Z)) [] []; OPart 0; OMerge 0] in
  let w := fst (crun blake (cstart top) hist) in
  let ops := [ODraw 1 "params"; ODraw 0 "params"; OCopy 0; OPart 1; ODraw 1 "params"; ODraw 2 "params"] in
  separate w [0] /\ NoDup [0] /\ 0 < List.length (cw_ctxs w) /\
  family_ops blake w [0] ops = [ODraw 0 "params"; OCopy 0; ODraw 1 "params"] /\
  family_outs blake w [0] ops = [OutKey (KFold (KSeed 0) 1); OutDone; OutKey (KFold (KSeed 0) 1)].
Proof.
  cbn zeta. split; [|repeat split; try (vm_compute; reflexivity); repeat constructor; intros []].
  intros c x i NM X I J. destruct c as [|[|c]]; cbn in X.
  - apply NM. now left.
  - inversion X; subst x. cbn in I, J. lia.
  - destruct c; discriminate.
Qed.

(** *** C29 *)

(** A copy holds the very stream objects of the original ... *)
Theorem C29_copy_shares : forall blake w c x,
  nth_error (cw_ctxs w) c = Some x ->
  let w' := fst (crun1 blake w (OCopy c)) in
  exists y, nth_error (cw_ctxs w') (List.length (cw_ctxs w)) = Some y /\
    x_rngs y = x_rngs x /\ x_flags y = x_flags x /\ x_trace y = cw_trace w /\ cw_streams w' = cw_streams w.
Proof.
  intros blake w c x H. cbn [crun1]. rewrite H. exists (context_copy (cw_trace w) x). cbn.
  rewrite nth_error_app2, Nat.sub_diag by lia. auto.
Qed.

(** ... and the n-th use of a stream object, through whichever contexts hold it and
    in whatever interleaving, derives its key from count [s_count + n]. *)
Theorem C29_counters_advance : forall blake t hist i s ops,
  let w := fst (crun blake (cstart t) hist) in
  nth_error (cw_streams w) i = Some s ->
  (forall n k, nth_error (stream_uses blake i w ops) n = Some (Some k) ->
     k = KFold (s_key s) (stable_hash blake (s_path s ++ [s_count s + n]))) /\
  nth_error (cw_streams (fst (crun blake w ops))) i =
    Some (mkStream (s_key s) (s_count s + List.length (stream_uses blake i w ops)) (s_path s)).
Proof.
  intros blake t hist i s ops w. apply stream_counts. apply ctxs_ok_run, ctxs_ok_start.
Qed.
Example C29_example :
  let blake := fun s : string => String.length s in
  let w := fst (crun blake (cstart top) [ONew (Some (ArgInt 0%Z)) [] []; OCopy 0]) in
  stream_uses blake 0 w [ODraw 0 "params"; ODraw 1 "params"; OPart 1; ODraw 0 "params"]
  = [Some (KFold (KSeed 0) 1); Some (KFold (KSeed 0) 1); None; Some (KFold (KSeed 0) 1)] /\
  nth_error (cw_streams w) 0 = Some (mkStream (KSeed 0) 0 []).
Proof. vm_compute. auto. Qed.

(** *** C30 *)

(** Two streams seeded with the same integer return the same key: the name of a
    stream does not enter its keys. *)
Theorem C30_same_seed_refuted : exists ops, forall blake, exists k,
  snd (crun blake (cstart top) ops) = [OutDone; OutKey k; OutKey k] /\
  ops = [ONew (Some (ArgInt 0%Z)) [] [("dropout", ArgInt 0%Z)]; ODraw 0 "params"; ODraw 0 "dropout"].
Proof. eexists. intros blake. eexists. split; [|reflexivity]. reflexivity. Qed.

(** What holds: streams with different root keys never return the same key. *)
Theorem C30_different_roots_partial : forall blake cur x y n m ss ss' k k' i j s s',
  dget n (x_rngs x) = Some i -> nth_error ss i = Some s ->
  dget m (x_rngs y) = Some j -> nth_error ss' j = Some s' ->
  s_key s <> s_key s' ->
  fst (make_rng blake cur x n ss) = Ok k -> fst (make_rng blake cur y m ss') = Ok k' -> k <> k'.
Proof.
  intros blake cur x y n m ss ss' k k' i j s s' D1 E1 D2 E2 NE M1 M2.
  unfold make_rng in *. rewrite D1, E1 in M1. rewrite D2, E2 in M2.
  destruct (negb _) in M1; [discriminate|]. destruct (negb _) in M2; [discriminate|].
  cbn in *. congruence.
Qed.

(** *** C31 *)

(** The folded hash has 32 bits: for every hash function, 2^32 + 1 draws on one
    stream return some key twice. *)
Theorem C31_no_collision_refuted : forall blake : string -> nat,
  (forall s, blake s < N.to_nat (2 ^ 32)%N) ->
  let ops := ONew (Some (ArgInt 0%Z)) [] [] :: repeat (ODraw 0 "params") (S (N.to_nat (2 ^ 32)%N)) in
  exists m n k, m < n /\
    nth_error (snd (crun blake (cstart top) ops)) m = Some (OutKey k) /\
    nth_error (snd (crun blake (cstart top) ops)) n = Some (OutKey k).
Proof.
  intros blake H. cbv zeta. rewrite crun_cons. cbn [snd].
  destruct (draws_collide blake (N.to_nat (2 ^ 32)%N) (fst (crun1 blake (cstart top) (ONew (Some (ArgInt 0%Z)) [] [])))
             0 "params" (mkCtx [("params", 0)] [] top) 0 (mkStream (KSeed 0) 0 []) H
             eq_refl eq_refl eq_refl eq_refl) as (m & n & k & L & A & B).
  exists (S m), (S n), k. split; [lia|]. split; [exact A|exact B].
Qed.

(** What holds: in any history two uses of one stream give equal keys only where the
    truncated hash collides, and the texts it hashes are always different. *)
Theorem C31_only_hash_collisions_partial : forall blake t hist i s ops m n k k',
  let w := fst (crun blake (cstart t) hist) in
  nth_error (cw_streams w) i = Some s -> m <> n ->
  nth_error (stream_uses blake i w ops) m = Some (Some k) -> nth_error (stream_uses blake i w ops) n = Some (Some k') ->
  exists a b : counts, hash_str a <> hash_str b /\ (k = k' <-> blake (hash_str a) = blake (hash_str b)).
Proof.
  intros blake t hist i s ops m n k k' w E D Hm Hn. destruct (C29_counters_advance blake t hist i s ops E) as [C _].
  exists (s_path s ++ [s_count s + m]), (s_path s ++ [s_count s + n]). split.
  - intros H. apply hash_str_inj, app_inv_head in H. injection H. lia.
  - rewrite (C m k Hm), (C n k' Hn). unfold stable_hash. split; [now intros [= H]|now intros ->].
Qed.
Print Assumptions C31_only_hash_collisions_partial.
Example C31_example :
  let blake := fun s : string => String.length s in
  let w := fst (crun blake (cstart top) [ONew (Some (ArgInt 0%Z)) [] []]) in
  nth_error (stream_uses blake 0 w (repeat (ODraw 0 "params") 11)) 9 = Some (Some (KFold (KSeed 0) 1)) /\
  nth_error (stream_uses blake 0 w (repeat (ODraw 0 "params") 11)) 10 = Some (Some (KFold (KSeed 0) 2)).
Proof. vm_compute. auto. Qed.

(** *** C32 *)

(** make_rng: exactly when it raises what; raising leaves every counter alone;
    succeeding advances one counter by one. *)
Theorem C32_make_rng : forall blake cur x name ss,
  (has_rng x name = false -> make_rng blake cur x name ss = (Err ValueError, ss)) /\
  (has_rng x name = true -> x_trace x <> cur -> make_rng blake cur x name ss = (Err TraceContextError, ss)) /\
  (forall e, fst (make_rng blake cur x name ss) = Err e -> snd (make_rng blake cur x name ss) = ss) /\
  (forall i s, dget name (x_rngs x) = Some i -> nth_error ss i = Some s -> x_trace x = cur ->
     make_rng blake cur x name ss =
       (Ok (KFold (s_key s) (stable_hash blake (s_path s ++ [s_count s]))),
        list_set i (mkStream (s_key s) (S (s_count s)) (s_path s)) ss)).
Proof.
  intros blake cur x name ss. repeat split.
  - unfold has_rng, dmem, make_rng. destruct (dget name (x_rngs x)); [discriminate|reflexivity].
  - unfold has_rng, dmem, make_rng. destruct (dget name (x_rngs x)); [|discriminate]. intros _ N.
    destruct (trace_ok cur (x_trace x)) eqn:T; [apply trace_ok_iff in T; congruence|reflexivity].
  - apply make_rng_err.
  - intros i s D E T. unfold make_rng. rewrite D, E.
    replace (trace_ok cur (x_trace x)) with true by (symmetry; apply trace_ok_iff; auto). reflexivity.
Qed.
Theorem C32_partition : forall cur x ss,
  x_trace x <> cur -> context_partition cur x ss = (Err TraceContextError, ss).
Proof.
  intros cur x ss N. unfold context_partition.
  destruct (trace_ok cur (x_trace x)) eqn:T; [apply trace_ok_iff in T; congruence|reflexivity].
Qed.
Example C32_example :
  has_rng (mkCtx [("params", 0)] [] top) "params" = true /\
  x_trace (mkCtx [("params", 0)] [] top) <> inner.
Proof. split; [reflexivity|discriminate]. Qed.

(** *** C33 *)
Theorem C33_rng_filter : forall f p, to_rng_predicate f = Ok p ->
  forall name, p name = true <-> rmatches f name.
Proof. intros f p H. pose proof (rng_filter_spec f) as S. unfold rspec in S. rewrite H in S. apply S. Qed.
Theorem C33_rejects : forall f, rinvalid f <-> to_rng_predicate f = Err TypeError.
Proof.
  intros f. pose proof (rng_filter_spec f) as S. unfold rspec in S.
  destruct (to_rng_predicate f) as [p|e]; destruct S as [S1 S2]; split; try congruence; auto; contradiction.
Qed.
Example C33_example :
  rmatches (RMap [(RStr "params", false); (RSeq [RStr "a"; RPred (String.eqb "dropout")], true)]) "dropout" /\
  ~ rmatches (RMap [(RStr "params", false); (RStr "dropout", true)]) "params".
Proof.
  split.
  - eapply RM_map; [right; left; reflexivity|]. eapply RM_seq; [right; left; reflexivity|]. now constructor.
  - intros H. inversion H as [| | |l g n I M|]; subst. destruct I as [I|[I|[]]]; inversion I; subst. inversion M.
Qed.

(** *** C57 *)

(** partition followed by merge, anywhere: the new context has the same stream
    names in the same order and the same flags; every new stream starts at count 0
    and has the root key of the stream it was forked from. *)
Theorem C57_partition_merge : forall cur cur' x ss p ss' ss2 x2 ss3,
  NoDup (keys (x_rngs x)) ->
  context_partition cur x ss = (Ok p, ss') ->
  pctx_merge cur' p ss2 = Ok (x2, ss3) ->
  keys (x_rngs x2) = keys (x_rngs x) /\ x_flags x2 = x_flags x /\ x_trace x2 = cur' /\
  (exists new, ss3 = ss2 ++ new) /\
  (forall name i, dget name (x_rngs x) = Some i -> exists j s s2,
     dget name (x_rngs x2) = Some j /\ List.length ss2 <= j /\ nth_error ss' i = Some s /\ nth_error ss3 j = Some s2 /\
     s_key s2 = s_key s /\ s_count s2 = 0).
Proof. exact partition_merge_context. Qed.
(** Merging with a key missing for one of the streams is a KeyError, and only that is. *)
Theorem C57_missing_key : forall cur p ss,
  pctx_merge cur p ss = Err KeyError <-> exists name, In name (map fst (pc_counts p)) /\ dget name (pc_keys p) = None.
Proof.
  intros cur p ss.
  assert (H : forall l ss, match merge_streams (pc_keys p) l ss with
                           | Err e => e = KeyError /\ exists name, In name (map fst l) /\ dget name (pc_keys p) = None
                           | Ok _ => forall name, In name (map fst l) -> dget name (pc_keys p) <> None
                           end).
  { induction l as [|[n c] l IH]; intros ss0; [intros name []|]. cbn [merge_streams map fst].
    destruct (dget n (pc_keys p)) as [k|] eqn:E; [|split; [reflexivity|exists n; split; [left; reflexivity|exact E]]].
    specialize (IH (ss0 ++ [mkStream k 0 c])). destruct (merge_streams (pc_keys p) l _) as [[ns ss']|e]; cbn [rbind].
    - intros name [<-|I]; [congruence|now apply IH].
    - destruct IH as (-> & name & I & N). split; [reflexivity|]. exists name. split; [now right|exact N]. }
  specialize (H (pc_counts p) ss). unfold pctx_merge. destruct (merge_streams (pc_keys p) (pc_counts p) ss) as [[ns ss']|e]; cbn [rbind].
  - split; [discriminate|]. intros (name & I & N). now apply H in I.
  - destruct H as (-> & H). split; auto.
Qed.
Example C57_missing_example : forall k, pctx_merge top (mkPctx [("params", k)] [("params", []); ("dropout", [2])] []) [] = Err KeyError.
Proof. reflexivity. Qed.
Example C57_example : exists p ss' x2 ss3,
  context_partition top (mkCtx [("params", 0); ("dropout", 1)] [("train", true)] top)
     [mkStream (KSeed 0) 3 []; mkStream (KSeed 1) 0 [2]] = (Ok p, ss') /\
  pctx_merge inner p ss' = Ok (x2, ss3) /\ NoDup (keys [("params", 0); ("dropout", 1)]).
Proof. do 4 eexists. repeat split. repeat constructor; cbn; intuition discriminate. Qed.

Print Assumptions C26_no_derivation_repeats.
Print Assumptions C28_deterministic.
Print Assumptions C31_no_collision_refuted.
Print Assumptions C33_rng_filter.
