(** C103: keys drawn anywhere in nested calls of remat and scan are never repeated. *)
From Coq Require Import ZArith Ascii Lia.
From Verif Require Import PyBase PyBaseFacts ModuleM ContextM ScanM Spec_Context Context_proofs RngNestM Spec_RngNest RngNest_proofs.
Local Open Scope string_scope.
Local Open Scope nat_scope.
Local Open Scope list_scope.

(** Contexts are created from fresh keys.  A program draws keys from them, copies them, forks
    them, and passes them to rematerialised and scanned functions, which do the same, to any
    depth.  Take any set of stream names that all scans split.  Then no two of the keys drawn
    from streams of these names, in any call and any layer, are derived by folding the same
    data into the same key, whatever the hash function is. *)
Theorem C103_no_derivation_repeats : forall names blake t ops p,
  creates ops -> fresh_roots ops -> splits names p -> no_new p ->
  NoDup (map derivation (draws names (run_from blake t ops p))) /\
  Forall (fun d => d_key d = KFold (d_root d) (stable_hash blake (d_path d))) (draws names (run_from blake t ops p)).
Proof. exact run_fresh. Qed.
Print Assumptions C103_no_derivation_repeats.

Lemma keys_of_derivations blake l : (forall a b, blake a = blake b -> a = b) -> NoDup (map derivation l) ->
  Forall (fun d => d_key d = KFold (d_root d) (stable_hash blake (d_path d))) l -> NoDup (map d_key l).
Proof.
  intros Hb. induction l as [|d l IH]; intros N F; [constructor|].
  inversion N as [|? ? N1 N2]; subst. inversion F as [|? ? F1 F2]; subst. cbn [map]. constructor; [|auto].
  intros Q. apply N1. apply in_map_iff in Q as (d' & E & Hd). apply in_map_iff. exists d'. split; [|exact Hd].
  rewrite Forall_forall in F2. rewrite (F2 _ Hd), F1 in E. injection E as E1 E2. apply Hb, hash_str_inj in E2.
  unfold derivation. congruence.
Qed.
(** With a collision-free hash the keys themselves are different. *)
Theorem C103_keys_distinct : forall names blake t ops p,
  (forall a b, blake a = blake b -> a = b) -> creates ops -> fresh_roots ops -> splits names p -> no_new p ->
  NoDup (map d_key (draws names (run_from blake t ops p))).
Proof.
  intros names blake t ops p Hb Hc Hf Hs Hn. destruct (run_fresh names blake t ops p Hc Hf Hs Hn) as [N F].
  now apply (keys_of_derivations blake).
Qed.
Print Assumptions C103_keys_distinct.

(** The same for programs that also make new Contexts, at any place, from keys they draw there,
    as in [nnx.context(ctx.make_rng("params"), dropout=ctx.make_rng("dropout"))], or from keys
    split from one they draw there, one for each run of a vmapped function.  Here the
    hash must be collision-free and the first keys must not be folds. *)
Theorem C103_with_new_contexts : forall names blake t ops p,
  (forall a b, blake a = blake b -> a = b) -> creates ops -> fresh_roots ops -> no_folds ops -> splits names p ->
  NoDup (map derivation (draws names (run_from blake t ops p))) /\ NoDup (map d_key (draws names (run_from blake t ops p))).
Proof.
  intros names blake t ops p Hb Hc Hf Hn Hs. destruct (run_fresh_new names blake t ops p Hb Hc Hf Hn Hs) as [N F].
  split; [exact N|]. now apply (keys_of_derivations blake).
Qed.
Print Assumptions C103_with_new_contexts.

Lemma draws_missing blake cur x args : trace_ok cur (x_trace x) = true -> forall ss, (forall m i, dget m (x_rngs x) = Some i -> i < List.length ss) ->
  (exists a n, In (a, n) args /\ dget n (x_rngs x) = None) -> exists ss' l, k_draws blake cur x args ss = (ss', l, Err ValueError).
Proof.
  intros Ht. induction args as [|[a n] args IH]; intros ss Hl (a' & n' & Hin & Hno); [destruct Hin|]. cbn [k_draws]. unfold make_rng.
  destruct (dget n (x_rngs x)) as [i|] eqn:D; [|eauto]. rewrite Ht. cbn [negb].
  destruct (nth_error ss i) as [s|] eqn:E; [|apply nth_error_None in E; specialize (Hl _ _ D); lia].
  destruct (IH (list_set i (bump s) ss)) as (ss' & l & E').
  - intros m j Hm. rewrite list_set_length. eauto.
  - destruct Hin as [[= <- <-]|Hin]; [congruence|eauto].
  - rewrite E'. cbn [rbind]. eauto.
Qed.
(** A stream that is asked for and is not there, be it for a new Context: the code
    goes on with a ValueError, and no Context is made. *)
Theorem C103_missing_stream : forall blake cur env ss c x args k,
  nth_error env c = Some x -> trace_ok cur (x_trace x) = true -> (forall m i, dget m (x_rngs x) = Some i -> i < List.length ss) ->
  (exists a n, In (a, n) args /\ dget n (x_rngs x) = None) ->
  exists ss' l, krun blake (KNew c args k) cur env ss = (let '(ss2, l2, res) := krun blake (k (Err ValueError)) cur env ss' in (ss2, l ++ l2, res)).
Proof.
  intros blake cur env ss c x args k Hc Ht Hl Hm. destruct (draws_missing blake cur x args Ht ss Hl Hm) as (ss' & l & E). exists ss', l.
  cbn [krun]. rewrite Hc, E. reflexivity.
Qed.
Print Assumptions C103_missing_stream.

(** *** The hypotheses are met *)

(** There are hash functions without collisions. *)
Fixpoint ex_hash (s : string) : nat := match s with EmptyString => 0 | String c s' => ex_hash s' * 256 + nat_of_ascii c + 1 end.
Example C103_ex_hash : forall a b, ex_hash a = ex_hash b -> a = b.
Proof.
  induction a as [|c a IH]; intros [|d b]; cbn [ex_hash]; intros H; [reflexivity|lia|lia|].
  pose proof (nat_ascii_bounded c). pose proof (nat_ascii_bounded d).
  assert (ex_hash a = ex_hash b /\ nat_of_ascii c = nat_of_ascii d) as [E1 E2] by lia.
  rewrite (IH _ E1). rewrite <- (ascii_nat_embedding c), <- (ascii_nat_embedding d), E2. reflexivity.
Qed.

(** Two contexts; the second shares the dropout stream of the first. *)
Definition ex_ops : list cop :=
  [ONew (Some (ArgInt 0)) [] [("dropout", ArgKey (KArr 7)); ("noise", ArgInt 3)]; ONew None [("train", true)] [("dropout", ArgStream 0)]].
Definition outer : trace_state := (0, 0).
Definition draw_then (c : nat) (name : string) (k : kprog) : kprog := KDraw c name (fun _ => k).
(** A scan over three layers, split in all streams but noise.  Each layer draws, calls a
    rematerialised function that draws twice, and scans over two inner layers. *)
Definition ex_inner : nat -> kprog := fun j => draw_then 3 "dropout" (if Nat.eqb j 0 then KFin (Ok tt) else draw_then 3 "params" (KFin (Ok tt))).
Definition ex_layer : nat -> kprog := fun i =>
  draw_then 2 "params" (KRemat (2, 0) 2 (draw_then 3 "dropout" (draw_then 3 "dropout" (KFin (Ok tt))))
    (fun _ => KScan (3, 0) 2 (RSeq [RStr "params"; RStr "dropout"]) 2 ex_inner (fun _ => draw_then 2 "noise" (KFin (Ok tt))))).
Definition ex_prog : kprog :=
  draw_then 0 "dropout" (draw_then 1 "dropout" (KScan (1, 0) 0 (RSeq [RStr "params"; RStr "dropout"]) 3 ex_layer
    (fun _ => KCopy 0 (draw_then 2 "params" (KFork 1 (fun _ => draw_then 3 "dropout" (KFin (Ok tt)))))))).
Definition ex_names (s : string) : bool := String.eqb s "params" || String.eqb s "dropout".

Example C103_ex_roots : creates ex_ops /\ fresh_roots ex_ops.
Proof.
  split; [repeat constructor; do 3 eexists; reflexivity|]. unfold fresh_roots. cbn. repeat constructor; cbn; intuition discriminate.
Qed.
Example C103_ex_splits : splits ex_names ex_prog /\ no_new ex_prog.
Proof.
  split; [|unfold ex_prog, ex_layer, ex_inner, draw_then; repeat (constructor; intros); destruct (Nat.eqb _ 0); repeat (constructor; intros)].
  assert (M : forall name, ex_names name = true -> rmatches (RSeq [RStr "params"; RStr "dropout"]) name).
  { intros name H. apply Bool.orb_true_iff in H as [H|H]; apply String.eqb_eq in H as ->; (eapply RM_seq; [|apply RM_str]); cbn; auto. }
  unfold ex_prog, draw_then. constructor. intros _. constructor. intros _. constructor; [exact M| |].
  - intros i. unfold ex_layer, draw_then. constructor. intros _. constructor.
    + repeat (constructor; intros). 
    + intros _. constructor; [exact M| |].
      * intros j. unfold ex_inner, draw_then. constructor. intros _. destruct (Nat.eqb j 0); repeat (constructor; intros).
      * intros _. repeat (constructor; intros).
  - intros _. repeat (constructor; intros).
Qed.
(** What is drawn: two keys, eight in the outer layers together with their inner calls, and two
    more at the end.  The layers take the split keys, along the paths of their calls. *)
Definition layer_draws (i : nat) : list (string * key * counts) :=
  let p := KSplit (KSeed 0) 3 i in let d := KSplit (KArr 7) 3 i in
  [("params", p, [0; 0]); ("dropout", d, [2; 0; 0]); ("dropout", d, [2; 0; 1]);
   ("dropout", KSplit d 2 0, [2; 1; 0]); ("dropout", KSplit d 2 1, [2; 1; 0]); ("params", KSplit p 2 1, [0; 2; 0])].
Example C103_ex_draws : forall blake,
  map (fun d => (d_name d, d_root d, d_path d)) (draws ex_names (run_from blake outer ex_ops ex_prog)) =
  [("dropout", KArr 7, [0]); ("dropout", KArr 7, [1])] ++ flat_map layer_draws [0; 1; 2] ++
  [("params", KSeed 0, [1]); ("dropout", KArr 7, [3; 0])].
Proof. intros blake. vm_compute. reflexivity. Qed.
(** The condition is needed: noise is not split, and every layer draws the same key. *)
Example C103_ex_unsplit :
  map derivation (draws (String.eqb "noise") (run_from (fun _ => 0) outer ex_ops ex_prog)) = repeat (KSeed 3, [0; 2]) 3.
Proof. vm_compute. reflexivity. Qed.
(** A layer that reaches for the Context of the code around it gets an exception and no key. *)
Example C103_ex_closure :
  let p := KScan (1, 0) 0 REllipsis 2 (fun _ => KDraw 0 "params" (fun r => KFin (do _ <- r; Ok tt))) KFin in
  splits (fun _ => true) p /\ snd (run_from (fun _ => 0) outer ex_ops p) = Err TraceContextError /\ draws (fun _ => true) (run_from (fun _ => 0) outer ex_ops p) = [].
Proof.
  cbv zeta. split; [|split; vm_compute; reflexivity].
  constructor; [intros; constructor| |]; intros; repeat (constructor; intros).
Qed.
(** Keys that are splits of one another are not fresh, and indeed two calls can then draw the
    same key although everything is split. *)
Example C103_ex_not_fresh :
  let ops := [ONew None [] [("a", ArgInt 0)]; ONew None [] [("b", ArgKey (KSplit (KSeed 0) 2 1))]] in
  let p := KScan (1, 0) 0 REllipsis 2 (fun _ => draw_then 2 "a" (KFin (Ok tt))) (fun _ => KRemat (1, 0) 1 (draw_then 2 "b" (KFin (Ok tt))) KFin) in
  creates ops /\ NoDup (root_keys ops) /\ splits (fun _ => true) p /\ ~ fresh_roots ops /\
  map derivation (draws (fun _ => true) (run_from (fun _ => 0) outer ops p)) =
    [(KSplit (KSeed 0) 2 0, [0; 0]); (KSplit (KSeed 0) 2 1, [0; 0]); (KSplit (KSeed 0) 2 1, [0; 0])].
Proof.
  cbv zeta. split; [repeat constructor; do 3 eexists; reflexivity|]. split; [cbn; repeat constructor; cbn; intuition discriminate|]. split; [|split].
  - unfold draw_then. constructor; [intros; constructor| |]; intros; repeat (constructor; intros).
  - unfold fresh_roots. cbn. intros H. inversion H as [|? ? N _]. apply N. now left.
  - vm_compute. reflexivity.
Qed.

(** Two layers.  Each makes a Context from a params key and a dropout key, draws params and
    dropout from it, passes it to a rematerialised function that makes a Context from the keys it
    gets, and draws again.  *)
Definition new_from (c : nat) : (result unit -> kprog) -> kprog := KNew c [("params", "params"); ("dropout", "dropout")].
Definition ex_new_layer : nat -> kprog := fun _ =>
  new_from 2 (fun _ => draw_then 3 "params" (draw_then 3 "dropout"
    (KRemat (2, 0) 3 (new_from 4 (fun _ => draw_then 5 "params" (KFin (Ok tt)))) (fun _ => draw_then 3 "params" (KFin (Ok tt)))))).
Definition ex_new_prog : kprog := KScan (1, 0) 0 REllipsis 2 ex_new_layer (fun _ => new_from 0 (fun _ => draw_then 2 "params" (KFin (Ok tt)))).
Example C103_ex_new : splits ex_names ex_new_prog /\ no_folds ex_ops.
Proof.
  assert (D : forall a n, In (a, n) [("params", "params"); ("dropout", "dropout")] -> ex_names a = true -> ex_names n = true).
  { intros a n [H|[H|[]]] _; injection H as <- <-; reflexivity. }
  split.
  - unfold ex_new_prog, ex_new_layer, new_from, draw_then. constructor; [intros; constructor| |]; intros;
      repeat (constructor; [exact D|] || constructor; intros).
  - intros k Hk r h. cbn in Hk. intuition subst; discriminate.
Qed.
Definition fold (k : key) (p : counts) : key := KFold k (stable_hash String.length p).
Definition new_draws (p d : key) : list (key * counts) :=
  [(p, [0; 0]); (d, [0; 0]); (fold p [0; 0], [0]); (fold d [0; 0], [0]);
   (fold p [0; 0], [1; 0]); (fold d [0; 0], [1; 0]); (fold (fold p [0; 0]) [1; 0], [0]); (fold p [0; 0], [2])].
Example C103_ex_new_draws :
  map derivation (draws ex_names (run_from String.length outer ex_ops ex_new_prog)) =
  flat_map (fun i => new_draws (KSplit (KSeed 0) 2 i) (KSplit (KArr 7) 2 i)) [0; 1] ++
  [(KSeed 0, [1]); (KArr 7, [1]); (fold (KSeed 0) [1], [0])].
Proof. vm_compute. reflexivity. Qed.
(** The scanned Decoder of examples/07_transformer.py, cut down: two keys, then two blocks with
    two keys each, made by vmap over split keys; then the same again in both layers of a scan. *)
Definition ex_decoder (c : nat) (k : result unit -> kprog) : kprog :=
  draw_then c "params" (draw_then c "params" (KVmap c "params" "params" 2 (fun _ => draw_then 0 "params" (draw_then 0 "params" (KFin (Ok tt)))) k)).
Definition ex_vmap_prog : kprog := ex_decoder 0 (fun _ => KScan (1, 0) 0 REllipsis 2 (fun _ => ex_decoder 2 KFin) KFin).
Definition decoder_draws (k : key) (p : counts) (n : nat) : list (key * counts) :=
  let b := fold k (p ++ [n + 2]) in
  [(k, p ++ [n]); (k, p ++ [n + 1]); (k, p ++ [n + 2]); (KSplit b 2 0, [0]); (KSplit b 2 0, [1]); (KSplit b 2 1, [0]); (KSplit b 2 1, [1])].
Example C103_ex_vmap : splits ex_names ex_vmap_prog /\
  map derivation (draws ex_names (run_from String.length outer ex_ops ex_vmap_prog)) =
  decoder_draws (KSeed 0) [] 0 ++ decoder_draws (KSplit (KSeed 0) 2 0) [3] 0 ++ decoder_draws (KSplit (KSeed 0) 2 1) [3] 0.
Proof.
  split; [|vm_compute; reflexivity]. unfold ex_vmap_prog, ex_decoder, draw_then. 
  repeat (constructor; intros); auto.
Qed.
(** A new stream whose key comes from a stream that is not split repeats in every layer. *)
Example C103_ex_new_unsplit :
  let p := KScan (1, 0) 0 (RSeq [RStr "params"; RStr "dropout"]) 2 (fun _ => KNew 2 [("params", "noise")] (fun _ => draw_then 3 "params" (KFin (Ok tt)))) KFin in
  map derivation (draws (String.eqb "params") (run_from String.length outer ex_ops p)) = repeat (fold (KSeed 3) [0; 0], [0]) 2.
Proof. vm_compute. reflexivity. Qed.
(** A first key that is itself a fold may be the one that a Context draws later. *)
Example C103_ex_folds :
  let ops := [ONew None [] [("a", ArgInt 0)]; ONew None [] [("a", ArgKey (fold (KSeed 0) [0]))]] in
  let p := KNew 0 [("a", "a")] (fun _ => draw_then 1 "a" (draw_then 2 "a" (KFin (Ok tt)))) in
  creates ops /\ fresh_roots ops /\ splits (fun _ => true) p /\
  map derivation (draws (fun _ => true) (run_from String.length outer ops p)) =
    [(KSeed 0, [0]); (fold (KSeed 0) [0], [0]); (fold (KSeed 0) [0], [0])].
Proof.
  cbv zeta. split; [repeat constructor; do 3 eexists; reflexivity|]. split; [unfold fresh_roots; cbn; repeat constructor; cbn; intuition discriminate|].
  split; [|vm_compute; reflexivity]. constructor; [auto|]. intros. repeat (constructor; intros).
Qed.

(** The second stream is not there: one key has been drawn, and a ValueError is raised. *)
Example C103_ex_missing : forall blake, exists ss' l,
  krun blake (KNew 0 [("params", "params"); ("dropout", "other")] (fun r => KFin r)) outer
    [mkCtx [("params", 0)] [] outer] [mkStream (KArr 3) 0 []] = (ss', l, Err ValueError) /\ List.length l = 1.
Proof. intros blake. do 2 eexists. split; reflexivity. Qed.
