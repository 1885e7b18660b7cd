(** Property C67: the module a scanned constructor makes ([nnx.Scan( ... )(args)]).

    The constructor is any function of the context and the heap.  [layer_made]
    (Spec_ScanInit) says what one call of it, on its own, gives. *)
From Coq Require Import ZArith Lia Permutation.
From Verif Require Import PyBase PyBaseFacts ValuesM Spec_Eq ValuesFacts FiltersM StateM Spec_State State_proofs ModuleM SpmdM Spec_Spmd ContextM TransformM ScanM ScanInitM.
From Verif Require Import Spec_Module Spec_Prog Spec_Context Spec_Scan Spec_ScanInit.
From Verif Require Import Spmd_proofs Graph_facts Dfs_proofs Bisim_proofs Mdef_proofs RoundTrip_proofs Clone_proofs Laws_proofs History_proofs Prog_proofs Context_proofs Transform_proofs Scan_proofs ScanRng_proofs ScanInit_proofs Ex_Module Prop_Transform Prop_Scan.
Local Open Scope string_scope.
Local Open Scope list_scope.

(** *** C67 *)
(** [n] calls of the constructor, one per layer, each with the context of its
    layer, give modules with one definition [d], per-layer States [ax i] and the
    same broadcast and carry States [b] and [c].  Then the scanned constructor
    returns a module of definition [d] and of the shape of layer 0, whose
    per-layer States, taken apart again as scan does, are [ax 0], [ax 1], ...;
    whose other States are [b] and [c]; and [d] merged with the States of layer
    [i] is a copy of the module made by call [i]. *)
Theorem C67_layers :
  forall J o t ctor w ctx ss pc ss' n lw lr d st ax b c,
  arrays_ok J -> stack_slices J -> o_length o = Some n -> 0 < n -> (ctx <> None \/ o_axes o <> []) ->
  scan_ctx (w_trace w) (o_split o) ctx ss = (Ok pc, ss') ->
  (forall i, i < n -> layer_made o ctor (set_trace w t) (option_map (fun pp => lane_keys (snd pp) n (fst pp) i) pc)
                        (lw i) (lr i) d (st i) (ax i) b c) ->
  w_nodes (lw 0) = w_nodes w ->
  (forall i j, i < n -> j < n -> Forall2 alike (ax i) (ax j)) ->
  Forall by_class (o_filters o) ->
  (forall i s k a, i < n -> In s (ax i) -> dget k s = Some a -> not_module (val_of a)) ->
  (forall i s k v axis l, i < n -> In s (ax i) -> dget k s = Some (ARaw v) -> cls_of_attr (ARaw (a_stack J axis l)) = cls_of_attr (ARaw v)) ->
  (o_partition o <> None -> forall i j s fx k a, i < n -> nth_error (ax i) j = Some s -> nth_error (o_axes o) j = Some fx -> In (k, a) s ->
     (0 <= snd fx)%Z /\ (no_sharding a \/ exists sh, has_sharding a sh /\ Z.to_nat (snd fx) <= List.length sh)) ->
  exists w' m U axs,
    scan_init J o t ctor w ctx ss = (w', ss', Ok m) /\
    refilled_copy (lw 0) (lr 0) U (set_trace (lw 0) (w_trace w)) w' m /\
    get_module_def w' m = Ok d /\ get_state w' m = Ok U /\
    partition_state U (o_filters o) = Ok (Many (axs ++ [b; c])) /\
    (forall (layers : list step_in) xs,
       List.length layers = n ->
       (forall i l, nth_error layers i = Some l ->
          fst (fst l) = option_map (fun pp => step_keys (snd pp) n (fst pp) i) pc /\ snd (fst l) = ax i /\ leaf_slices J (o_in o) n i xs (snd l)) ->
       layers_ok J o axs xs pc layers) /\
    (forall i wb, i < n -> exists mi wi, merge wb d (ax i ++ [b; c]) = Ok (mi, wi) /\ faithful_copy (lw i) (lr i) wb wi mi).
Proof.
  intros J o t ctor w ctx ss pc ss' n lw lr d st ax b c HA HJ HL Hn Hcx HC HM Hnod Hal Hbc Hval Hraw Hsh.
  destruct (scan_init_full J o t ctor w ctx ss pc ss' n lw lr d st ax b c HA HJ HL Hn Hcx HC HM Hnod Hal Hbc Hval Hraw Hsh) as (fin & m & w' & U & SI & MG & RC & PU & SL & _).
  exists w', m, U, fin. split; [exact SI|].
  split; [exact RC|]. split; [rewrite (rc_def _ _ _ _ _ _ RC); now apply (HM 0)|]. split; [apply (rc_state _ _ _ _ _ _ RC)|]. split; [exact PU|]. split.
  - intros layers xs Hl HX i l E. rewrite Hl. destruct (HX i l E) as (X1 & X2 & X3). split; [exact X1|]. split; [|exact X3]. rewrite X2. apply SL. rewrite <- Hl. apply nth_error_Some. congruence.
  - intros i wb Hi. destruct (HM i Hi) as [M1 M2 M3 M4 M5 M6 M7].
    destruct (partition_merge_faithful (lw i) (lr i) (o_filters o) (mkPure (Many (ax i ++ [b; c])) d) wb (ax i ++ [b; c]) M2 M3 M4) as (mi & wi & A & B).
    + unfold module_partition. rewrite M5, M6. cbn [rbind]. rewrite M7. reflexivity.
    + apply Permutation_refl.
    + exists mi, wi. split; [exact A|exact B].
Qed.
Print Assumptions C67_layers.

(** The context of call [i] is the one layer [i] of the scan itself would get from
    the same context, so what C50 says about draws holds here: *)
Theorem C67_context :
  forall n pc p i cur ss, i < n ->
  exists pci, layer_context n pc p i pci /\ pctx_merge cur (lane_keys p n pc i) ss = pctx_merge cur pci ss.
Proof.
  intros n pc p i cur ss Hi. exists (step_keys p n pc i). split; [|apply lane_merge].
  exists [], (fun _ => []). eexists. split; [unfold scan_input; rewrite nth_error_map; rewrite (nth_error_nth' (seq 0 n) 0) by (now rewrite seq_length); rewrite seq_nth by exact Hi; reflexivity|reflexivity].
Qed.
Print Assumptions C67_context.
(** different calls draw different keys from the streams selected by split_rngs *)
Theorem C67_split_streams_differ :
  forall blake cur split x ss pc p ss' n i j t t' ops ops' a b name k k',
  NoDup (keys (x_rngs x)) -> scan_ctx cur split (Some x) ss = (Ok (Some (pc, p)), ss') ->
  i < n -> j < n -> i <> j -> rmatches split name -> Forall no_new ops -> Forall no_new ops' ->
  draws_key blake t (lane_keys p n pc i) ops a name k -> draws_key blake t' (lane_keys p n pc j) ops' b name k' -> k <> k'.
Proof.
  intros blake cur split x ss pc p ss' n i j t t' ops ops' a b name k k' N S Hi Hj Hij M F F' D D'.
  unfold draws_key in D, D'. rewrite lane_alone in D, D'.
  assert (L : forall q, q < n -> layer_context n pc p q (step_keys p n pc q)).
  { intros q Hq. destruct (C67_context n pc p q cur ss Hq) as (pci & L & _). now rewrite <- (layer_context_is _ _ _ _ _ L). }
  exact (C50_split_streams_differ blake cur split x ss pc p ss' n i j _ _ t t' ops ops' a b name k k' N S (L i Hi) (L j Hj) Hij M F F' D D').
Qed.
Print Assumptions C67_split_streams_differ.
(** and the same keys from the others *)
Theorem C67_other_streams_same_key :
  forall blake cur split x ss pc p ss' n i j t ops a name k,
  NoDup (keys (x_rngs x)) -> scan_ctx cur split (Some x) ss = (Ok (Some (pc, p)), ss') ->
  i < n -> j < n -> ~ rmatches split name -> Forall no_new ops ->
  draws_key blake t (lane_keys p n pc i) ops a name k -> draws_key blake t (lane_keys p n pc j) ops a name k.
Proof.
  intros blake cur split x ss pc p ss' n i j t ops a name k N S Hi Hj M F D. unfold draws_key in *. rewrite lane_alone in *.
  assert (L : forall q, q < n -> layer_context n pc p q (step_keys p n pc q)).
  { intros q Hq. destruct (C67_context n pc p q cur ss Hq) as (pci & L & _). now rewrite <- (layer_context_is _ _ _ _ _ L). }
  exact (C50_other_streams_same_key blake cur split x ss pc p ss' n i j _ _ t ops a name k N S (L i Hi) (L j Hj) M F D).
Qed.
Print Assumptions C67_other_streams_same_key.

(** Without a context and without per-layer State the scanned constructor is the
    constructor, followed by a copy *)
Theorem C67_no_layers :
  forall J o t ctor w ss w1 r p,
  o_axes o = [] -> ctor None w = (w1, Ok r) -> wf_world w1 -> r < List.length (w_heap w1) -> names_ok w1 r ->
  module_partition w1 r (o_filters o) = Ok p ->
  exists w' m, scan_init J o t ctor w None ss = (w', ss, Ok m) /\ faithful_copy w1 r w1 w' m.
Proof.
  intros J o t ctor w ss w1 r p HO HC W V N P.
  assert (E : exists b c, sts_list (p_states p) = [b; c]).
  { pose proof P as P'. unfold module_partition in P'. destruct (get_module_def w1 r) as [d|]; [|discriminate]. destruct (get_state_total w1 r W V) as (s & G & Ws). rewrite G in P'. cbn in P'.
    destruct (partition_state s (o_filters o)) as [[x|l]|] eqn:Q; [| |discriminate]; cbn in P'; injection P' as <-; cbn.
    - exfalso. unfold o_filters in Q. rewrite HO in Q. cbn [map app partition_state] in Q. unfold state_partition in Q. destruct (split_state s [o_broadcast o; o_carry o]) as [l|] eqn:F; [|discriminate].
      destruct (split_state_ok _ _ _ Ws F) as (ps & L & _ & ->). apply rmapM_ok_iff in L. pose proof (Forall2_len _ _ _ L) as LL. destruct ps as [|p1 [|p2 [|? ?]]]; try discriminate. cbn [List.length seq map rbind last removelast pack] in Q.
      destruct (sub_of [p1; p2] 2 s); discriminate.
    - pose proof (partition_parts _ _ _ Ws (state_plain _ _ _ W G) Q) as (_ & _ & L & _). unfold o_filters in L. rewrite HO in L. destruct l as [|b [|c [|? ?]]]; cbn in L; try lia. eauto. }
  destruct E as (b & c & E). destruct (partition_merge_faithful w1 r (o_filters o) p w1 _ W V N P (Permutation_refl _)) as (m & w' & M & F).
  exists w', m. split; [|exact F]. unfold scan_init. rewrite HO. cbn [scan_ctx]. unfold init_lane. rewrite HC, P. cbn [rbind]. rewrite E. cbn [split3 rev app rbind].
  unfold leave_axes. rewrite HO. rewrite E in M. destruct (o_partition o); cbn [on_axes rbind app]; rewrite M; reflexivity.
Qed.
Print Assumptions C67_no_layers.

(** What raises.  Per-layer State without a length: nothing happens before.  A
    context without a length: ValueError. *)
Theorem C67_needs_length :
  forall J o t ctor w ctx ss,
  o_length o = None ->
  (o_axes o <> [] -> scan_init J o t ctor w ctx ss = (w, ss, Err ValueError)) /\
  (forall pc ss', ctx <> None -> o_axes o = [] -> scan_ctx (w_trace w) (o_split o) ctx ss = (Ok pc, ss') ->
     scan_init J o t ctor w ctx ss = (w, ss', Err ValueError)).
Proof.
  intros J o t ctor w ctx ss HL. unfold scan_init. rewrite HL. split.
  - destruct (o_axes o); congruence.
  - intros pc ss' Hc HO S. rewrite HO, S. destruct ctx as [x|]; [|congruence]. cbn in S.
    destruct (context_partition (w_trace w) x ss) as [[pc0|] ss1]; [|discriminate]. destruct (to_rng_predicate (o_split o)); [|discriminate]. cbn in S. now injection S as <- <-.
Qed.
Print Assumptions C67_needs_length.

(** An exception of the constructor passes through; what it did to the heap before
    stays, and the outer trace is current again *)
Theorem C67_exception :
  forall J o t ctor w ctx ss pc ss' n w1 e,
  o_length o = Some n -> 0 < n -> (ctx <> None \/ o_axes o <> []) -> scan_ctx (w_trace w) (o_split o) ctx ss = (Ok pc, ss') ->
  ctor (option_map (fun pp => lane_keys (snd pp) n (fst pp) 0) pc) (set_trace w t) = (w1, Err e) ->
  scan_init J o t ctor w ctx ss = (set_trace w1 (w_trace w), ss', Err e).
Proof.
  intros J o t ctor w ctx ss pc ss' n w1 e HL Hn Hcx HC HE. unfold scan_init. rewrite HL, HC.
  assert (V : vmap_init J o t ctor n (fun i => option_map (fun pp => lane_keys (snd pp) n (fst pp) i) pc) w = (set_trace w1 (w_trace w), Err e)).
  { destruct n as [|n]; [lia|]. cbn [vmap_init]. unfold init_lane. rewrite HE. reflexivity. }
  destruct (o_axes o) eqn:EA; [|destruct pc; cbv zeta; now rewrite V].
  destruct Hcx as [Hcx|Hcx]; [|congruence]. destruct ctx as [x|]; [|congruence]. cbn in HC.
  destruct (context_partition (w_trace w) x ss) as [[pc0|] ss1]; [|discriminate]. destruct (to_rng_predicate (o_split o)); [|discriminate]. cbn in HC. injection HC as <- <-. cbv zeta. now rewrite V.
Qed.
Print Assumptions C67_exception.

(** Broadcast and carry State must be the same in all layers *)
Lemma state_eqb_eq s s' : state_eqb s s' = true -> plain_st s -> plain_st s' -> keys s = keys s' /\ Forall2 same_attr (values s) (values s').
Proof.
  revert s'. induction s as [|[k a] s IH]; intros [|[k' a'] s'] H P P'; try discriminate; [split; [reflexivity|constructor]|].
  cbn in H. apply andb_prop in H as [H1 H2]. apply andb_prop in H1 as [H0 H1]. apply String.eqb_eq in H0 as ->.
  inversion P as [|? ? [Q1 _] Q2]; inversion P' as [|? ? [Q3 _] Q4]; subst. destruct (IH _ H2 Q2 Q4) as [I1 I2].
  split; [unfold keys in *; cbn; now f_equal|]. constructor; [|exact I2]. now apply attr_eqb_spec.
Qed.
Theorem C67_shared_state_must_agree :
  forall J o t ctor w ctx ss pc ss' n lw lr d st ax b c i,
  o_length o = Some n -> (ctx <> None \/ o_axes o <> []) ->
  scan_ctx (w_trace w) (o_split o) ctx ss = (Ok pc, ss') ->
  (forall i, i < n -> layer_made o ctor (set_trace w t) (option_map (fun pp => lane_keys (snd pp) n (fst pp) i) pc)
                        (lw i) (lr i) d (st i) (ax i) (b i) (c i)) ->
  i < n -> (~ (keys (b 0) = keys (b i) /\ Forall2 same_attr (values (b 0)) (values (b i))) \/
            ~ (keys (c 0) = keys (c i) /\ Forall2 same_attr (values (c 0)) (values (c i)))) ->
  scan_init J o t ctor w ctx ss = (set_trace (lw 0) (w_trace w), ss', Err ValueError).
Proof.
  intros J o t ctor w ctx ss pc ss' n lw lr d st ax b c i HL Hcx HC HM Hi HD.
  set (ctxs := fun i => option_map (fun pp => lane_keys (snd pp) n (fst pp) i) pc) in *.
  assert (LI : forall j, j < n -> init_lane o ctor (ctxs j) (set_trace w t) = (lw j, Ok (d, (ax j, b j, c j)))).
  { intros j Hj. destruct (HM j Hj) as [M1 M2 M3 M4 M5 M6 M7]. unfold init_lane. change (ctxs j) with (option_map (fun pp => lane_keys (snd pp) n (fst pp) j) pc). rewrite M1.
    unfold module_partition. rewrite M5, M6. cbn [rbind]. rewrite M7. cbn [rbind p_states p_def sts_list]. now rewrite split3_app. }
  assert (PL : forall j, j < n -> plain_st (b j) /\ plain_st (c j)).
  { intros j Hj. destruct (HM j Hj) as [M1 M2 M3 M4 M5 M6 M7]. destruct (get_state_total (lw j) (lr j) M2 M3) as (s & G & Ws). assert (s = st j) by congruence. subst s.
    destruct (partition_parts _ _ _ Ws (state_plain _ _ _ M2 M6) M7) as (_ & P & _). apply plain_list_app in P as [_ P]. inversion P as [|? ? P1 P2]; subst. inversion P2; subst. auto. }
  assert (V : vmap_init J o t ctor n ctxs w = (set_trace (lw 0) (w_trace w), Err ValueError)).
  { destruct n as [|n']; [lia|]. cbn [vmap_init]. rewrite LI by lia. f_equal.
    rewrite (rmapM_map _ (fun i => (d, (ax i, b i, c i)))) by (intros j Hj; apply in_seq in Hj; rewrite LI by lia; reflexivity). cbn [rbind].
    destruct (forallb _ _) eqn:F; [|reflexivity]. exfalso. rewrite forallb_forall in F.
    assert (EQ : state_eqb (b 0) (b i) = true /\ state_eqb (c 0) (c i) = true).
    { destruct i as [|i].
      - destruct (PL 0) as [P1 P2]; [lia|]. now rewrite !state_eqb_refl.
      - specialize (F (d, (ax (S i), b (S i), c (S i)))). cbn in F. apply andb_prop. apply F. apply in_map_iff. exists (S i). split; [reflexivity|]. apply in_seq. lia. }
    destruct (PL 0) as [P1 P2]; [lia|]. destruct (PL i Hi) as [P3 P4].
    destruct EQ as [E1 E2]. destruct HD as [HD|HD]; apply HD; now apply state_eqb_eq. }
  unfold scan_init. rewrite HL, HC. fold ctxs.
  destruct (o_axes o) eqn:EA; [|destruct pc; cbv zeta; now rewrite V].
  destruct Hcx as [Hcx|Hcx]; [|congruence]. destruct ctx as [x|]; [|congruence]. cbn in HC.
  destruct (context_partition (w_trace w) x ss) as [[pc0|] ss1]; [|discriminate]. destruct (to_rng_predicate (o_split o)); [|discriminate]. cbn in HC. injection HC as <- <-. cbv zeta. now rewrite V.
Qed.
Print Assumptions C67_shared_state_must_agree.

(** Example: a Block of a parameter "w" in a submodule, drawn from the stream
    "params" (here: the number of the key), a counter and a scale; four layers. *)
Definition ex_key_number (pc : option pctx) : Z :=
  match pc with
  | Some p => match dget "params" (pc_keys p) with Some (KSplit _ _ i) => Z.of_nat (10 * i + 5) | _ => 0%Z end
  | None => 0%Z
  end.
Definition ex_ctor : constructor := fun pc w =>
  let n := List.length (w_heap w) in
  (mkWorld (w_heap w ++
     [mkMobj (Mod_cls "Block") (w_uuid w + 1) false (w_trace w) [("scale", lvar (PyInt 10)); ("inner", sub (n + 1)); ("name", ARaw (PyStr "b"))];
      mkMobj (Mod_cls "Dense") (w_uuid w + 2) false (w_trace w) [("w", lparam (PyInt (ex_key_number pc)) [PyStr "x"]); ("count", lstat 0)]])
     (w_uuid w + 2) (w_trace w) (w_nodes w), Ok n).
Definition ex_init_opts : scan_opts :=
  mkScan [(FType "Param", 0%Z)] (FType "BatchStat") FEllipsis (RStr "params") 0%Z 0%Z (Some 4) false (Some "layers").
Definition ex_init_pc : pctx := mkPctx [("params", KSeed 0); ("dropout", KSeed 1)] [("params", [2]); ("dropout", [0])] [("train", true)].
Definition ex_lane (i : nat) : option pctx := Some (lane_keys (fun name => String.eqb name "params") 4 ex_init_pc i).
Definition ex_lw (i : nat) : world := fst (ex_ctor (ex_lane i) (set_trace ex_scan_world (3, 3))).
Definition ex_w (i : nat) : attr := lparam (PyInt (Z.of_nat (10 * i + 5))) [PyStr "x"].

Lemma tuple_stack_slices : stack_slices tuple_arrays.
Proof.
  intros ax l _ H. cbn. replace (forallb _ l) with true; [reflexivity|]. symmetry. apply forallb_forall. intros x I. rewrite Forall_forall in H. specialize (H x I). destruct x; try reflexivity. contradiction.
Qed.
Example C67_example_hyps :
  scan_ctx (w_trace ex_scan_world) (o_split ex_init_opts) (Some ex_ctx) ex_streams =
    (Ok (Some (ex_init_pc, fun name => String.eqb name "params")), [mkStream (KSeed 0) 3 []; mkStream (KSeed 1) 1 []]) /\
  (exists d st, forall i, i < 4 -> layer_made ex_init_opts ex_ctor (set_trace ex_scan_world (3, 3)) (ex_lane i) (ex_lw i) 3 d (st i)
     [[("inner/w", ex_w i)]] [("inner/count", lstat 0)] [("scale", lvar (PyInt 10))]) /\
  (forall i j, i < 4 -> j < 4 -> Forall2 alike [[("inner/w", ex_w i)]] [[("inner/w", ex_w j)]]) /\
  Forall by_class (o_filters ex_init_opts) /\ w_nodes (ex_lw 0) = w_nodes ex_scan_world /\
  forall i, no_sharding (ex_w i) \/ exists sh, has_sharding (ex_w i) sh /\ Z.to_nat 0 <= List.length sh.
Proof.
  split; [reflexivity|]. split.
  { eexists. exists (fun i => [("inner/count", lstat 0); ("inner/w", ex_w i); ("scale", lvar (PyInt 10))]). intros i Hi.
    destruct i as [|[|[|[|i]]]]; [| | | |lia]; constructor; (apply wf_worldb_ok || apply names_okb_ok || idtac); vm_compute; first [reflexivity | lia]. }
  split. { intros i j _ _. repeat constructor. }
  split. { repeat constructor; intros E; cbn in *; try congruence; destruct a, a'; cbn in *; try congruence; tauto. }
  split; [reflexivity|]. intros i. right. exists [Some "x"]. split; [|cbn; lia]. eexists. split; [reflexivity|]. split; [cbn; tauto|reflexivity].
Qed.
Example C67_example :
  exists w' ss' m, scan_init tuple_arrays ex_init_opts (3, 3) ex_ctor ex_scan_world (Some ex_ctx) ex_streams = (w', ss', Ok m) /\
    look w' m ["inner"; "w"] = SValue (lparam (ints [5%Z; 15%Z; 25%Z; 35%Z]) [PyStr "layers"; PyStr "x"]) /\
    look w' m ["inner"; "count"] = SValue (lstat 0) /\ look w' m ["scale"] = SValue (lvar (PyInt 10)) /\ look w' m ["name"] = SValue (ARaw (PyStr "b")).
Proof. do 3 eexists. repeat (apply conj; [vm_compute; reflexivity|]). vm_compute; reflexivity. Qed.
