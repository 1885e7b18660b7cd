(** Property C94: layers stacked with jax.vmap and applied with jax.lax.scan by
    hand, from partition and merge (examples/06_scan_over_layers.py).

    [in_turn] (Spec_HandScan) is the python loop over the layers. *)
From Coq Require Import ZArith Lia.
From Verif Require Import PyBase PyBaseFacts ValuesM Spec_Eq ValuesFacts FiltersM StateM Spec_State State_proofs ModuleM SpmdM ContextM TransformM ScanM ScanInitM HandScanM.
From Verif Require Import Spec_Module Spec_Prog Spec_Context Spec_Scan Spec_ScanInit Spec_HandScan.
From Verif Require Import Graph_facts Dfs_proofs Bisim_proofs Mdef_proofs RoundTrip_proofs Clone_proofs Laws_proofs History_proofs Prog_proofs Context_proofs Transform_proofs Scan_proofs ScanRng_proofs ScanInit_proofs HandScan_proofs.
From Verif Require Import Ex_Module Prop_Context Prop_Transform Prop_Scan Prop_ScanInit.
Local Open Scope string_scope.
Local Open Scope list_scope.

(** *** C94 *)
(** The call.  All of the State [s] of the layers is selected by the filter.  The
    context has one stream, [name].  Layer [i] gets slice [i] of [s] along axis 0
    and key [i] of the split key.  If the python loop over the layers ends with
    [x'], the layers leaving the States [outs] of the structure of [s], then the
    call returns [x']; the State of the layers is then the stack of [outs], and
    the structure and everything not below the layers are unchanged. *)
Theorem C94_call :
  forall J name g (f : pctx -> pyval -> prog pyval) w r d s t x ctx j stm ss layers outs x',
  arrays_ok J -> (forall pc x, ok_prog (f pc x)) -> valid_filter g ->
  wf_world w -> r < List.length (w_heap w) -> names_ok w r -> live w r ->
  get_module_def w r = Ok d -> get_state w r = Ok s -> covered g s ->
  (forall k v l, dget k s = Some (ARaw v) -> node_value w (ARaw (a_stack J 0 l))) ->
  x_rngs ctx = [(name, j)] -> nth_error ss j = Some stm -> x_trace ctx = w_trace w ->
  layers <> [] ->
  (forall i l, nth_error layers i = Some l ->
     fst l = turn_ctx name stm (x_flags ctx) (List.length layers) i /\ is_slice J 0 (List.length layers) i s (snd l)) ->
  in_turn w d f x layers outs x' -> Forall (covered g) outs -> Forall (alike s) outs ->
  exists w' s',
    hand_call J (List.length layers) name g t (fun pc x => user_fun (f pc x)) w r x ctx ss = (w', list_set j (bump stm) ss, Ok x') /\
    get_state w' r = Ok s' /\ is_stack J 0 outs s' /\ keys s' = keys s /\
    get_module_def w' r = Ok d /\ w_trace w' = w_trace w /\ (forall p, follow w' r p = follow w r p) /\
    (forall y ob, get_obj w y = Some ob -> ~ reaches w r y -> get_obj w' y = Some ob) /\
    wf_world w' /\ names_ok w' r /\ live w' r /\ w_nodes w' = w_nodes w.
Proof.
  intros J name g f w r d s t x ctx j stm ss layers outs x' HJ Hf Hg Hw Hr Hno Hlive Hd Hs Hcov Hnode Hrng Hstm Htr Hne Hok Ht Hco Hal.
  exact (hand_call_ok J name g f HJ Hf Hg w r d s Hw Hr Hd Hs t x ctx j stm ss layers outs x' Hno Hlive Hnode Hcov Hrng Hstm Htr Hne Hok Ht Hco Hal).
Qed.
Print Assumptions C94_call.

(** It does what [nnx.scan( ..., variable_axes={g: 0}, split_rngs=[name], length=n)] does:
    the same result, the same State of the layers, the same streams. *)
Theorem C94_same_as_scan :
  forall J name g (f : pctx -> pyval -> prog pyval) h w r d s t t' x ctx j stm ss layers outs x',
  arrays_ok J -> (forall pc x, ok_prog (f pc x)) -> (forall pc x xs, ok_prog (h pc x xs)) -> scans h f -> valid_filter g -> g <> FEllipsis ->
  wf_world w -> r < List.length (w_heap w) -> names_ok w r -> live w r ->
  get_module_def w r = Ok d -> get_state w r = Ok s -> covered g s ->
  (forall k v ax l, dget k s = Some (ARaw v) -> node_value w (ARaw (a_stack J ax l))) ->
  x_rngs ctx = [(name, j)] -> nth_error ss j = Some stm -> x_trace ctx = w_trace w ->
  layers <> [] ->
  (forall i l, nth_error layers i = Some l ->
     fst l = turn_ctx name stm (x_flags ctx) (List.length layers) i /\ is_slice J 0 (List.length layers) i s (snd l)) ->
  in_turn w d f x layers outs x' -> Forall (covered g) outs -> Forall (alike s) outs ->
  exists w1 w2 ss' s',
    hand_call J (List.length layers) name g t (fun pc x => user_fun (f pc x)) w r x ctx ss = (w1, ss', Ok x') /\
    scan_apply J (mkScan [(g, 0%Z)] FNone FEllipsis (RStr name) 0%Z 0%Z (Some (List.length layers)) false None) t'
      (fun pc x xs => user_fun (h pc x xs)) w r x [] (Some ctx) ss = (w2, ss', Ok (x', [])) /\
    get_state w1 r = Ok s' /\ get_state w2 r = Ok s' /\
    get_module_def w1 r = Ok d /\ get_module_def w2 r = Ok d.
Proof.
  intros J name g f h w r d s t t' x ctx j stm ss layers outs x' HJ Hf Hh Hsc Hg Hge Hw Hr Hno Hlive Hd Hs Hcov Hnode Hrng Hstm Htr Hne Hok Ht Hco Hal.
  destruct (C94_call J name g f w r d s t x ctx j stm ss layers outs x') as (w1 & s1 & E1 & G1 & K1 & Q1 & D1 & _ & _ & _ & W1 & _); auto.
  { intros k v l D. eapply Hnode; eauto. }
  pose proof (hand_wf_s w r s Hw Hr Hs) as Ws. pose proof (state_plain _ _ _ Hw Hs) as Pls.
  assert (O1 : Forall wf_state outs).
  { destruct (in_turn_steps name g f Hf Hg w r d Hw Hr Hd x layers outs x' Ht) with (wb := w) as (w3 & _ & _ & O1 & O2); auto.
    - apply Forall_forall. intros l Hl. apply In_nth_error in Hl as [i Hi]. destruct (Hok i l Hi) as [H1 _]. eauto.
    - apply Forall_forall. intros l Hl. apply In_nth_error in Hl as [i Hi]. destruct (Hok i l Hi) as [_ H2]. eapply (plain_slice J HJ); eauto; [apply nth_error_Some; congruence|now apply wf_NoDup]. }
  set (n := List.length layers) in *. set (o := same_opts g name n).
  set (pc := mkPctx [(name, s_key stm)] [(name, s_path stm ++ [s_count stm])] (x_flags ctx)).
  assert (HC : scan_ctx (w_trace w) (o_split o) (Some ctx) ss = (Ok (Some (pc, fun x => String.eqb x name)), list_set j (bump stm) ss)).
  { unfold scan_ctx. pose proof (hand_key_one _ name ctx j stm ss Hrng Hstm Htr) as HK. unfold hand_key in HK.
    destruct (context_partition (w_trace w) ctx ss) as [[pc0|e] ss0]; [|discriminate]. destruct (dget name (pc_keys pc0)); [|discriminate]. injection HK as -> _ ->. reflexivity. }
  assert (Hno' : outs <> []) by (destruct Ht; [congruence|discriminate]).
  destruct (C49_scan J o h w r d s [s] [] [] t' x [] (Some ctx) (Some (pc, fun x => String.eqb x name)) ss (list_set j (bump stm) ss)
    (map lift_in layers) (map (fun o => ([o], [])) outs) (map (fun _ => []) outs) x' (map (fun o => [o]) outs))
    as (w2 & axs & ys & s2 & E2 & Y1 & Y2 & A1 & A2 & G2 & Q2 & B1 & _ & _ & D2 & _ & _ & _ & W2 & _); auto.
  { exact (partition_three g s Ws Hg Hge Hcov). }
  { intros st k v ax l [<-|[]] D. eapply Hnode; eauto. }
  { destruct layers; [congruence|discriminate]. }
  { intros i l Hi. rewrite map_length. fold n. rewrite nth_error_map in Hi. destruct (nth_error layers i) as [l0|] eqn:E0; [|discriminate]. injection Hi as <-.
    destruct (Hok i l0 E0) as [L1 L2]. split; [|split].
    - cbn. f_equal. rewrite L1. unfold turn_ctx, step_keys, pc. cbn. rewrite !String.eqb_refl. reflexivity.
    - exists [snd l0]. split; [repeat constructor; apply L2|reflexivity].
    - constructor. }
  { cbn. discriminate. }
  { cbn. rewrite map_length. now intros m [= <-]. }
  { exact (in_turn_loop w d h f g x layers outs x' name n Hsc Hg Hge Ht Hco O1). }
  { clear. induction outs; cbn; constructor; auto. }
  { intros x0 y Hx Hy. apply in_map_iff in Hx as (? & <- & _). apply in_map_iff in Hy as (? & <- & _). reflexivity. }
  { intros x0 Hx. apply in_map_iff in Hx as (y & <- & Hy). rewrite Forall_forall in Hal. repeat constructor; now apply Hal. }
  { intros x0 Hx. apply in_map_iff in Hx as (y & <- & Hy). constructor. }
  { cbn. discriminate. }
  cbn [o same_opts o_axes List.length] in A1. destruct axs as [|st [|? ?]]; try discriminate.
  assert (ys = []). { destruct outs as [|o1 outs]; [congruence|]. specialize (Y2 ([o1], []) (or_introl eq_refl)). destruct ys; [reflexivity|discriminate]. } subst ys.
  pose proof (A2 0 (g, 0%Z) st eq_refl eq_refl) as K2. cbn [o same_opts o_reverse snd] in K2.
  assert (Em : map (fun x : list state => nth 0 x []) (map (fun o => [o]) outs) = outs) by (rewrite map_map; apply map_id). rewrite Em in K2.
  assert (Ast : alike s st).
  { destruct outs as [|o1 outs]; [congruence|]. eapply alike_trans; [inversion Hal; eassumption|]. apply K2. now left. }
  assert (W2' : wf_state s2) by (eapply wf_same_keys; eauto).
  assert (W1' : wf_state s1) by (eapply wf_same_keys; eauto).
  assert (Wst : wf_state st) by (eapply wf_same_keys; [symmetry; apply alike_keys; exact Ast|exact Ws]).
  assert (Es : s2 = st).
  { apply state_ext; auto. intros k. destruct (dget k st) as [a|] eqn:D; [now apply (B1 0 st)|]. apply dget_None. rewrite Q2, (alike_keys _ _ Ast). now apply dget_None. }
  subst s2. assert (s1 = st) by (eapply (is_stack_unique J 0 outs); eauto). subst s1.
  exists w1, w2, (list_set j (bump stm) ss), st. auto 10.
Qed.
Print Assumptions C94_same_as_scan.

(** The constructor.  [n] calls of it, each with its own key of the split key of
    the stream [name], give modules of one definition [d] with States [st i] of
    one structure.  Then [self.layers] has definition [d], the shape of layer 0,
    and a State whose slice [i] along axis 0 is [st i]; and [d] merged with
    [st i] is a copy of the module made by call [i]. *)
Theorem C94_layers :
  forall J n name t ctor w ctx j stm ss lw lr d st,
  arrays_ok J -> stack_slices J -> 0 < n ->
  x_rngs ctx = [(name, j)] -> nth_error ss j = Some stm -> x_trace ctx = w_trace w ->
  (forall i, i < n -> block_made ctor (set_trace w t) (turn_ctx name stm (x_flags ctx) n i) (lw i) (lr i) d (st i)) ->
  w_nodes (lw 0) = w_nodes w ->
  (forall i j, i < n -> j < n -> alike (st i) (st j)) ->
  (forall i k a, i < n -> dget k (st i) = Some a -> not_module (val_of a)) ->
  (forall i k v ax l, i < n -> dget k (st i) = Some (ARaw v) -> cls_of_attr (ARaw (a_stack J ax l)) = cls_of_attr (ARaw v)) ->
  exists w' m U,
    hand_init J n name t ctor w ctx ss = (w', list_set j (bump stm) ss, Ok m) /\
    refilled_copy (lw 0) (lr 0) U (set_trace (lw 0) (w_trace w)) w' m /\
    get_module_def w' m = Ok d /\ get_state w' m = Ok U /\
    (forall i, i < n -> is_slice J 0 n i U (st i)) /\
    (forall i wb, i < n -> exists mi wi, merge wb d [st i] = Ok (mi, wi) /\ faithful_copy (lw i) (lr i) wb wi mi).
Proof.
  intros J n name t ctor w ctx j stm ss lw lr d st HA HJ Hn Hrng Hstm Htr HM Hnod Hal Hval Hraw.
  destruct (hand_init_is_scan_init J n name t ctor w ctx j stm ss lw lr d st Hn Hrng Hstm Htr HM) as (HC & HL & HS & HE).
  set (pc := mkPctx [(name, s_key stm)] [(name, s_path stm ++ [s_count stm])] (x_flags ctx)) in *.
  assert (HM' : forall i, i < n -> layer_made (same_opts (FNot FNone) name n) ctor (set_trace w t) (option_map (fun pp => lane_keys (snd pp) n (fst pp) i) (Some (pc, fun x => String.eqb x name)))
            (lw i) (lr i) d (st i) [st i] [] []).
  { intros i Hi. cbn [option_map fst snd]. rewrite HL. now apply block_layer, HM. }
  assert (Hal' : forall i j, i < n -> j < n -> Forall2 alike [st i] [st j]). { intros i i' Hi Hj. repeat constructor. now apply Hal. }
  assert (Hby : Forall by_class (o_filters (same_opts (FNot FNone) name n))). { cbn. constructor; [|constructor; [|constructor; [|constructor]]]; intros k a a' _; cbn; tauto. }
  assert (Hval' : forall i s k a, i < n -> In s [st i] -> dget k s = Some a -> not_module (val_of a)). { intros i s k a Hi [<-|[]] D. eapply Hval; eauto. }
  assert (Hraw' : forall i s k v axis l, i < n -> In s [st i] -> dget k s = Some (ARaw v) -> cls_of_attr (ARaw (a_stack J axis l)) = cls_of_attr (ARaw v)).
  { intros i s k v axis l Hi [<-|[]] D. eapply Hraw; eauto. }
  assert (Hcx : Some ctx <> None \/ o_axes (same_opts (FNot FNone) name n) <> []) by (left; discriminate).
  destruct (C67_layers J (same_opts (FNot FNone) name n) t ctor w (Some ctx) ss (Some (pc, fun x => String.eqb x name)) (list_set j (bump stm) ss) n lw lr d st (fun i => [st i]) [] []
    HA HJ eq_refl Hn Hcx HC HM' Hnod Hal' Hby Hval' Hraw')
    as (w' & m & U & axs & SI & RC & D & G & PU & LO & MG); [intros F; exfalso; apply F; reflexivity|].
  assert (WU : wf_state U). { destruct (rc_wf _ _ _ _ _ _ RC) as (W1 & W2 & _). destruct (get_state_total w' m W1 W2) as (U' & E & W). congruence. }
  assert (axs = [U]).
  { change (o_filters (same_opts (FNot FNone) name n)) with [FNot FNone; FNone; FEllipsis] in PU.
    rewrite partition_three in PU; auto; [|exact Logic.I|discriminate|intros k a _; cbn; tauto]. injection PU as PU. destruct axs as [|x [|y [|z axs]]]; cbn in PU; try discriminate; injection PU; intros; subst; try discriminate; try reflexivity.
    destruct axs; discriminate. }
  subst axs. exists w', m, U. split; [now rewrite HE|]. split; [exact RC|]. split; [exact D|]. split; [exact G|]. split.
  - intros i Hi. specialize (LO (map (fun i => (Some (turn_ctx name stm (x_flags ctx) n i), [st i], [])) (seq 0 n)) []).
    assert (LO' : layers_ok J (same_opts (FNot FNone) name n) [U] [] (Some (pc, fun x => String.eqb x name)) (map (fun i => (Some (turn_ctx name stm (x_flags ctx) n i), [st i], [])) (seq 0 n))).
    { apply LO; [now rewrite map_length, seq_length|]. intros i' l Hl. assert (Hi' : i' < n). { assert (Q : i' < List.length (map (fun i => (Some (turn_ctx name stm (x_flags ctx) n i), [st i], @nil pyval)) (seq 0 n))) by (apply nth_error_Some; intros Q; pose proof (eq_trans (eq_sym Q) Hl); discriminate). now rewrite map_length, seq_length in Q. }
      rewrite nth_error_map_seq in Hl by exact Hi'. injection Hl as <-. cbn [fst snd option_map]. rewrite HS. repeat split. constructor. }
    destruct (LO' i (Some (turn_ctx name stm (x_flags ctx) n i), [st i], []) (nth_error_map_seq _ _ _ Hi)) as (_ & (raw & R1 & R2) & _).
    rewrite map_length, seq_length in R1. cbn in R1, R2. injection R2 as ->. now inversion R1.
  - intros i wb Hi. destruct (MG i wb Hi) as (mi & wi & M1 & M2). exists mi, wi. split; [|exact M2]. now rewrite <- M1, merge_pads.
Qed.
Print Assumptions C94_layers.

(** Different layers draw different keys, in the constructor and in the call *)
Theorem C94_keys_differ :
  forall blake name stm flags n i i' t t' ops ops' a b k k',
  i < n -> i' < n -> i <> i' -> Forall no_new ops -> Forall no_new ops' ->
  draws_key blake t (turn_ctx name stm flags n i) ops a name k ->
  draws_key blake t' (turn_ctx name stm flags n i') ops' b name k' -> k <> k'.
Proof.
  intros blake name stm flags n i i' t t' ops ops' a b k k' Hi Hj Hij F F' D D'.
  set (pc := mkPctx [(name, s_key stm)] [(name, s_path stm ++ [s_count stm])] flags).
  set (ctx := mkCtx [(name, 0)] flags (0, 0)).
  assert (HC : scan_ctx (0, 0) (RStr name) (Some ctx) [stm] = (Ok (Some (pc, fun x => String.eqb x name)), [bump stm])).
  { cbn. now rewrite ?String.eqb_refl. }
  assert (HS : forall i, lane_keys (fun x => String.eqb x name) n pc i = turn_ctx name stm flags n i).
  { intros q. unfold lane_keys, turn_ctx, pc. cbn. now rewrite String.eqb_refl. }
  apply (C67_split_streams_differ blake (0, 0) (RStr name) ctx [stm] pc (fun x => String.eqb x name) [bump stm] n i i' t t' ops ops' a b name k k'); auto.
  - cbn. constructor; [intros []|constructor].
  - constructor.
  - now rewrite HS.
  - now rewrite HS.
Qed.
Print Assumptions C94_keys_differ.

(** **** What raises *)
(** A second stream in the context: merging the context inside the scanned
    function is a KeyError, as only the key of [name] is given.  The modules are
    as before; the streams have been forked. *)
Theorem C94_other_stream :
  forall J n name other g t f w r x ctx ss pc ss' d s sl,
  context_partition (w_trace w) ctx ss = (Ok pc, ss') -> In name (keys (x_rngs ctx)) -> In other (keys (x_rngs ctx)) -> other <> name ->
  wf_world w -> r < List.length (w_heap w) -> get_module_def w r = Ok d -> get_state w r = Ok s -> valid_filter g -> covered g s ->
  0 < n -> slice_state J 0 s = Ok sl -> Forall (fun e => List.length (snd (snd e)) = n) sl ->
  hand_call J n name g t f w r x ctx ss = (w, ss', Err KeyError).
Proof.
  intros J n name other g t f w r x ctx ss pc ss' d s sl HP Hin Hot Hne Hw Hr Hd Hs Hg Hcov Hn Hsl Hlen.
  destruct (get_state_total w r Hw Hr) as (s' & E & Ws). assert (s' = s) by congruence. subst s'.
  assert (Hpc : (exists k, dget name (pc_keys pc) = Some k) /\ In other (map fst (pc_counts pc))).
  { unfold context_partition in HP. destruct (negb _); [discriminate|]. destruct (fork_all (x_rngs ctx) ss) as [[fs|e] ss1] eqn:EF; [|discriminate]. cbn in HP. injection HP as <- _.
    apply fork_keys in EF. split.
    - cbn [pc_keys]. destruct (dget name (dict_of _)) as [k|] eqn:D; [eauto|]. exfalso. apply dget_None in D. apply D. unfold dict_of. apply In_keys_dupdate. left. unfold keys in *. rewrite map_map. change (In name (map fst fs)). rewrite EF. exact Hin.
    - cbn [pc_counts]. rewrite map_map. change (In other (map fst fs)). unfold keys in *. rewrite EF. exact Hot. }
  destruct Hpc as [[k Hk] Hc]. unfold hand_call, hand_key. rewrite HP, Hk. unfold module_partition. rewrite Hd, Hs. cbn [rbind].
  rewrite (partition_covered g s Ws Hg Hcov). cbn [rbind p_states]. rewrite Hsl. cbn [rbind]. destruct (Nat.eqb_spec n 0) as [|_]; [lia|].
  replace (forallb _ sl) with true. 2:{ symmetry. apply forallb_forall. intros e He. rewrite Forall_forall in Hlen. apply Nat.eqb_eq. now apply Hlen. }
  destruct n as [|n]; [lia|]. cbn [seq map hand_steps]. unfold hand_step at 1. cbn [fst snd].
  assert (EK : pctx_merge (w_trace (set_trace w t)) (hand_ctx name pc k (S n) 0) [] = Err KeyError).
  { apply C57_missing_key. exists other. split; [exact Hc|]. cbn. destruct (String.eqb_spec other name); [contradiction|reflexivity]. }
  rewrite EK. destruct w; reflexivity.
Qed.
Print Assumptions C94_other_stream.

(** No stream [name]: KeyError *)
Theorem C94_no_stream :
  forall J n name g t t' f ctor w r x ctx ss pc ss',
  context_partition (w_trace w) ctx ss = (Ok pc, ss') -> ~ In name (keys (x_rngs ctx)) ->
  hand_call J n name g t f w r x ctx ss = (w, ss', Err KeyError) /\
  hand_init J n name t' ctor w ctx ss = (w, ss', Err KeyError).
Proof.
  intros J n name g t t' f ctor w r x ctx ss pc ss' HP Hno.
  assert (D : dget name (pc_keys pc) = None).
  { unfold context_partition in HP. destruct (negb _); [discriminate|]. destruct (fork_all (x_rngs ctx) ss) as [[fs|e] ss1] eqn:EF; [|discriminate]. cbn in HP. injection HP as <- _.
    apply fork_keys in EF. cbn [pc_keys]. apply dget_None. unfold dict_of. intros Q. apply In_keys_dupdate in Q as [Q|[]]. apply Hno. unfold keys in *. rewrite map_map in Q. change (In name (map fst fs)) in Q. now rewrite EF in Q. }
  unfold hand_call, hand_init, hand_key. rewrite HP, D. split; reflexivity.
Qed.
Print Assumptions C94_no_stream.

(** State not selected by the filter: ValueError, the modules are as before *)
Theorem C94_other_state :
  forall J n name g t f w r x ctx ss pc k ss' s p a,
  context_partition (w_trace w) ctx ss = (Ok pc, ss') -> dget name (pc_keys pc) = Some k ->
  wf_world w -> r < List.length (w_heap w) -> get_state w r = Ok s -> valid_filter g ->
  dget p s = Some a -> ~ matches g p a ->
  hand_call J n name g t f w r x ctx ss = (w, ss', Err ValueError).
Proof.
  intros J n name g t f w r x ctx ss pc k ss' s p a HP Hk Hw Hr Hs Hg D N.
  destruct (partition_ok_iff_state w r [g] Hw Hr) as (d & s' & Hd & Hs' & Ws & E). assert (s' = s) by congruence. subst s'.
  unfold hand_call, hand_key. rewrite HP, Hk, E, (partition_uncovered g s p a Ws Hg D N). reflexivity.
Qed.
Print Assumptions C94_other_state.

(** An array whose number of slices is not [n]: ValueError, the modules are as before *)
Theorem C94_lengths :
  forall J n name g t f w r x ctx ss pc k ss' s sl p a l,
  context_partition (w_trace w) ctx ss = (Ok pc, ss') -> dget name (pc_keys pc) = Some k ->
  wf_world w -> r < List.length (w_heap w) -> get_state w r = Ok s -> valid_filter g -> covered g s ->
  0 < n -> slice_state J 0 s = Ok sl -> In (p, (a, l)) sl -> List.length l <> n ->
  hand_call J n name g t f w r x ctx ss = (w, ss', Err ValueError).
Proof.
  intros J n name g t f w r x ctx ss pc k ss' s sl p a l HP Hk Hw Hr Hs Hg Hcov Hn Hsl Hin Hl.
  destruct (partition_ok_iff_state w r [g] Hw Hr) as (d & s' & Hd & Hs' & Ws & E). assert (s' = s) by congruence. subst s'.
  unfold hand_call, hand_key. rewrite HP, Hk, E, (partition_covered g s Ws Hg Hcov). cbn [rmap rbind p_states]. rewrite Hsl. cbn [rbind]. destruct (Nat.eqb_spec n 0) as [|_]; [lia|].
  replace (forallb _ sl) with false; [reflexivity|]. symmetry. apply Bool.not_true_iff_false. intros F. rewrite forallb_forall in F. specialize (F _ Hin). cbn in F. apply Nat.eqb_eq in F. contradiction.
Qed.
Print Assumptions C94_lengths.

(** Example: the layers of a Block with a Linear, three of them; the layer adds
    its own parameter to the input times ten, and the number of its key to the
    parameter. *)
Definition ex_hand_param (v : pyval) : attr := ACont (mkCont Param_cls [("sharding", PyNone)] v).
Definition ex_hand_world : world := mkWorld
  [ mkMobj (Mod_cls "Block") 1 false (0, 0) [("linear", sub 1); ("name", ARaw (PyStr "b"))];
    mkMobj (Mod_cls "Linear") 2 false (0, 0) [("kernel", ex_hand_param (ints [1%Z; 2%Z; 3%Z])); ("bias", ex_hand_param (ints [4%Z; 5%Z; 6%Z]))];
    mkMobj (Mod_cls "Other") 5 false (0, 0) [("peer", sub 1)] ]
  5 (0, 0) default_node_types.
Definition ex_lane_number (pc : pctx) : Z :=
  match dget "dropout" (pc_keys pc) with Some (KSplit _ _ i) => Z.of_nat i | _ => 50%Z end.
(** k = m.linear.kernel; m.linear.kernel = k + key; return x * 10 + k + m.linear.bias *)
Definition ex_hand_layer (pc : pctx) (x : pyval) : prog pyval :=
  Do (CGet 0 "linear") (fun _ => Do (CGet 1 "kernel") (fun a => Do (CSet 1 "kernel" (ARaw (PyInt (num a + 100 * ex_lane_number pc)))) (fun _ =>
  Do (CGet 1 "bias") (fun b => Finish (Ok (PyInt (vnum x * 10 + num a + num b)%Z)))))).
Definition ex_hand_scanned (pc : option pctx) (x : pyval) (xs : list pyval) : prog (pyval * list pyval) :=
  let q := match pc with Some p => p | None => mkPctx [] [] [] end in
  Do (CGet 0 "linear") (fun _ => Do (CGet 1 "kernel") (fun a => Do (CSet 1 "kernel" (ARaw (PyInt (num a + 100 * ex_lane_number q)))) (fun _ =>
  Do (CGet 1 "bias") (fun b => Finish (Ok (PyInt (vnum x * 10 + num a + num b)%Z, [])))))).
Definition ex_hand_state (k b : pyval) : state := [("linear/bias", ex_hand_param b); ("linear/kernel", ex_hand_param k)].
Definition ex_hand_ctx : context := mkCtx [("dropout", 1)] [("deterministic", false)] (0, 0).
Definition ex_hand_layers : list (pctx * state) :=
  map (fun i => (turn_ctx "dropout" (mkStream (KSeed 1) 0 []) [("deterministic", false)] 3 i, ex_hand_state (PyInt (Z.of_nat i + 1)) (PyInt (Z.of_nat i + 4)))) [0; 1; 2].
Definition ex_hand_outs : list state := [ex_hand_state (PyInt 1) (PyInt 4); ex_hand_state (PyInt 102) (PyInt 5); ex_hand_state (PyInt 203) (PyInt 6)].

Example C94_example_hyps :
  (forall pc x, ok_prog (ex_hand_layer pc x)) /\ (forall pc x xs, ok_prog (ex_hand_scanned pc x xs)) /\ scans ex_hand_scanned ex_hand_layer /\
  valid_filter (FType "Param") /\
  wf_world ex_hand_world /\ names_ok ex_hand_world 0 /\ live ex_hand_world 0 /\
  (exists d s, get_module_def ex_hand_world 0 = Ok d /\ get_state ex_hand_world 0 = Ok s /\ covered (FType "Param") s /\
     (forall k v, dget k s <> Some (ARaw v)) /\
     (forall i l, nth_error ex_hand_layers i = Some l ->
        fst l = turn_ctx "dropout" (mkStream (KSeed 1) 0 []) (x_flags ex_hand_ctx) (List.length ex_hand_layers) i /\
        is_slice tuple_arrays 0 (List.length ex_hand_layers) i s (snd l)) /\
     in_turn ex_hand_world d ex_hand_layer (PyInt 7) ex_hand_layers ex_hand_outs (PyInt 7579) /\
     Forall (covered (FType "Param")) ex_hand_outs /\ Forall (alike s) ex_hand_outs).
Proof.
  split. { intros pc x. unfold ex_hand_layer. repeat (apply ok_do; [first [exact Logic.I | split; [exact Logic.I|reflexivity]]|intros ? _]). constructor. }
  split. { intros pc x xs. unfold ex_hand_scanned. repeat (apply ok_do; [first [exact Logic.I | split; [exact Logic.I|reflexivity]]|intros ? _]). constructor. }
  split. { intros pc x w m. unfold user_fun, ex_hand_scanned, ex_hand_layer.
    cbn [run]. destruct (exec w [m] _) as [[w1 e1] a1]. destruct (exec w1 e1 _) as [[w2 e2] a2]. destruct (exec w2 e2 _) as [[w3 e3] a3]. destruct (exec w3 e3 _) as [[w4 e4] a4]. reflexivity. }
  split; [exact Logic.I|]. split; [apply wf_worldb_ok; vm_compute; reflexivity|]. split; [apply names_okb_ok; vm_compute; reflexivity|]. split; [apply liveb_ok; vm_compute; reflexivity|].
  eexists. exists (ex_hand_state (ints [1%Z; 2%Z; 3%Z]) (ints [4%Z; 5%Z; 6%Z])). split; [vm_compute; reflexivity|]. split; [vm_compute; reflexivity|].
  assert (C : forall k b, covered (FType "Param") (ex_hand_state k b)).
  { intros k b p a D. cbn in D. destruct (String.eqb p "linear/bias"); [injection D as <-; cbn; auto|]. destruct (String.eqb p "linear/kernel"); [injection D as <-; cbn; auto|discriminate]. }
  assert (A : forall k b k' b', alike (ex_hand_state k b) (ex_hand_state k' b')) by (intros; repeat constructor).
  split; [apply C|]. split. { intros p v D. cbn in D. destruct (String.eqb p "linear/bias"); [discriminate|]. destruct (String.eqb p "linear/kernel"); discriminate. }
  split.
  { intros i l E. assert (X : nth_error [0; 1; 2] i = Some i /\ l = (turn_ctx "dropout" (mkStream (KSeed 1) 0 []) [("deterministic", false)] 3 i, ex_hand_state (PyInt (Z.of_nat i + 1)) (PyInt (Z.of_nat i + 4)))).
    { destruct i as [|[|[|[|i]]]]; cbn in E; try discriminate; injection E as <-; split; reflexivity. }
    destruct X as [X ->]. split; [reflexivity|]. split; [apply A|]. intros p v (a & D & ->). cbn in D. change (List.length ex_hand_layers) with 3.
    destruct (String.eqb_spec p "linear/bias") as [->|]; [|destruct (String.eqb_spec p "linear/kernel") as [->|]; [|discriminate]]; injection D as <-.
    - exists (map PyInt [4%Z; 5%Z; 6%Z]), (PyInt (Z.of_nat i + 4)). split; [reflexivity|]. split; [reflexivity|]. split; [destruct i as [|[|[|i]]]; try reflexivity; destruct i; discriminate|]. eexists. split; reflexivity.
    - exists (map PyInt [1%Z; 2%Z; 3%Z]), (PyInt (Z.of_nat i + 1)). split; [reflexivity|]. split; [reflexivity|]. split; [destruct i as [|[|[|i]]]; try reflexivity; destruct i; discriminate|]. eexists. split; reflexivity. }
  split. { unfold ex_hand_layers, ex_hand_outs. cbn [map]. repeat (eapply turn_step; [vm_compute; reflexivity|]). apply turn_done. }
  split; repeat constructor; apply C || apply A.
Qed.
Example C94_example :
  exists w' ss', hand_call tuple_arrays 3 "dropout" (FType "Param") (3, 3) (fun pc x => user_fun (ex_hand_layer pc x)) ex_hand_world 0 (PyInt 7) ex_hand_ctx ex_streams = (w', ss', Ok (PyInt 7579)) /\
    get_state w' 0 = Ok (ex_hand_state (ints [1%Z; 102%Z; 203%Z]) (ints [4%Z; 5%Z; 6%Z])) /\
    look w' 2 ["peer"; "kernel"] = SValue (ex_hand_param (ints [1%Z; 102%Z; 203%Z])).
Proof. do 2 eexists. repeat (apply conj; [vm_compute; reflexivity|]). vm_compute; reflexivity. Qed.
(** the context of [ex_ctx] has a second stream; three layers, [n] = 2 *)
Example C94_errors :
  snd (hand_call tuple_arrays 3 "dropout" (FType "Param") (3, 3) (fun pc x => user_fun (ex_hand_layer pc x)) ex_hand_world 0 (PyInt 7) ex_ctx ex_streams) = Err KeyError /\
  snd (hand_call tuple_arrays 3 "params" (FType "Param") (3, 3) (fun pc x => user_fun (ex_hand_layer pc x)) ex_hand_world 0 (PyInt 7) ex_hand_ctx ex_streams) = Err KeyError /\
  snd (hand_call tuple_arrays 2 "dropout" (FType "Param") (3, 3) (fun pc x => user_fun (ex_hand_layer pc x)) ex_hand_world 0 (PyInt 7) ex_hand_ctx ex_streams) = Err ValueError /\
  snd (hand_call tuple_arrays 3 "dropout" (FType "Param") (3, 3) (fun pc x => user_fun (ex_hand_layer pc x)) ex_scan_world 0 (PyInt 7) ex_hand_ctx ex_streams) = Err ValueError.
Proof. repeat split; vm_compute; reflexivity. Qed.

(** Example of the constructor: four Blocks, as in C67 but of Params only *)
Definition ex_hand_ctor : constructor := fun pc w =>
  let n := List.length (w_heap w) in
  (mkWorld (w_heap w ++
     [mkMobj (Mod_cls "Block") (w_uuid w + 1) false (w_trace w) [("linear", sub (n + 1)); ("name", ARaw (PyStr "b"))];
      mkMobj (Mod_cls "Linear") (w_uuid w + 2) false (w_trace w) [("kernel", ex_hand_param (PyInt (ex_key_number pc))); ("bias", ex_hand_param (PyInt 0))]])
     (w_uuid w + 2) (w_trace w) (w_nodes w), Ok n).
Definition ex_init_ctx : context := mkCtx [("params", 0)] [] (0, 0).
Definition ex_init_turn (i : nat) : pctx := turn_ctx "params" (mkStream (KSeed 0) 2 []) [] 4 i.
Definition ex_hand_lw (i : nat) : world := fst (ex_hand_ctor (Some (ex_init_turn i)) (set_trace ex_hand_world (3, 3))).
Example C94_layers_hyps :
  stack_slices tuple_arrays /\ nth_error ex_streams 0 = Some (mkStream (KSeed 0) 2 []) /\
  (exists d st, (forall i, i < 4 -> block_made ex_hand_ctor (set_trace ex_hand_world (3, 3)) (ex_init_turn i) (ex_hand_lw i) 3 d (st i)) /\
     (forall i j, i < 4 -> j < 4 -> alike (st i) (st j)) /\ st 0 <> st 1) /\
  w_nodes (ex_hand_lw 0) = w_nodes ex_hand_world.
Proof.
  split; [apply tuple_stack_slices|]. split; [reflexivity|]. split; [|reflexivity]. eexists. exists (fun i => ex_hand_state (PyInt (Z.of_nat (10 * i + 5))) (PyInt 0)).
  split. { intros i Hi. destruct i as [|[|[|[|i]]]]; [| | | |lia]; constructor; (apply wf_worldb_ok || apply names_okb_ok || idtac); vm_compute; first [reflexivity | lia]. }
  split; [intros; repeat constructor|]. discriminate.
Qed.
Example C94_layers_example :
  exists w' ss' m, hand_init tuple_arrays 4 "params" (3, 3) ex_hand_ctor ex_hand_world ex_init_ctx ex_streams = (w', ss', Ok m) /\
    get_state w' m = Ok (ex_hand_state (ints [5%Z; 15%Z; 25%Z; 35%Z]) (ints [0%Z; 0%Z; 0%Z; 0%Z])) /\ look w' m ["name"] = SValue (ARaw (PyStr "b")).
Proof. do 3 eexists. repeat (apply conj; [vm_compute; reflexivity|]). vm_compute; reflexivity. Qed.
