(** Property C68: a class whose [__init__] is decorated with [nnx.scan].

    [f pc w r] runs the undecorated [__init__] on the object [r]; it is any
    function.  [layer_made] (Spec_ScanInit) says what one call, on its own, gives. *)
From Coq Require Import ZArith Lia Permutation.
From Verif Require Import PyBase PyBaseFacts ValuesM Spec_Eq ValuesFacts FiltersM StateM Spec_State State_proofs ModuleM SpmdM Spec_Spmd ContextM TransformM ScanM ScanInitM PureM.
From Verif Require Import Spec_Module Spec_Prog Spec_Context Spec_Scan Spec_ScanInit.
From Verif Require Import Spmd_proofs Graph_facts Dfs_proofs Bisim_proofs Mdef_proofs RoundTrip_proofs Clone_proofs Laws_proofs Update_proofs Revalue_proofs History_proofs Prog_proofs Context_proofs Transform_proofs Scan_proofs ScanRng_proofs ScanInit_proofs Refuse_proofs ScanDeco_proofs Ex_Module Prop_Transform Prop_Scan Prop_ScanInit.
Local Open Scope string_scope.
Local Open Scope list_scope.

Lemma class_kept w r U wb w' m : valid w r -> refilled_copy w r U wb w' m -> all_unchanged w w' ->
  exists ob ob2, get_obj w' r = Some ob /\ get_obj w' m = Some ob2 /\ m_cls ob = m_cls ob2.
Proof.
  intros V RC UN. destruct (get_obj_ex _ _ V) as [ob Ho].
  assert (L : look w r [] = SModule (m_cls ob) (m_init ob)) by (apply look_module; exists r, ob; split; [cbn; now rewrite Ho|auto]).
  apply (rc_module _ _ _ _ _ _ RC) in L. apply look_module in L as (x & ob2 & F & G & C & _). cbn in F. destruct (get_obj w' m) as [o3|] eqn:E; [|discriminate]. injection F as <-.
  exists ob, ob2. split; [now apply UN|]. split; congruence.
Qed.

(** *** C68 *)
(** [n] calls of [__init__] on the object [r], one per layer, each with the context
    of its layer, leave [r] with one definition [d], per-layer States [ax i] and the
    same other States [b] and [c].  With no partition name, or no sharded per-layer
    variable, the decorated [__init__] succeeds and leaves [r] with definition [d]
    and the States stacked; submodules are the objects call 0 made; no other object
    that was there after call 0 changes. *)
Theorem C68_layers :
  forall J o t f w r ctx ss pc ss' n lw d st ax b c,
  arrays_ok J -> stack_slices J -> o_length o = Some n -> 0 < n -> (ctx <> None \/ o_axes o <> []) ->
  scan_ctx (w_trace w) (o_split o) ctx ss = (Ok pc, ss') ->
  (forall i, i < n -> layer_made o (init_of f r) (set_trace w t) (option_map (fun pp => lane_keys (snd pp) n (fst pp) i) pc)
                        (lw i) r d (st i) (ax i) b c) ->
  w_nodes (lw 0) = w_nodes w -> live (set_trace (lw 0) (w_trace w)) r ->
  (forall i j, i < n -> j < n -> Forall2 alike (ax i) (ax j)) ->
  Forall by_class (o_filters o) ->
  (forall i s k a, i < n -> In s (ax i) -> dget k s = Some a -> not_module (val_of a)) ->
  (forall i s k v axis l, i < n -> In s (ax i) -> dget k s = Some (ARaw v) -> cls_of_attr (ARaw (a_stack J axis l)) = cls_of_attr (ARaw v)) ->
  (o_partition o <> None -> forall i j s fx k a, i < n -> nth_error (ax i) j = Some s -> nth_error (o_axes o) j = Some fx -> In (k, a) s ->
     (0 <= snd fx)%Z /\ no_sharding a) ->
  exists w' U axs,
    decorated_init J o t f w r ctx ss = (w', ss', Ok tt) /\
    get_module_def w' r = Ok d /\ get_state w' r = Ok U /\
    partition_state U (o_filters o) = Ok (Many (axs ++ [b; c])) /\
    (forall (layers : list step_in) xs,
       List.length layers = n ->
       (forall i l, nth_error layers i = Some l ->
          fst (fst l) = option_map (fun pp => step_keys (snd pp) n (fst pp) i) pc /\ snd (fst l) = ax i /\ leaf_slices J (o_in o) n i xs (snd l)) ->
       layers_ok J o axs xs pc layers) /\
    (forall p, follow w' r p = follow (lw 0) r p) /\
    (forall x ob, get_obj (lw 0) x = Some ob -> exists vars, get_obj w' x = Some (set_vars ob vars) /\ (~ reaches (lw 0) r x -> vars = m_vars ob)) /\
    w_trace w' = w_trace w.
Proof.
  intros J o t f w r ctx ss pc ss' n lw d st ax b c HA HJ HL Hn Hcx HC HM Hnod Hlive Hal Hbc Hval Hraw Hsh.
  destruct (scan_init_full J o t (init_of f r) w ctx ss pc ss' n lw (fun _ => r) d st ax b c HA HJ HL Hn Hcx HC HM Hnod Hal Hbc Hval Hraw) as (fin & m & w1 & U & SI & MG & RC & PU & SL & KU & EU & _).
  { intros HP i j s fx k a Hi H1 H2 H3. destruct (Hsh HP i j s fx k a Hi H1 H2 H3). auto. }
  destruct (rc_wf _ _ _ _ _ _ RC) as (W1 & Vm & Nm). pose proof (rc_kept _ _ _ _ _ _ RC) as UN.
  destruct (before o t f w r n _ lw d st ax b c Hn HM Hlive m w1 _ Hnod MG W1 UN) as (V1 & N1 & L1 & S1 & D1 & F1 & T1 & NT1).
  destruct (HM 0 Hn) as [M1 M2 M3 M4 M5 M6 M7]. pose proof (rc_state _ _ _ _ _ _ RC) as SU.
  destruct (get_state_total w1 m W1 Vm) as (U' & SU' & WU). assert (U' = U) by congruence. subst U'. clear SU'.
  destruct (get_state_total (lw 0) r M2 M3) as (s0 & SS & W0). assert (s0 = st 0) by congruence. subst s0. clear SS.
  assert (EU2 : forall k a', dget k U = Some a' -> plain_attr a' /\ exists a, dget k (st 0) = Some a /\ same_kind a a').
  { intros k a' D. destruct (EU k a' D) as (P & a & Da & [(x & Hx & Dx & ->)|(q & fx & s & big & E1 & E2 & E3 & E4 & E5)]); split; auto; exists a; (split; [exact Da|]).
    - apply same_kind_refl.
    - unfold ff in E5. destruct (o_partition o) as [nm|] eqn:EP; [|injection E5 as <-; exact E4].
      destruct (Hsh ltac:(discriminate) 0 q s fx k a Hn E2 E1 (dget_In _ _ _ E3)) as [_ NS]. pose proof (same_kind_no_sharding _ _ E4 NS) as NS'.
      unfold add_axis1 in E5. rewrite (sharding_of_none _ NS') in E5. cbn in E5. injection E5 as <-. exact E4. }
  destruct (update_state_effect w1 r (UModule m) [U] (st 0) W1 V1 N1 L1 S1) as (w' & UE & EF).
  { cbn. now rewrite SU. }
  { intros r2 [= <-]. apply (class_kept (lw 0) r U (set_trace (lw 0) (w_trace w)) w1 m M3 RC). intros x ob E. now apply UN. }
  { constructor; [|constructor]. now apply wf_NoDup. }
  { intros k a' D. cbn in D. destruct (EU2 k a' D) as ([P1 P2] & a & Da & K). split; [exact P1|]. split; [exact P2|]. exists a, a'. split; [exact Da|]. split; [now apply same_kind_overwrites|].
    destruct (get_state_entries w1 m W1 Vm Nm) as (sm & path & G1 & _ & _ & G4 & _). assert (sm = U) by congruence. subst sm.
    apply G4 in D as (y & nm & _ & (ob & _ & _ & _ & tt & T3 & T2) & _). exists tt. auto. }
  destruct EF as [X1 X2 (s' & X3 & X4 & X5) X6 X7 X8 (X9 & X10 & X11 & X12)].
  assert (s' = U).
  { apply state_ext; [eapply keys_inc_ext; [|exact W0]; now rewrite X4|exact WU|]. intros k. destruct (dget k U) as [a'|] eqn:E.
    - destruct (EU2 k a' E) as (_ & a & Da & K). destruct (X5 k a Da) as (res & R1 & R2). cbn in R2. rewrite E in R2. rewrite R1. f_equal. eapply overwrites_unique; [exact R2|]. now apply same_kind_overwrites.
    - apply dget_None. rewrite X4, <- KU. intros I. apply dget_Some_keys in I as [x I]. congruence. }
  subst s'. exists w', U, fin. split.
  { unfold decorated_init. rewrite SI, UE. reflexivity. }
  split; [now rewrite X2|]. split; [exact X3|]. split; [exact PU|]. split.
  { intros layers xs Hl HX i l E. rewrite Hl. destruct (HX i l E) as (Y1 & Y2 & Y3). split; [exact Y1|]. split; [|exact Y3]. rewrite Y2. apply SL. rewrite <- Hl. apply nth_error_Some. congruence. }
  split; [intros p; now rewrite X6|]. split; [|congruence].
  intros x ob Hx. assert (Hx1 : get_obj w1 x = Some ob) by now apply UN. destruct (X7 x ob Hx1) as (vars & Hv). exists vars. split; [exact Hv|].
  intros NR. rewrite (X8 x) in Hv.
  - rewrite Hx1 in Hv. injection Hv as ->. now destruct ob.
  - intros R. apply NR. assert (UN0 : all_unchanged (lw 0) w1) by (intros y oy E; now apply UN). now apply (unchanged_reaches (lw 0) w1 r x M2 UN0 M3).
Qed.
Print Assumptions C68_layers.

(** With a partition name and a sharded per-layer variable the decorated
    [__init__] raises, whatever the values: the stacked variable has the new axis in
    its sharding, the variable of the module does not, and a container only takes
    the value of one with equal metadata.  (Under the same hypotheses the
    constructor form of C67 works.) *)
Theorem C68_sharded_init_raises :
  forall J o t f w r ctx ss pc ss' n lw d st ax b c nm q s k a sh,
  arrays_ok J -> stack_slices J -> o_length o = Some n -> 0 < n -> (ctx <> None \/ o_axes o <> []) ->
  scan_ctx (w_trace w) (o_split o) ctx ss = (Ok pc, ss') ->
  (forall i, i < n -> layer_made o (init_of f r) (set_trace w t) (option_map (fun pp => lane_keys (snd pp) n (fst pp) i) pc)
                        (lw i) r d (st i) (ax i) b c) ->
  w_nodes (lw 0) = w_nodes w -> live (set_trace (lw 0) (w_trace w)) r ->
  (forall i j, i < n -> j < n -> Forall2 alike (ax i) (ax j)) ->
  Forall by_class (o_filters o) ->
  (forall i s k a, i < n -> In s (ax i) -> dget k s = Some a -> not_module (val_of a)) ->
  (forall i s k v axis l, i < n -> In s (ax i) -> dget k s = Some (ARaw v) -> cls_of_attr (ARaw (a_stack J axis l)) = cls_of_attr (ARaw v)) ->
  (forall i j s fx k a, i < n -> nth_error (ax i) j = Some s -> nth_error (o_axes o) j = Some fx -> In (k, a) s ->
     (0 <= snd fx)%Z /\ (no_sharding a \/ exists sh, has_sharding a sh /\ Z.to_nat (snd fx) <= List.length sh)) ->
  o_partition o = Some nm -> nth_error (ax 0) q = Some s -> dget k s = Some a -> has_sharding a sh ->
  exists w', decorated_init J o t f w r ctx ss = (w', ss', Err ValueError).
Proof.
  intros J o t f w r ctx ss pc ss' n lw d st ax b c nm q s k a sh HA HJ HL Hn Hcx HC HM Hnod Hlive Hal Hbc Hval Hraw Hsh HP Hq Hk Hs.
  destruct (scan_init_full J o t (init_of f r) w ctx ss pc ss' n lw (fun _ => r) d st ax b c HA HJ HL Hn Hcx HC HM Hnod Hal Hbc Hval Hraw) as (fin & m & w1 & U & SI & MG & RC & PU & SL & KU & EU & _).
  { intros _. exact Hsh. }
  destruct (rc_wf _ _ _ _ _ _ RC) as (W1 & Vm & Nm). pose proof (rc_kept _ _ _ _ _ _ RC) as UN.
  destruct (before o t f w r n _ lw d st ax b c Hn HM Hlive m w1 _ Hnod MG W1 UN) as (V1 & N1 & L1 & S1 & D1 & F1 & T1 & NT1).
  destruct (HM 0 Hn) as [M1 M2 M3 M4 M5 M6 M7]. pose proof (rc_state _ _ _ _ _ _ RC) as SU.
  destruct (get_state_total w1 m W1 Vm) as (U' & SU' & WU). assert (U' = U) by congruence. subst U'. clear SU'.
  destruct (get_state_total (lw 0) r M2 M3) as (s0 & SS & W0). assert (s0 = st 0) by congruence. subst s0. clear SS.
  destruct (partition_parts _ _ _ W0 (state_plain _ _ _ M2 M6) M7) as (_ & _ & _ & DJ & SUB & _).
  assert (Ia : In s (ax 0 ++ [b; c])) by (apply in_app_iff; left; eapply nth_error_In; eauto).
  assert (D0 : dget k (st 0) = Some a) by (apply (SUB s); auto).
  assert (KI : In k (keys U)) by (rewrite KU; eapply dget_In_keys; eauto). apply dget_Some_keys in KI as [a' Da'].
  assert (Qq : nth_error (ax 0 ++ [b; c]) q = Some s) by (rewrite nth_error_app1; [exact Hq|apply nth_error_Some; congruence]).
  assert (BAD : forall res, ~ overwrites a a' res).
  { destruct (EU k a' Da') as (P & a1 & E0 & [(x & Hx & Dx & _)|(q' & fx & s' & big & E1 & E2 & E3 & E4 & E5)]).
    - exfalso. apply In_nth_error in Hx as [p Hp]. assert (Qp : nth_error (ax 0 ++ [b; c]) (List.length (ax 0) + p) = Some x) by (rewrite nth_error_app2 by lia; replace (List.length (ax 0) + p - List.length (ax 0)) with p by lia; exact Hp).
      pose proof (DJ _ _ _ _ k Qq Qp (dget_In_keys _ _ _ Hk) (dget_In_keys _ _ _ Dx)) as E. assert (q < List.length (ax 0)) by (apply nth_error_Some; congruence). lia.
    - assert (a1 = a) by congruence. subst a1. pose proof (same_kind_has_sharding _ _ _ E4 Hs) as (cb & -> & B1 & B2). destruct Hs as (ca & -> & A1 & A2).
      assert (Wb : wf_container cb).
      { destruct E4 as [K1 K2]. pose proof (state_plain _ _ _ M2 M6) as PS. unfold plain_st in PS. rewrite Forall_forall in PS. destruct (PS _ (dget_In _ _ _ D0)) as [W _]. cbn in W. destruct ca, cb. cbn in *. subst. exact W. }
      unfold ff in E5. rewrite HP in E5. rewrite (add_axis1_some _ _ _ _ Wb B1 B2) in E5. injection E5 as <-.
      intros res (_ & HE & _). specialize (HE "sharding"). rewrite A2 in HE. unfold with_sharding in HE. cbn [c_meta] in HE. rewrite dget_dset_same in HE. cbn [opt_eq] in HE.
      destruct (Hsh 0 q' s' fx k _ Hn E2 E1 (dget_In _ _ _ E3)) as [Hx _].
      apply py_eq_tuple in HE as V2. apply Forall2_length in V2. rewrite !map_length in V2.
      rewrite (add_axis_entry_at _ _ _ Hx) in V2. rewrite !app_length, firstn_length, skipn_length in V2. cbn in V2.
      unfold pad_to in V2. rewrite app_length, repeat_length in V2. lia. }
  destruct (update_state_refused w1 r (UModule m) [U] (st 0) k a' a W1 V1 N1 L1 S1) as (w' & UE); auto.
  { cbn. now rewrite SU. }
  { intros r2 [= <-]. apply (class_kept (lw 0) r U (set_trace (lw 0) (w_trace w)) w1 m M3 RC). intros x ob E. now apply UN. }
  { constructor; [|constructor]. now apply wf_NoDup. }
  { intros k1 a1 D. cbn in D. destruct (EU k1 a1 D) as ([P1 P2] & _). split; [exact P1|]. split; [exact P2|]. rewrite <- KU. eapply dget_In_keys; eauto. }
  exists w'. unfold decorated_init. rewrite SI, UE. reflexivity.
Qed.
Print Assumptions C68_sharded_init_raises.

(** An exception of [__init__] passes through; what it did to the object stays. *)
Theorem C68_exception :
  forall J o t f w r ctx ss pc ss' n w1 e,
  o_length o = Some n -> 0 < n -> (ctx <> None \/ o_axes o <> []) -> scan_ctx (w_trace w) (o_split o) ctx ss = (Ok pc, ss') ->
  f (option_map (fun pp => lane_keys (snd pp) n (fst pp) 0) pc) (set_trace w t) r = (w1, Err e) ->
  decorated_init J o t f w r ctx ss = (set_trace w1 (w_trace w), ss', Err e).
Proof.
  intros J o t f w r ctx ss pc ss' n w1 e HL Hn Hcx HC HE. unfold decorated_init.
  rewrite (C67_exception J o t (init_of f r) w ctx ss pc ss' n w1 e HL Hn Hcx HC); [reflexivity|]. unfold init_of. now rewrite HE.
Qed.
Print Assumptions C68_exception.

(** Example: the [__init__] of a Block makes a Dense with a parameter "w" drawn
    from the stream "params", a counter, a scale and a name.  Object 3 is the new,
    empty Block.  With [sharded] the parameter carries a sharding. *)
Definition ex_deco_world : world :=
  mkWorld (w_heap ex_scan_world ++ [mkMobj (Mod_cls "Block") (w_uuid ex_scan_world + 1) true (w_trace ex_scan_world) []])
          (w_uuid ex_scan_world + 1) (w_trace ex_scan_world) (w_nodes ex_scan_world).
Definition ex_param (sharded : bool) (z : Z) : attr :=
  if sharded then lparam (PyInt z) [PyStr "x"] else ACont (mkCont Param_cls [("sharding", PyNone)] (PyInt z)).
Definition ex_init (sharded : bool) (pc : option pctx) (w : world) (r : nat) : world * result unit :=
  let n := List.length (w_heap w) in
  let w1 := mkWorld (w_heap w ++ [mkMobj (Mod_cls "Dense") (w_uuid w + 1) false (w_trace w)
                                    [("w", ex_param sharded (ex_key_number pc)); ("count", lstat 0)]])
              (w_uuid w + 1) (w_trace w) (w_nodes w) in
  match (do w2 <- setattr w1 r "scale" (lvar (PyInt 10)); do w3 <- setattr w2 r "inner" (sub n); setattr w3 r "name" (ARaw (PyStr "b"))) with
  | Ok w4 => (w4, Ok tt)
  | Err e => (w1, Err e)
  end.
Definition ex_dlw (sharded : bool) (i : nat) : world := fst (init_of (ex_init sharded) 3 (ex_lane i) (set_trace ex_deco_world (w_trace ex_deco_world))).
Definition ex_dw (sharded : bool) (i : nat) : attr := ex_param sharded (Z.of_nat (10 * i + 5)).
Example C68_example_hyps : forall sharded,
  scan_ctx (w_trace ex_deco_world) (o_split ex_init_opts) (Some ex_ctx) ex_streams =
    (Ok (Some (ex_init_pc, fun name => String.eqb name "params")), [mkStream (KSeed 0) 3 []; mkStream (KSeed 1) 1 []]) /\
  (exists d st, forall i, i < 4 -> layer_made ex_init_opts (init_of (ex_init sharded) 3) (set_trace ex_deco_world (w_trace ex_deco_world)) (ex_lane i) (ex_dlw sharded i) 3 d (st i)
     [[("inner/w", ex_dw sharded i)]] [("inner/count", lstat 0)] [("scale", lvar (PyInt 10))]) /\
  live (set_trace (ex_dlw sharded 0) (w_trace ex_deco_world)) 3 /\
  (forall i j, i < 4 -> j < 4 -> Forall2 alike [[("inner/w", ex_dw sharded i)]] [[("inner/w", ex_dw sharded j)]]) /\
  Forall by_class (o_filters ex_init_opts) /\ w_nodes (ex_dlw sharded 0) = w_nodes ex_deco_world /\
  if sharded then o_partition ex_init_opts = Some "layers" /\ forall i, has_sharding (ex_dw sharded i) [Some "x"] else forall i, no_sharding (ex_dw sharded i).
Proof.
  intros sharded. split; [reflexivity|]. split.
  { exists (match get_module_def (ex_dlw sharded 0) 3 with Ok d => d | Err _ => MRef 0 end).
    exists (fun i => [("inner/count", lstat 0); ("inner/w", ex_dw sharded i); ("scale", lvar (PyInt 10))]). intros i Hi.
    destruct sharded; (destruct i as [|[|[|[|i]]]]; [| | | |lia]); constructor; (apply wf_worldb_ok || apply names_okb_ok || idtac); vm_compute; first [reflexivity | lia]. }
  split. { apply liveb_ok. destruct sharded; vm_compute; reflexivity. }
  split. { intros i j _ _. destruct sharded; repeat constructor. }
  split. { repeat constructor; intros E; cbn in *; try congruence; destruct a, a'; cbn in *; try congruence; tauto. }
  split; [destruct sharded; reflexivity|]. destruct sharded.
  - split; [reflexivity|]. intros i. eexists. split; [reflexivity|]. split; [cbn; tauto|reflexivity].
  - intros i. cbn. auto.
Qed.
Example C68_example :
  exists w' ss', decorated_init tuple_arrays ex_init_opts (w_trace ex_deco_world) (ex_init false) ex_deco_world 3 (Some ex_ctx) ex_streams = (w', ss', Ok tt) /\
    look w' 3 ["inner"; "w"] = SValue (ACont (mkCont Param_cls [("sharding", PyNone)] (ints [5%Z; 15%Z; 25%Z; 35%Z]))) /\
    look w' 3 ["inner"; "count"] = SValue (lstat 0) /\ look w' 3 ["name"] = SValue (ARaw (PyStr "b")).
Proof. do 2 eexists. repeat (apply conj; [vm_compute; reflexivity|]). vm_compute; reflexivity. Qed.

(** That the decorated [__init__] does what the constructor form does is false: *)
Theorem C68_same_as_constructor_refuted :
  exists w1 ss1 m w2 ss2,
    scan_init tuple_arrays ex_init_opts (w_trace ex_deco_world) (init_of (ex_init true) 3) ex_deco_world (Some ex_ctx) ex_streams = (w1, ss1, Ok m) /\
    look w1 m ["inner"; "w"] = SValue (lparam (ints [5%Z; 15%Z; 25%Z; 35%Z]) [PyStr "layers"; PyStr "x"]) /\
    decorated_init tuple_arrays ex_init_opts (w_trace ex_deco_world) (ex_init true) ex_deco_world 3 (Some ex_ctx) ex_streams = (w2, ss2, Err ValueError) /\
    look w2 3 ["inner"; "w"] = SValue (lparam (PyInt 5) [PyStr "x"]).
Proof. do 5 eexists. repeat (apply conj; [vm_compute; reflexivity|]). vm_compute; reflexivity. Qed.
Print Assumptions C68_same_as_constructor_refuted.
