(** Property C70: a [Scan] object is the layers it was made of, over its whole life.

    [nnx.Scan(M, ...)(args)] is compared with [n] modules made one at a time by [M]
    and kept apart, each in a heap of its own.  A call of the Scan object is
    compared with a Python loop over these modules ([pass], Spec_ScanClass). *)
From Coq Require Import ZArith Lia.
From Verif Require Import PyBase PyBaseFacts ValuesM Spec_Eq ValuesFacts FiltersM StateM Spec_State State_proofs ModuleM SpmdM Spec_Spmd ContextM TransformM ScanM ScanInitM ScanClassM.
From Verif Require Import Spec_Module Spec_Prog Spec_Context Spec_Scan Spec_ScanInit Spec_ScanClass.
From Verif Require Import Graph_facts Write_proofs Scan_proofs ScanInit_proofs ScanClass_proofs Ex_Module Prop_Transform Prop_Scan Prop_ScanInit.
Local Open Scope string_scope.
Local Open Scope list_scope.

(** *** C70 *)
(** Making the object.  [n] calls of the constructor, each with the context of its
    layer, give the modules [(lw i, lr i)].  Then [Scan] returns a new object [r]
    whose attribute "scan_module" stands for these modules. *)
Theorem C70_made :
  forall J o t ctor cv ov w r w0 ctx ss pc ss' n lw lr d st ax b c,
  arrays_ok J -> stack_slices J -> o_length o = Some n -> 0 < n -> (ctx <> None \/ o_axes o <> []) ->
  scan_start w cv ov = Ok (r, w0) ->
  scan_ctx (w_trace w) (o_split o) ctx ss = (Ok pc, ss') ->
  (forall i, i < n -> layer_made o ctor (set_trace w0 t) (option_map (fun pp => lane_keys (snd pp) n (fst pp) i) pc)
                        (lw i) (lr i) d (st i) (ax i) b c) ->
  (forall i, i < n -> live (lw i) (lr i) /\ w_nodes (lw i) = w_nodes w /\ stackable o (ax i)) ->
  get_obj (lw 0) r = get_obj w0 r ->
  (forall i j, i < n -> j < n -> Forall2 alike (ax i) (ax j)) ->
  Forall by_class (o_filters o) ->
  (forall i s k v axis l, i < n -> In s (ax i) -> dget k s = Some (ARaw v) -> cls_of_attr (ARaw (a_stack J axis l)) = cls_of_attr (ARaw v)) ->
  exists m w',
    scan_new J o t ctor cv ov w ctx ss = (w', ss', Ok r) /\
    get_obj w r = None /\ getattr w' r "scan_module" = Ok (RVal (PyMod m)) /\ ~ reaches w' m r /\
    w_trace w' = w_trace w /\
    stands_for J o n (w_nodes w) d w' m ax b c /\
    (forall i, i < n -> exists ci, layer o (w_nodes w) d (lw i) (lr i) (ax i) b ci /\ alike c ci) /\
    (forall x ob, get_obj (lw 0) x = Some ob -> x <> r -> get_obj w' x = Some ob).
Proof.
  intros J o t ctor cv ov w r w0 ctx ss pc ss' n lw lr d st ax b c H1 H2 H3 H4 H5 H6 H7 H8 H9 H10 H11 H12 H13.
  destruct (scan_built J o t ctor cv ov w r w0 ctx ss pc ss' n lw lr d st ax b c H1 H2 H3 H4 H5 H6 H7 H8 H9 H10 H11 H12 H13) as (m & w' & A1 & A2 & A3 & A4 & A5 & A6 & A7).
  exists m, w'. split; [exact A1|]. split; [|auto 10]. destruct (scan_start_ok w cv ov) as (w1 & B & _). rewrite H6 in B. injection B as -> _. apply nth_error_None. lia.
Qed.
Print Assumptions C70_made.

(** One call.  [stands_for] holds again afterwards, for the layers as the loop
    leaves them, so the theorem applies to the next call. *)
Theorem C70_call :
  forall J o n nodes d b f lw lr ax c args c0 lw' ax' cs ys cc w r m t xs ctx pc ss ss',
  arrays_ok J -> stack_slices J -> (forall pc c xs, ok_prog (f pc c xs)) -> Forall by_class (o_filters o) ->
  o_length o = Some n -> 0 < n -> o_reverse o = false ->
  getattr w r "scan_module" = Ok (RVal (PyMod m)) -> stands_for J o n nodes d w m ax b c ->
  (forall i, i < n -> exists ci, layer o nodes d (lw i) (lr i) (ax i) b ci /\ alike c ci) ->
  scan_ctx (w_trace w) (o_split o) ctx ss = (Ok pc, ss') -> step_args J o n pc xs args ->
  pass o f n b lw lr args c c0 lw' ax' cs ys cc -> keeps o n d lr ax c lw' ax' cs ys ->
  exists w' ysb,
    scan_call J o t (fun pc c xs => user_fun (f pc c xs)) w r c0 xs ctx ss = (w', ss', Ok (prev c0 cc n, ysb)) /\
    out_matches J o (prev c0 cc n, map ys (seq 0 n)) (prev c0 cc n, ysb) /\
    stands_for J o n nodes d w' m ax' b (prev c cs n) /\
    (forall i, i < n -> exists ci, layer o nodes d (lw' i) (lr i) (ax' i) b ci /\ alike (prev c cs n) ci) /\
    w_trace w' = w_trace w /\ (forall p, follow w' m p = follow w m p) /\
    (forall x ob, get_obj w x = Some ob -> ~ reaches w m x -> get_obj w' x = Some ob).
Proof.
  intros J o n nodes d b f lw lr ax c args c0 lw' ax' cs ys cc w r m t xs ctx pc ss ss' H1 H2 H3 H4 H5 H6 H7 H8 H9 H10 H11 H12 H13 H14.
  destruct (scan_stands J o n nodes d b f lw lr ax c args c0 lw' ax' cs ys cc w m t xs ctx pc ss ss' H1 H2 H3 H4 H5 H6 H7 H9 H10 H11 H12 H13 H14) as
    (w' & ysb & A1 & A2 & A3 & A4 & A5 & A6 & A7 & A8).
  exists w', ysb. unfold scan_call. rewrite H8. split; [exact A1|]. split; [|auto 10]. split; [reflexivity|]. split; [exact A2|].
  intros l Hl. apply in_map_seq in Hl as (i & Hi & ->). now apply A3.
Qed.
Print Assumptions C70_call.

(** Whatever happens to other objects in between does not matter. *)
Theorem C70_elsewhere :
  forall J o n nodes d w m ax b c w',
  stands_for J o n nodes d w m ax b c -> wf_world w' -> w_trace w' = w_trace w -> w_nodes w' = w_nodes w ->
  (forall x ob, reaches w m x -> get_obj w x = Some ob -> get_obj w' x = Some ob) ->
  stands_for J o n nodes d w' m ax b c.
Proof. exact stands_elsewhere. Qed.
Print Assumptions C70_elsewhere.

(** Any number of calls, of any methods, with any arguments, in any order. *)
Theorem C70_history :
  forall J o n nodes d b r m lr lw ax c ks outs axN cN w,
  arrays_ok J -> stack_slices J -> Forall by_class (o_filters o) -> o_length o = Some n -> 0 < n -> o_reverse o = false ->
  (forall k pc c xs, In k ks -> ok_prog (k_fun k pc c xs)) ->
  getattr w r "scan_module" = Ok (RVal (PyMod m)) -> ~ reaches w m r ->
  stands_for J o n nodes d w m ax b c ->
  (forall i, i < n -> exists ci, layer o nodes d (lw i) (lr i) (ax i) b ci /\ alike c ci) ->
  passes J o n (w_trace w) d b lr lw ax c ks outs axN cN ->
  exists w' outs', calls J o w r ks = (w', Ok outs') /\ Forall2 (out_matches J o) outs outs' /\
    getattr w' r "scan_module" = Ok (RVal (PyMod m)) /\ stands_for J o n nodes d w' m axN b cN /\
    w_trace w' = w_trace w /\ (forall x ob, get_obj w x = Some ob -> ~ reaches w m x -> get_obj w' x = Some ob).
Proof. exact scan_history. Qed.
Print Assumptions C70_history.

(** From the constructor to the last call. *)
Theorem C70_life :
  forall J o t ctor cv ov w r w0 ctx ss pc ss' n lw lr d st ax b c ks outs axN cN,
  arrays_ok J -> stack_slices J -> o_length o = Some n -> 0 < n -> (ctx <> None \/ o_axes o <> []) -> o_reverse o = false ->
  scan_start w cv ov = Ok (r, w0) ->
  scan_ctx (w_trace w) (o_split o) ctx ss = (Ok pc, ss') ->
  (forall i, i < n -> layer_made o ctor (set_trace w0 t) (option_map (fun pp => lane_keys (snd pp) n (fst pp) i) pc)
                        (lw i) (lr i) d (st i) (ax i) b c) ->
  (forall i, i < n -> live (lw i) (lr i) /\ w_nodes (lw i) = w_nodes w /\ stackable o (ax i)) ->
  get_obj (lw 0) r = get_obj w0 r ->
  (forall i j, i < n -> j < n -> Forall2 alike (ax i) (ax j)) ->
  Forall by_class (o_filters o) ->
  (forall i s k v axis l, i < n -> In s (ax i) -> dget k s = Some (ARaw v) -> cls_of_attr (ARaw (a_stack J axis l)) = cls_of_attr (ARaw v)) ->
  (forall k pc c xs, In k ks -> ok_prog (k_fun k pc c xs)) ->
  passes J o n (w_trace w) d b lr lw ax c ks outs axN cN ->
  exists m w1 w2 outs',
    scan_new J o t ctor cv ov w ctx ss = (w1, ss', Ok r) /\ calls J o w1 r ks = (w2, Ok outs') /\ Forall2 (out_matches J o) outs outs' /\
    getattr w2 r "scan_module" = Ok (RVal (PyMod m)) /\ stands_for J o n (w_nodes w) d w2 m axN b cN.
Proof.
  intros J o t ctor cv ov w r w0 ctx ss pc ss' n lw lr d st ax b c ks outs axN cN H1 H2 H3 H4 H5 Hr H6 H7 H8 H9 H10 H11 H12 H13 H14 H15.
  destruct (scan_built J o t ctor cv ov w r w0 ctx ss pc ss' n lw lr d st ax b c H1 H2 H3 H4 H5 H6 H7 H8 H9 H10 H11 H12 H13) as (m & w1 & A1 & A2 & A3 & A4 & A5 & A6 & A7).
  rewrite <- A4 in H15. destruct (scan_history J o n (w_nodes w) d b r m lr lw ax c ks outs axN cN w1 H1 H2 H12 H3 H4 Hr H14 A2 A3 A5 A6 H15) as (w2 & outs' & B1 & B2 & B3 & B4 & _).
  exists m, w1, w2, outs'. auto.
Qed.
Print Assumptions C70_life.

(** A clone of the object stands for the same layers, the object itself still does,
    and nothing of the clone is shared with anything that was there before, so by
    the last part of [C70_call] calls of one do not change the other. *)
Theorem C70_clone :
  forall J o n nodes d w r m ax b c,
  wf_world w -> r < List.length (w_heap w) -> names_ok w r -> follow w r ["scan_module"] = Some m -> ~ reaches w m r ->
  stands_for J o n nodes d w m ax b c ->
  exists r' m' w', clone w r = Ok (r', w') /\ follow w' r' ["scan_module"] = Some m' /\ ~ reaches w' m' r' /\
    stands_for J o n nodes d w' m' ax b c /\ stands_for J o n nodes d w' m ax b c /\
    (forall x, reaches w' r' x -> get_obj w x = None) /\ (forall x ob, get_obj w x = Some ob -> get_obj w' x = Some ob).
Proof. exact scan_clone. Qed.
Print Assumptions C70_clone.

(** Example: four Blocks (see C67) with weights 5, 15, 25, 35 in the parameter "w",
    per layer; "count" is carried, "scale" is broadcast.  Two calls of [ex_layer]
    (Prop_Scan): it adds the argument to "w" and counts up. *)
Definition ex_cls_opts : scan_opts :=
  mkScan [(FType "Param", 0%Z)] (FPred (fun k _ => starts_with "scale" k)) FEllipsis (RStr "params") 0%Z 0%Z (Some 4) false (Some "layers").
Definition ex_start : nat * world := match scan_start ex_scan_world (PyStr "Block") PyNone with Ok x => x | _ => (0, ex_scan_world) end.
Definition ex_cls_lw (i : nat) : world := fst (ex_ctor (ex_lane i) (set_trace (snd ex_start) (3, 3))).
(** the Python loop, computed: world, per-layer States, carry State, outputs, carry after step [i] *)
Definition ex_step_res : Type := world * list state * state * list pyval * pyval.
Definition ex_step1 (w : world) (cs : state) (c : pyval) (a : option pctx * list pyval) : ex_step_res :=
  let wu := fst (update_state w 4 (UStates (One cs))) in
  match user_fun (ex_layer (fst a) c (snd a)) wu 4 with
  | (w', Ok (c', ys)) => match get_state w' 4 with
                         | Ok s => match partition_state s (o_filters ex_cls_opts) with
                                   | Ok (Many [ax; _; cs']) => (w', [ax], cs', ys, c')
                                   | _ => (w', [], [], [], PyNone)
                                   end
                         | _ => (w', [], [], [], PyNone)
                         end
  | (w', _) => (w', [], [], [], PyNone)
  end.
Fixpoint ex_at (lw : nat -> world) (args : nat -> option pctx * list pyval) (cs0 : state) (c0 : pyval) (i : nat) : ex_step_res :=
  match i with
  | 0 => ex_step1 (lw 0) cs0 c0 (args 0)
  | S j => match ex_at lw args cs0 c0 j with (_, _, cs, _, c) => ex_step1 (lw i) cs c (args i) end
  end.
Definition ex_args1 (i : nat) : option pctx * list pyval := (None, [PyInt (Z.of_nat (100 * (i + 1)))]).
Definition ex_call1 : call := mkCall ex_layer (PyInt 7) [ints [100%Z; 200%Z; 300%Z; 400%Z]] None [] (4, 4).
Definition ex_call2 : call := mkCall ex_layer (PyInt 1) [ints [100%Z; 200%Z; 300%Z; 400%Z]] None [] (5, 5).
Definition ex_r1 (i : nat) : ex_step_res := ex_at ex_cls_lw ex_args1 (ex_carry 0) (PyInt 7) i.
Definition ex_lw1 (i : nat) : world := fst (fst (fst (fst (ex_r1 i)))).
Definition ex_r2 (i : nat) : ex_step_res := ex_at ex_lw1 ex_args1 (ex_carry 4) (PyInt 1) i.
Definition r_w (x : ex_step_res) : world := fst (fst (fst (fst x))).
Definition r_ax (x : ex_step_res) : list state := snd (fst (fst (fst x))).
Definition r_cs (x : ex_step_res) : state := snd (fst (fst x)).
Definition r_ys (x : ex_step_res) : list pyval := snd (fst x).
Definition r_c (x : ex_step_res) : pyval := snd x.
Definition ex_ax0 (i : nat) : list state := [[("inner/w", ex_w i)]].
Ltac below4 := match goal with H : ?i < 4 |- _ => destruct i as [|[|[|[|i]]]]; [| | | |lia] end.

Lemma ex_stackable l : List.length l = 1 -> (forall s, In s l -> exists z, s = [("inner/w", lparam (PyInt z) [PyStr "x"])]) -> stackable ex_cls_opts l.
Proof.
  intros Hl Hs j s fx k a Hj Hf Hk. destruct (Hs s) as [z ->]; [eapply nth_error_In; eauto|]. cbn in Hk. destruct (String.eqb k "inner/w"); [|discriminate]. injection Hk as <-.
  split; [exact Logic.I|]. intros _. destruct j as [|j]; cbn in Hf; [injection Hf as <-|destruct j; discriminate]. cbn. split; [lia|]. right.
  exists [Some "x"]. split; [|cbn; lia]. eexists. split; [reflexivity|]. split; [cbn; tauto|reflexivity].
Qed.
Lemma ex_by_class : Forall by_class (o_filters ex_cls_opts).
Proof. repeat constructor; intros E; cbn in *; try congruence; destruct a, a'; cbn in *; try congruence; tauto. Qed.
Lemma ex_step_args : step_args tuple_arrays ex_cls_opts 4 None [ints [100%Z; 200%Z; 300%Z; 400%Z]] ex_args1.
Proof.
  intros i Hi. split; [reflexivity|]. constructor; [|constructor]. exists (map PyInt [100%Z; 200%Z; 300%Z; 400%Z]). split; [reflexivity|]. split; [reflexivity|]. below4; reflexivity.
Qed.


(** the modules at addresses 4 and above, and only those, are reachable from there *)
Definition live_fromb (n : nat) (w : world) : bool :=
  forallb (fun i => match get_obj w i with
                    | Some o => trace_valid w (m_trace o) && forallb (fun na => match snd na with ARaw (PyMod x) => Nat.leb n x | _ => true end) (m_vars o)
                    | None => true end) (seq n (List.length (w_heap w) - n)).
Lemma live_fromb_ok n w : live_fromb n w = true -> live w n.
Proof.
  intros H. unfold live_fromb in H. rewrite forallb_forall in H.
  assert (Q : forall p r x, n <= r -> follow w r p = Some x -> n <= x).
  { induction p as [|m p IH]; intros r x Hr; cbn; destruct (get_obj w r) as [o|] eqn:E; try discriminate; [intros [= <-]; exact Hr|].
    destruct (dget m (m_vars o)) as [[[]|]|] eqn:D; try discriminate. apply IH. specialize (H r). rewrite E in H. assert (HI : In r (seq n (List.length (w_heap w) - n))) by (apply in_seq; apply get_obj_lt in E; lia).
    apply H in HI. apply andb_prop in HI as [_ HI]. rewrite forallb_forall in HI. apply dget_In in D. apply HI in D. cbn in D. now apply Nat.leb_le. }
  intros x o [p Hp] Ho. apply Q in Hp; [|lia]. specialize (H x). rewrite Ho in H. assert (HI : In x (seq n (List.length (w_heap w) - n))) by (apply in_seq; apply get_obj_lt in Ho; lia).
  apply H in HI. apply andb_prop in HI as [HI _]. now apply trace_valid_iff.
Qed.
Definition ex_outs : list (pyval * list (list pyval)) :=
  [(PyInt 76785, [[PyInt 7]; [PyInt 75]; [PyInt 765]; [PyInt 7675]]); (PyInt 140185, [[PyInt 1]; [PyInt 115]; [PyInt 1365]; [PyInt 13975]])].
Lemma ex_pass (lw : nat -> world) cs0 c0 : 
  (forall i, i < 4 -> match update_state (lw i) 4 (UStates (One (prev cs0 (fun i => r_cs (ex_at lw ex_args1 cs0 c0 i)) i))) with
    | (wu, Ok tt) => match user_fun (ex_layer (fst (ex_args1 i)) (prev c0 (fun i => r_c (ex_at lw ex_args1 cs0 c0 i)) i) (snd (ex_args1 i))) wu 4 with
        | (w', Ok (c', y)) => w' = r_w (ex_at lw ex_args1 cs0 c0 i) /\ c' = r_c (ex_at lw ex_args1 cs0 c0 i) /\ y = r_ys (ex_at lw ex_args1 cs0 c0 i) /\
            match get_state w' 4 with Ok s => partition_state s (o_filters ex_cls_opts) = Ok (Many (r_ax (ex_at lw ex_args1 cs0 c0 i) ++ [[("scale", lvar (PyInt 10))]; r_cs (ex_at lw ex_args1 cs0 c0 i)])) | _ => False end
        | _ => False end
    | _ => False end) ->
  pass ex_cls_opts ex_layer 4 [("scale", lvar (PyInt 10))] lw (fun _ => 4) ex_args1 cs0 c0 (fun i => r_w (ex_at lw ex_args1 cs0 c0 i)) (fun i => r_ax (ex_at lw ex_args1 cs0 c0 i))
    (fun i => r_cs (ex_at lw ex_args1 cs0 c0 i)) (fun i => r_ys (ex_at lw ex_args1 cs0 c0 i)) (fun i => r_c (ex_at lw ex_args1 cs0 c0 i)).
Proof.
  intros H i Hi. specialize (H i Hi). destruct (update_state _ _ _) as [wu [[]|]]; [|contradiction]. destruct (user_fun _ _ _) as [w' [[c' y]|]] eqn:E; [|contradiction].
  destruct H as (H1 & H2 & H3 & H4). subst w' c' y. destruct (get_state _ _) as [s|] eqn:G; [|contradiction]. exists wu, s. auto.
Qed.
Example C70_example_hyps :
  scan_start ex_scan_world (PyStr "Block") PyNone = Ok ex_start /\
  (exists d st,
    (forall i, i < 4 -> layer_made ex_cls_opts ex_ctor (set_trace (snd ex_start) (3, 3)) (ex_lane i) (ex_cls_lw i) 4 d (st i) (ex_ax0 i) [("scale", lvar (PyInt 10))] (ex_carry 0)) /\
    exists axN cN, passes tuple_arrays ex_cls_opts 4 (0, 0) d [("scale", lvar (PyInt 10))] (fun _ => 4) ex_cls_lw ex_ax0 (ex_carry 0) [ex_call1; ex_call2] ex_outs axN cN /\
      cN = ex_carry 8 /\ map axN (seq 0 4) = map (fun z => [[("inner/w", lparam (PyInt z) [PyStr "x"])]]) [205%Z; 415%Z; 625%Z; 835%Z]) /\
  (forall i, i < 4 -> live (ex_cls_lw i) 4 /\ w_nodes (ex_cls_lw i) = w_nodes ex_scan_world /\ stackable ex_cls_opts (ex_ax0 i)) /\
  get_obj (ex_cls_lw 0) (fst ex_start) = get_obj (snd ex_start) (fst ex_start) /\
  (forall i j, i < 4 -> j < 4 -> Forall2 alike (ex_ax0 i) (ex_ax0 j)) /\
  Forall by_class (o_filters ex_cls_opts).
Proof.
  split; [reflexivity|]. split; [|split; [|split; [reflexivity|split; [intros i j _ _; repeat constructor|exact ex_by_class]]]].
  - eexists. exists (fun i => [("inner/count", lstat 0); ("inner/w", ex_w i); ("scale", lvar (PyInt 10))]). split.
    + intros i Hi. below4; constructor; (apply wf_worldb_ok || apply names_okb_ok || idtac); vm_compute; first [reflexivity | lia].
    + exists (fun i => r_ax (ex_r2 i)), (ex_carry 8). split; [|split; [reflexivity|vm_compute; reflexivity]].
      assert (K : forall z, stackable ex_cls_opts [[("inner/w", lparam (PyInt z) [PyStr "x"])]]) by (intros z; apply ex_stackable; [reflexivity|intros s [<-|[]]; eauto]).
      replace ex_outs with [(prev (k_carry ex_call1) (fun i => r_c (ex_r1 i)) 4, map (fun i => r_ys (ex_r1 i)) (seq 0 4)); (prev (k_carry ex_call2) (fun i => r_c (ex_r2 i)) 4, map (fun i => r_ys (ex_r2 i)) (seq 0 4))] by (vm_compute; reflexivity).
      eapply (passes_cons _ _ _ _ _ _ _ _ _ _ ex_call1 None [] ex_args1 ex_lw1 (fun i => r_ax (ex_r1 i)) (fun i => r_cs (ex_r1 i)) (fun i => r_ys (ex_r1 i)) (fun i => r_c (ex_r1 i))).
      * reflexivity.
      * exact ex_step_args.
      * apply ex_pass. intros i Hi. below4; vm_compute; repeat split.
      * intros i Hi. below4; (split; [vm_compute; reflexivity|]); (split; [apply names_okb_ok; vm_compute; reflexivity|]); (split; [apply live_fromb_ok; vm_compute; reflexivity|]);
          (split; [vm_compute; repeat constructor|]); (split; [vm_compute; repeat constructor|]); (split; [|vm_compute; reflexivity]); vm_compute r_ax; apply K.
      * replace (prev (ex_carry 0) (fun i => r_cs (ex_r1 i)) 4) with (ex_carry 4) by (vm_compute; reflexivity). replace (ex_carry 8) with (prev (ex_carry 4) (fun i => r_cs (ex_r2 i)) 4) by (vm_compute; reflexivity).
        eapply (passes_cons _ _ _ _ _ _ _ _ _ _ ex_call2 None [] ex_args1 (fun i => r_w (ex_r2 i)) (fun i => r_ax (ex_r2 i)) (fun i => r_cs (ex_r2 i)) (fun i => r_ys (ex_r2 i)) (fun i => r_c (ex_r2 i))).
        -- reflexivity.
        -- exact ex_step_args.
        -- apply ex_pass. intros i Hi. below4; vm_compute; repeat split.
        -- intros i Hi. below4; (split; [vm_compute; reflexivity|]); (split; [apply names_okb_ok; vm_compute; reflexivity|]); (split; [apply live_fromb_ok; vm_compute; reflexivity|]);
          (split; [vm_compute; repeat constructor|]); (split; [vm_compute; repeat constructor|]); (split; [|vm_compute; reflexivity]); vm_compute r_ax; apply K.
        -- constructor.
  - intros i Hi. split; [|split; [reflexivity|apply ex_stackable; [reflexivity|intros s [<-|[]]; eexists; reflexivity]]]. below4; apply live_fromb_ok; vm_compute; reflexivity.
Qed.
(** and the Scan object itself: made, called twice *)
Example C70_example :
  exists w1 ss1 w2 m, scan_new tuple_arrays ex_cls_opts (3, 3) ex_ctor (PyStr "Block") PyNone ex_scan_world (Some ex_ctx) ex_streams = (w1, ss1, Ok (fst ex_start)) /\
    calls tuple_arrays ex_cls_opts w1 (fst ex_start) [ex_call1; ex_call2] =
      (w2, Ok [(PyInt 76785, [ints [7%Z; 75%Z; 765%Z; 7675%Z]]); (PyInt 140185, [ints [1%Z; 115%Z; 1365%Z; 13975%Z]])]) /\
    follow w2 (fst ex_start) ["scan_module"] = Some m /\
    look w2 m ["inner"; "w"] = SValue (lparam (ints [205%Z; 415%Z; 625%Z; 835%Z]) [PyStr "layers"; PyStr "x"]) /\ look w2 m ["inner"; "count"] = SValue (lstat 8).
Proof. do 4 eexists. repeat (apply conj; [vm_compute; reflexivity|]). vm_compute; reflexivity. Qed.
