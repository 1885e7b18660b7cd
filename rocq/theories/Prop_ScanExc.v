(** Prop_ScanExc: C49 and C82, when a layer raises; what scan changes at all. *)
From Coq Require Import ZArith Lia.
From Verif Require Import ValuesFacts PyBase PyBaseFacts ValuesM Spec_Eq FiltersM StateM ModuleM SpmdM ContextM TransformM ScanM ScanTreeM.
From Verif Require Import Spec_Module Spec_Prog Spec_Context Spec_Scan Spec_ScanTree.
From Verif Require Import Dfs_proofs Context_proofs Transform_proofs Scan_proofs ScanTree_proofs ScanExc_proofs Ex_Module Prop_Transform Prop_Scan Prop_ScanTree.
Local Open Scope string_scope.
Local Open Scope list_scope.

(** [m = d.merge( *states); f(m)] raises [e] *)
Definition call_raises {A} (w : world) (d : mdef) (states : list state) (f : prog A) (e : exn) : Prop :=
  exists m w1 w2, merge w d states = Ok (m, w1) /\ user_fun f w1 m = (w2, Err e).

(** If the loop over the layers runs up to some layer (the carry state keeping its
    structure) and the function raises there, scan raises the same exception, and no
    object that existed has changed. *)
Theorem C49_exception :
  forall J o (f : option pctx -> pyval -> list pyval -> prog (pyval * list pyval)) w r d s axs b cs
         t c xs ctx pc ss ss' pre ctx1 axs1 xs1 post outs css c1 fins e,
  arrays_ok J -> (forall pc c xs, ok_prog (f pc c xs)) -> wf_world w -> r < List.length (w_heap w) ->
  get_module_def w r = Ok d -> get_state w r = Ok s -> partition_state s (o_filters o) = Ok (Many (axs ++ [b; cs])) ->
  o_reverse o = false -> scan_ctx (w_trace w) (o_split o) ctx ss = (Ok pc, ss') -> layers_ok J o axs xs pc (pre ++ (ctx1, axs1, xs1) :: post) ->
  (o_length o = None -> xs <> [] \/ exists st, In st axs /\ st <> []) ->
  (forall m, o_length o = Some m -> m = List.length (pre ++ (ctx1, axs1, xs1) :: post)) ->
  loop w d (o_filters o) f b cs c pre outs css c1 -> Forall2 (fun x fin => leave_axes o (fst x) = Ok fin) outs fins -> (forall x, In x css -> alike cs x) ->
  call_raises w d (axs1 ++ [b; last css cs]) (f ctx1 c1 xs1) e ->
  exists w', scan_apply J o t (fun pc c xs => user_fun (f pc c xs)) w r c xs ctx ss = (w', ss', Err e) /\
    all_unchanged w w' /\ w_trace w' = w_trace w /\ wf_world w'.
Proof.
  intros J o f w r d s axs b cs t c xs ctx pc ss ss' pre ctx1 axs1 xs1 post outs css c1 fins e HJ Hf Hw Hr Hd Hs Hp Hrev Hctx Hok Hn1 Hn2 Hl Hleft Hal Hra.
  eapply (core_raises J o f HJ Hf w r Hw Hr); eauto; [exact (layers_states _ _ _ _ _ _ Hok)|]. eapply layers_cut; [|exact Hok|exact Hn1]. destruct pre; discriminate.
Qed.
Print Assumptions C49_exception.
(** The same with trees as argument and results. *)
Theorem C82_exception :
  forall J np o in_axes out_axes (f : option pctx -> pyval -> tree pyval -> prog (pyval * tree pyval)) w r d s axs b cs
         t c arg arg' ctx pc ss ss' pre ctx1 axs1 xs1 post outs css c1 fins e,
  arrays_ok J -> (forall pc c xs, ok_prog (f pc c xs)) -> wf_world w -> r < List.length (w_heap w) ->
  get_module_def w r = Ok d -> get_state w r = Ok s -> partition_state s (o_filters o) = Ok (Many (axs ++ [b; cs])) ->
  o_reverse o = false -> scan_ctx (w_trace w) (o_split o) ctx ss = (Ok pc, ss') ->
  fits np in_axes arg arg' -> tree_layers J o in_axes axs arg' pc (pre ++ (ctx1, axs1, xs1) :: post) ->
  (o_length o = None -> (exists p v, at_path arg' p = Some (TLeaf v)) \/ exists s, In s axs /\ s <> []) ->
  (forall m, o_length o = Some m -> m = List.length (pre ++ (ctx1, axs1, xs1) :: post)) ->
  loop w d (o_filters o) f b cs c pre outs css c1 -> Forall2 (fun x fin => leave_axes o (fst x) = Ok fin) outs fins -> (forall x, In x css -> alike cs x) ->
  call_raises w d (axs1 ++ [b; last css cs]) (f ctx1 c1 xs1) e ->
  exists w', scan_tree J np o in_axes out_axes t (fun pc c xs => user_fun (f pc c xs)) w r c arg ctx ss = (w', ss', Err e) /\
    all_unchanged w w' /\ w_trace w' = w_trace w /\ wf_world w'.
Proof.
  intros J np o in_axes out_axes f w r d s axs b cs t c arg arg' ctx pc ss ss' pre ctx1 axs1 xs1 post outs css c1 fins e HJ Hf Hw Hr Hd Hs Hp Hrev Hctx Hfit Hok Hn1 Hn2 Hl Hleft Hal Hra.
  assert (Hne : pre ++ (ctx1, axs1, xs1) :: post <> []) by (destruct pre; discriminate).
  eapply (core_raises J o f HJ Hf w r Hw Hr); eauto; [intros i l Hi; now apply Hok|].
  eapply cut_tree_ok; [exact Hne|exact Hfit| |exact Hn1]. intros i l Hi. now apply Hok.
Qed.
Print Assumptions C82_exception.

(** Whatever the function and the options are: no object that existed changes while the
    layers run.  Either scan raises and has changed nothing, or its last act is one
    [update_state] of the module, and its outcome is the outcome of that. *)
Theorem C49_last_act :
  forall J o (f : option pctx -> pyval -> list pyval -> prog (pyval * list pyval)) w r t c xs ctx ss w' ss' res,
  arrays_ok J -> (forall pc c xs, ok_prog (f pc c xs)) -> wf_world w -> r < List.length (w_heap w) ->
  scan_apply J o t (fun pc c xs => user_fun (f pc c xs)) w r c xs ctx ss = (w', ss', res) ->
  (all_unchanged w w' /\ w_trace w' = w_trace w /\ exists e, res = Err e) \/
  exists w3 us v, all_unchanged w w3 /\ w_trace w3 = w_trace w /\
    w' = fst (update_state w3 r (UStates (Many us))) /\ res = rmap (fun _ => v) (snd (update_state w3 r (UStates (Many us)))).
Proof.
  intros J o f w r t c xs ctx ss w' ss' res HJ Hf Hw Hr E.
  destruct (core_atomic J o f HJ Hf w r Hw Hr t c _ _ ctx ss w' ss' res E) as [H|(w3 & us & v & A1 & A2 & _ & _ & _ & A6 & A7)]; [now left|].
  right. exists w3, us, v. auto.
Qed.
Print Assumptions C49_last_act.
Theorem C82_last_act :
  forall J np o in_axes out_axes (f : option pctx -> pyval -> tree pyval -> prog (pyval * tree pyval)) w r t c arg ctx ss w' ss' res,
  arrays_ok J -> (forall pc c xs, ok_prog (f pc c xs)) -> wf_world w -> r < List.length (w_heap w) ->
  scan_tree J np o in_axes out_axes t (fun pc c xs => user_fun (f pc c xs)) w r c arg ctx ss = (w', ss', res) ->
  (all_unchanged w w' /\ w_trace w' = w_trace w /\ exists e, res = Err e) \/
  exists w3 us v, all_unchanged w w3 /\ w_trace w3 = w_trace w /\
    w' = fst (update_state w3 r (UStates (Many us))) /\ res = rmap (fun _ => v) (snd (update_state w3 r (UStates (Many us)))).
Proof.
  intros J np o in_axes out_axes f w r t c arg ctx ss w' ss' res HJ Hf Hw Hr E.
  destruct (core_atomic J o f HJ Hf w r Hw Hr t c _ _ ctx ss w' ss' res E) as [H|(w3 & us & v & A1 & A2 & _ & _ & _ & A6 & A7)]; [now left|].
  right. exists w3, us, v. auto.
Qed.
Print Assumptions C82_last_act.

(** Example: the layers of [C49_example_hyps]; the function gives up when the carry gets
    above 50, that is, in the second layer, after it has written to the module. *)
Definition careful (pc : option pctx) (c : pyval) (xs : list pyval) : prog (pyval * list pyval) :=
  Do (CGet 0 "inner") (fun _ => Do (CGet 1 "count") (fun n => Do (CSet 1 "count" (ARaw (PyInt (num n + 1)))) (fun _ =>
  Do (CGet 1 "w") (fun a => Do (CSet 1 "w" (ARaw (PyInt (num a + vnum (nth 0 xs PyNone))))) (fun _ =>
  Do (CGet 0 "scale") (fun b => Finish (if Z.ltb 50 (vnum c) then Err IndexError else Ok (PyInt (vnum c * num b + num a), [c])))))))).
Lemma careful_ok pc c xs : ok_prog (careful pc c xs).
Proof. unfold careful. repeat (apply ok_do; [first [exact Logic.I | split; [exact Logic.I|reflexivity]]|intros ? _]). constructor. Qed.
Example C49_exception_hyps :
  exists d, get_module_def ex_scan_world 0 = Ok d /\
    ex_layers = [ex_layer_in 0 1 100] ++ ex_layer_in 1 2 200 :: [ex_layer_in 2 3 300] /\
    loop ex_scan_world d (o_filters (ex_opts false)) careful [("scale", lvar (PyInt 10))] (ex_carry 0) (PyInt 7) [ex_layer_in 0 1 100]
      [ex_out 101 7] [ex_carry 1] (PyInt 71) /\
    Forall2 (fun x fin => leave_axes (ex_opts false) (fst x) = Ok fin) [ex_out 101 7] [ex_fin 101] /\
    call_raises ex_scan_world d (snd (fst (ex_layer_in 1 2 200)) ++ [[("scale", lvar (PyInt 10))]; last [ex_carry 1] (ex_carry 0)])
      (careful (fst (fst (ex_layer_in 1 2 200))) (PyInt 71) (snd (ex_layer_in 1 2 200))) IndexError.
Proof.
  eexists. split; [vm_compute; reflexivity|]. split; [reflexivity|]. split; [unfold ex_layer_in, ex_out; ex_loop|]. split; [repeat constructor|].
  do 3 eexists. split; vm_compute; reflexivity.
Qed.
Example C49_exception_example :
  exists w' ss', scan_apply tuple_arrays (ex_opts false) (3, 3) (fun pc c xs => user_fun (careful pc c xs)) ex_scan_world 0 (PyInt 7)
      [ints [100%Z; 200%Z; 300%Z]] (Some ex_ctx) ex_streams = (w', ss', Err IndexError) /\
    look w' 0 ["inner"; "count"] = SValue (lstat 0) /\ w_trace w' = (0, 0).
Proof. do 2 eexists. split; [vm_compute; reflexivity|]. split; vm_compute; reflexivity. Qed.
