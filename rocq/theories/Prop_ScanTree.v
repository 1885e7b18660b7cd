(** Prop_ScanTree: C82, in_axes and out_axes of nnx.scan.

    [np] says whether None is a prefix of every tree, as in the pinned jax 0.4.13,
    or of None only; the theorems hold of both. *)
From Coq Require Import ZArith Lia.
From Verif Require Import PyBase PyBaseFacts ValuesM Spec_Eq FiltersM StateM ModuleM SpmdM ContextM TransformM ScanM ScanTreeM.
From Verif Require Import Spec_Module Spec_Prog Spec_Context Spec_Scan Spec_ScanTree.
From Verif Require Import History_proofs Scan_proofs ScanTree_proofs Ex_Module Prop_Scan.
Local Open Scope string_scope.
Local Open Scope list_scope.

(** [layers_ok] with a tree argument: layer [i] gets its context, slice [i] of the
    axes states, and slice [i] of the argument, each array along its own axis. *)
Definition tree_layers (J : arrays) (o : scan_opts) (in_axes : tree Z) (axs : list state) (arg : tree pyval) (pc : option (pctx * (string -> bool)))
    (layers : list (step_of (tree pyval))) : Prop :=
  forall i l, nth_error layers i = Some l ->
  layer_state J o axs pc (List.length layers) i l /\ tree_slice J in_axes (List.length layers) i arg (snd l).

(** scan is the loop: every layer gets its slice of the argument, and the results
    are stacked, each array along its own axis.  [arg'] is the argument, with None
    where in_axes has None, and [yss'] likewise for the results. *)
Theorem C82_scan :
  forall J np o in_axes out_axes (f : option pctx -> pyval -> tree pyval -> prog (pyval * tree pyval)) w r d s axs b cs
         t c arg arg' ctx pc ss ss' layers outs css c' fins yss',
  arrays_ok J -> (forall pc c xs, ok_prog (f pc c xs)) ->
  wf_world w -> r < List.length (w_heap w) -> names_ok w r -> live w r ->
  get_module_def w r = Ok d -> get_state w r = Ok s -> partition_state s (o_filters o) = Ok (Many (axs ++ [b; cs])) ->
  (forall st k v ax l, In st axs -> dget k st = Some (ARaw v) -> node_value w (ARaw (a_stack J ax l))) ->
  layers <> [] -> scan_ctx (w_trace w) (o_split o) ctx ss = (Ok pc, ss') ->
  fits np in_axes arg arg' -> tree_layers J o in_axes axs arg' pc layers ->
  (o_length o = None -> (exists p v, at_path arg' p = Some (TLeaf v)) \/ exists s, In s axs /\ s <> []) ->
  (forall m, o_length o = Some m -> m = List.length layers) ->
  loop w d (o_filters o) f b cs c (if o_reverse o then rev layers else layers) outs css c' ->
  Forall2 (fun x fin => leave_axes o (fst x) = Ok fin) outs fins ->
  (forall x y, In x outs -> In y outs -> same_shape (snd x) (snd y)) ->
  Forall2 (fits np out_axes) (map snd (if o_reverse o then rev outs else outs)) yss' ->
  (forall x, In x fins -> Forall2 alike axs x) -> (forall x, In x css -> alike cs x) ->
  (o_reverse o = true -> exists l0 axs1 cs1 c1 ys1 s1 fin1, nth_error layers 0 = Some l0 /\
     call_on w d (snd (fst l0) ++ [b; cs]) (f (fst (fst l0)) c (snd l0)) = Some ((c1, ys1), s1) /\
     partition_state s1 (o_filters o) = Ok (Many (axs1 ++ [b; cs1])) /\ alike cs cs1 /\ leave_axes o axs1 = Ok fin1) ->
  exists w' axs' ys s',
    scan_tree J np o in_axes out_axes t (fun pc c xs => user_fun (f pc c xs)) w r c arg ctx ss = (w', ss', Ok (c', ys)) /\
    tree_stack J out_axes yss' ys /\
    List.length axs' = List.length (o_axes o) /\
    (forall i fx st, nth_error (o_axes o) i = Some fx -> nth_error axs' i = Some st ->
       is_stack J (snd fx) (map (fun x => nth i x []) (if o_reverse o then rev fins else fins)) st) /\
    get_state w' r = Ok s' /\ keys s' = keys s /\
    (forall i st k a, nth_error axs' i = Some st -> dget k st = Some a -> dget k s' = Some a) /\
    (forall k a, dget k (last css cs) = Some a -> dget k s' = Some a) /\
    (forall k a, dget k b = Some a -> dget k s' = Some a) /\
    get_module_def w' r = Ok d /\ w_trace w' = w_trace w /\ (forall p, follow w' r p = follow w r p) /\
    (forall x ob, get_obj w x = Some ob -> ~ reaches w r x -> get_obj w' x = Some ob) /\
    wf_world w' /\ names_ok w' r /\ live w' r /\ w_nodes w' = w_nodes w.
Proof.
  intros J np o in_axes out_axes f w r d s axs b cs t c arg arg' ctx pc ss ss' layers outs css c' fins yss' HJ Hf Hw Hr Hno Hlive Hd Hs Hp Hnode Hne Hctx Hfit Hok Hn1 Hn2 Hl Hleft Hys Hyf Hfin Hcs Hpr.
  assert (Hno' : outs <> []).
  { destruct layers as [|l layers]; [congruence|]. destruct (o_reverse o); [cbn in Hl; destruct (rev layers ++ [l]) eqn:E; [now destruct (rev layers)|]|]; inversion Hl; discriminate. }
  destruct (join_tree_ok J np out_axes (map snd (if o_reverse o then rev outs else outs)) yss') as (big & J1 & J2); [| |exact Hyf|].
  { intros E. apply map_eq_nil in E. destruct (o_reverse o); [|contradiction]. apply Hno'. rewrite <- (rev_involutive outs), E. reflexivity. }
  { intros x y Hx Hy. apply in_map_iff in Hx as (x' & <- & Hx). apply in_map_iff in Hy as (y' & <- & Hy). destruct (o_reverse o); [apply in_rev in Hx; apply in_rev in Hy|]; now apply Hys. }
  destruct (scan_explicit_ok J o f HJ Hf w r d s axs b cs Hw Hr Hd Hs Hp same_shape t c (cut_tree J np in_axes arg) (join_tree J np out_axes) ctx pc ss ss' layers outs css c' fins big
    Hno Hlive Hnode Hne Hctx) as (w4 & axsF & s' & E & A1 & A2 & A5); auto.
  - intros i l Hi. now apply Hok.
  - eapply cut_tree_ok; [exact Hne|exact Hfit| |exact Hn1]. intros i l Hi. now apply Hok.
  - exists w4, axsF, big, s'. split; [exact E|]. auto.
Qed.
Print Assumptions C82_scan.

(** If in_axes is not a prefix of the argument, ValueError is raised before the
    function is called, and module and context are as they were. *)
Theorem C82_in_axes :
  forall J np o in_axes out_axes (f : scanned_of (tree pyval) (tree pyval)) w r d s axs b cs t c arg ctx ss,
  wf_world w -> r < List.length (w_heap w) ->
  get_module_def w r = Ok d -> get_state w r = Ok s -> partition_state s (o_filters o) = Ok (Many (axs ++ [b; cs])) ->
  (forall st g ax k v, In (st, (g, ax)) (combine axs (o_axes o)) -> array_at k st v -> exists l, a_slices J ax v = Ok l) ->
  (forall arg', ~ fits np in_axes arg arg') ->
  scan_tree J np o in_axes out_axes t f w r c arg ctx ss = (w, ss, Err ValueError).
Proof.
  intros J np o in_axes out_axes f w r d s axs b cs t c arg ctx ss W R D Sx P A N.
  pose proof (scan_states_nodup w r s axs b cs o W R Sx P) as Ws.
  destruct (slice_states_total J (o_axes o) axs) as (sl & E1 & _).
  { intros st g ax k a I I2. apply (A st g ax k); [exact I|]. apply array_at_In; [|exact I2]. apply Ws. eapply in_combine_l; exact I. }
  unfold scan_tree, scan_core, module_partition. rewrite D, Sx. cbn [rbind]. rewrite P. cbn [rbind p_states p_def sts_list]. rewrite split3_app.
  rewrite E1. cbn [rbind]. unfold cut_tree, tree_map_upto_left. destruct (fits_or np in_axes arg) as [[arg' F]|Er]; [now apply N in F|]. rewrite Er. reflexivity.
Qed.
Print Assumptions C82_in_axes.

(** If out_axes is not a prefix of the results, ValueError is raised after all
    layers have run, and the module is not updated. *)
Theorem C82_out_axes :
  forall J np o in_axes out_axes (f : option pctx -> pyval -> tree pyval -> prog (pyval * tree pyval)) w r d s axs b cs
         t c arg arg' ctx pc ss ss' layers outs css c' fins,
  arrays_ok J -> (forall pc c xs, ok_prog (f pc c xs)) ->
  wf_world w -> r < List.length (w_heap w) ->
  get_module_def w r = Ok d -> get_state w r = Ok s -> partition_state s (o_filters o) = Ok (Many (axs ++ [b; cs])) ->
  o_reverse o = false -> layers <> [] -> scan_ctx (w_trace w) (o_split o) ctx ss = (Ok pc, ss') ->
  fits np in_axes arg arg' -> tree_layers J o in_axes axs arg' pc layers ->
  (o_length o = None -> (exists p v, at_path arg' p = Some (TLeaf v)) \/ exists s, In s axs /\ s <> []) ->
  (forall m, o_length o = Some m -> m = List.length layers) ->
  loop w d (o_filters o) f b cs c layers outs css c' ->
  Forall2 (fun x fin => leave_axes o (fst x) = Ok fin) outs fins -> uniform same_shape cs outs fins css ->
  (forall y y', In y outs -> ~ fits np out_axes (snd y) y') ->
  exists w', scan_tree J np o in_axes out_axes t (fun pc c xs => user_fun (f pc c xs)) w r c arg ctx ss = (w', ss', Err ValueError) /\
    all_unchanged w w' /\ w_trace w' = w_trace w /\ wf_world w'.
Proof.
  intros J np o in_axes out_axes f w r d s axs b cs t c arg arg' ctx pc ss ss' layers outs css c' fins HJ Hf Hw Hr Hd Hs Hp Hrev Hne Hctx Hfit Hok Hn1 Hn2 Hl Hleft Hu Hno.
  destruct (scan_forward J o f HJ Hf w r d s axs b cs Hw Hr Hd Hs Hp same_shape t c (cut_tree J np in_axes arg) (join_tree J np out_axes) ctx pc ss ss' layers outs css c' fins
    Hrev Hne Hctx) as (w3 & axsF & [G1 G2 G3 G4] & A1 & A2 & A5); auto.
  - intros i l Hi. now apply Hok.
  - eapply cut_tree_ok; [exact Hne|exact Hfit| |exact Hn1]. intros i l Hi. now apply Hok.
  - assert (outs <> []) by (destruct Hl; [congruence|discriminate]).
    rewrite join_tree_err in A5; [exists w3; split; [exact A5|auto]| | |].
    + intros E. apply map_eq_nil in E. contradiction.
    + intros x y Hx Hy. apply in_map_iff in Hx as (x' & <- & Hx). apply in_map_iff in Hy as (y' & <- & Hy). now apply (u_ys _ _ _ _ _ Hu).
    + intros y y' Hy. apply in_map_iff in Hy as (x & <- & Hx). now apply Hno.
Qed.
Print Assumptions C82_out_axes.

(** If scan cannot tell one number of layers it raises ValueError, as in
    [C49_lengths]. *)
Theorem C82_lengths :
  forall J np o in_axes out_axes (f : scanned_of (tree pyval) (tree pyval)) w r d s axs b cs t c arg arg' ctx ss,
  wf_world w -> r < List.length (w_heap w) ->
  get_module_def w r = Ok d -> get_state w r = Ok s -> partition_state s (o_filters o) = Ok (Many (axs ++ [b; cs])) ->
  fits np in_axes arg arg' ->
  (forall ax v, tree_over o axs in_axes arg' ax v -> exists l, a_slices J ax v = Ok l) -> (forall n, ~ tree_count J o axs in_axes arg' n) ->
  scan_tree J np o in_axes out_axes t f w r c arg ctx ss = (w, ss, Err ValueError).
Proof.
  intros J np o in_axes out_axes f w r d s axs b cs t c arg arg' ctx ss W R D Sx P Hfit A N. unfold scan_tree.
  destruct (upto_ok np (a_slices J) in_axes arg arg' Hfit) as (sl & U1 & U2 & U3). { intros p v ax Pv X. apply A. eapply tover_arg; eauto. }
  eapply (scan_lengths_gen J o f w r d s axs b cs) with (over := tree_over o axs in_axes arg'); eauto.
  - intros st g ax k v I H. eapply tover_state; eauto.
  - unfold cut_tree. fold (upto np (a_slices J) in_axes arg). rewrite U1. reflexivity.
  - intros n Hn. apply in_map_iff in Hn as (l & <- & Hi). apply leaves_path in Hi as [p Pl]. destruct (shape_leaf p sl arg' l (shape_sym _ _ U2) Pl) as [v Pv].
    destruct (U3 p v Pv) as (ax & l' & X & El & Pl'). assert (l' = l) by congruence. subst l'. exists ax, v, l. split; [eapply tover_arg; eauto|auto].
  - intros ax v [st g ax' k v' I H|p ax' v' Pv X]; [left; exists st, g, k; auto|]. right. destruct (U3 p v' Pv) as (ax2 & l & X' & El & Pl).
    rewrite (axis_unique _ _ _ _ X X'). exists l. split; [exact El|]. apply in_map. apply leaves_path. eauto.
Qed.
Print Assumptions C82_lengths.

(** Example: matrices are tuples of rows.  The argument is a tuple of a vector and a
    dict with a matrix; the vector is cut along axis 0 and the matrix along axis 1.
    The results are a list of the column and the carry; the columns are stacked along
    axis 1 again. *)
Definition transpose (rows : list pyval) : list pyval :=
  match rows with
  | PyTuple r0 :: _ => map (fun j => PyTuple (map (fun r => match r with PyTuple l => nth j l PyNone | _ => PyNone end) rows)) (seq 0 (List.length r0))
  | _ => []
  end.
Definition mat_arrays : arrays :=
  mkArrays (fun ax v => match v with
                        | PyTuple l => if Z.eqb ax 1 then Ok (transpose l)
                                       else if forallb (fun x => match x with PyMod _ => false | _ => true end) l then Ok l else Err ValueError
                        | _ => Err ValueError
                        end)
           (fun ax l => if Z.eqb ax 1 then PyTuple (transpose l) else PyTuple l).
Lemma mat_arrays_ok : arrays_ok mat_arrays.
Proof.
  constructor; [|intros ax l; cbn; destruct (Z.eqb ax 1); exact Logic.I]. intros ax v l x H I. cbn in H. destruct v; try discriminate. destruct (Z.eqb ax 1).
  - injection H as <-. unfold transpose in I. destruct l0 as [|[] ?]; try contradiction. apply in_map_iff in I as (j & <- & _). exact Logic.I.
  - destruct (forallb _ _) eqn:E; [|discriminate]. injection H as <-. rewrite forallb_forall in E. specialize (E x I). destruct x; try exact Logic.I. discriminate.
Qed.
Definition ex_matrix : pyval := PyTuple [ints [1%Z; 2%Z; 3%Z]; ints [4%Z; 5%Z; 6%Z]].
Definition ex_in_axes : tree Z := TNode KTuple [TLeaf 0%Z; TNode (KDict ["m"]) [TLeaf 1%Z]].
Definition ex_out_axes : tree Z := TNode KList [TLeaf 1%Z; TLeaf 0%Z].
Definition ex_arg : tree pyval := TNode KTuple [TLeaf (ints [100%Z; 200%Z; 300%Z]); TNode (KDict ["m"]) [TLeaf ex_matrix]].
(** count += 1; w = m.inner.w; m.inner.w = w + xs[0]; return c * scale + w, [xs[1]["m"], c] *)
Definition tree_layer (pc : option pctx) (c : pyval) (xs : tree pyval) : prog (pyval * tree pyval) :=
  let x := match at_path xs [0] with Some (TLeaf v) => v | _ => PyNone end in
  let y := match at_path xs [1; 0] with Some (TLeaf v) => v | _ => PyNone end in
  Do (CGet 0 "inner") (fun _ => Do (CGet 1 "count") (fun n => Do (CSet 1 "count" (ARaw (PyInt (num n + 1)))) (fun _ =>
  Do (CGet 1 "w") (fun a => Do (CSet 1 "w" (ARaw (PyInt (num a + vnum x)))) (fun _ =>
  Do (CGet 0 "scale") (fun b => Finish (Ok (PyInt (vnum c * num b + num a), TNode KList [TLeaf y; TLeaf c])))))))).
Lemma tree_layer_ok pc c xs : ok_prog (tree_layer pc c xs).
Proof. unfold tree_layer. repeat (apply ok_do; [first [exact Logic.I | split; [exact Logic.I|reflexivity]]|intros ? _]). constructor. Qed.
Definition tree_layer_in (i : nat) (w x y z : Z) : step_of (tree pyval) :=
  (fst (fst (ex_layer_in i w x)), snd (fst (ex_layer_in i w x)), TNode KTuple [TLeaf (PyInt x); TNode (KDict ["m"]) [TLeaf (ints [y; z])]]).
Definition ex_tree_layers : list (step_of (tree pyval)) := [tree_layer_in 0 1 100 1 4; tree_layer_in 1 2 200 2 5; tree_layer_in 2 3 300 3 6].
Definition tree_out (w c y z : Z) : layer_out_of (tree pyval) := (fst (ex_out w c), TNode KList [TLeaf (ints [y; z]); TLeaf (PyInt c)]).
Definition ex_axs : list state := [[("inner/w", lparam (ints [1%Z; 2%Z; 3%Z]) [PyStr "layers"; PyStr "x"])]].

Lemma ex_tree_layers_ok : tree_layers mat_arrays (ex_opts false) ex_in_axes ex_axs ex_arg (Some (ex_pc, fun name => String.eqb name "dropout")) ex_tree_layers.
Proof.
  assert (G : forall i l, nth_error ex_tree_layers i = Some l -> exists x y z a, nth_error [1%Z; 2%Z; 3%Z] i = Some x /\ nth_error [100%Z; 200%Z; 300%Z] i = Some y /\
     nth_error [ints [1%Z; 4%Z]; ints [2%Z; 5%Z]; ints [3%Z; 6%Z]] i = Some (ints [z; a]) /\
     l = tree_layer_in i x y z a /\ enter_axes (ex_opts false) [[("inner/w", lparam (PyInt x) [PyStr "layers"; PyStr "x"])]] = Ok (snd (fst l))).
  { intros [|[|[|[|i]]]] l E; cbn in E; try discriminate; injection E as <-; do 4 eexists; repeat split; vm_compute; reflexivity. }
  intros i l E. destruct (G i l E) as (x & y & z & a & X & Y & Z & -> & EN). change (List.length ex_tree_layers) with 3. split.
  - split; [reflexivity|]. exists [[("inner/w", lparam (PyInt x) [PyStr "layers"; PyStr "x"])]]. split; [|exact EN].
    constructor; [|constructor]. split.
    + constructor; [|constructor]. repeat split; reflexivity.
    + intros k v (q & D & ->). cbn in D. destruct (String.eqb_spec k "inner/w") as [->|]; [|discriminate]. injection D as <-. cbn.
      exists (map PyInt [1%Z; 2%Z; 3%Z]), (PyInt x). split; [reflexivity|]. split; [reflexivity|].
      split; [change (nth_error (map PyInt [1%Z; 2%Z; 3%Z]) i = Some (PyInt x)); rewrite nth_error_map, X; reflexivity|]. eexists. split; reflexivity.
  - split; [cbn; repeat constructor|]. intros p v P. cbn [snd tree_layer_in] in *.
    destruct p as [|[|[|j]] p]; cbn in P; [discriminate| | |destruct j; discriminate].
    + destruct p; [|discriminate]. injection P as <-. exists 0%Z, (map PyInt [100%Z; 200%Z; 300%Z]), (PyInt y). split; [exists [0], []; split; reflexivity|]. split; [reflexivity|]. split; [reflexivity|].
      split; [rewrite nth_error_map, Y; reflexivity|reflexivity].
    + destruct p as [|[|j] p]; cbn in P; [discriminate| |destruct j; discriminate]. destruct p; [|discriminate]. injection P as <-.
      exists 1%Z. eexists. exists (ints [z; a]). split; [exists [1; 0], []; split; reflexivity|]. split; [reflexivity|]. split; [reflexivity|]. split; [exact Z|reflexivity].
Qed.
Ltac fit := repeat first [apply fits_leaf | apply fits_none; auto | apply fits_node | apply fits_nil | apply fits_cons].
(** the hypotheses of [C82_scan], those of [C49_example_hyps] apart *)
Example C82_example_hyps :
  fits true ex_in_axes ex_arg ex_arg /\ fits false ex_in_axes ex_arg ex_arg /\
  (exists d s, get_module_def ex_scan_world 0 = Ok d /\ get_state ex_scan_world 0 = Ok s /\
     partition_state s (o_filters (ex_opts false)) = Ok (Many (ex_axs ++ [[("scale", lvar (PyInt 10))]; ex_carry 0])) /\
     loop ex_scan_world d (o_filters (ex_opts false)) tree_layer [("scale", lvar (PyInt 10))] (ex_carry 0) (PyInt 7) ex_tree_layers
       [tree_out 101 7 1 4; tree_out 202 71 2 5; tree_out 303 712 3 6] [ex_carry 1; ex_carry 2; ex_carry 3] (PyInt 7123)) /\
  Forall2 (fits true ex_out_axes) (map snd [tree_out 101 7 1 4; tree_out 202 71 2 5; tree_out 303 712 3 6]) (map snd [tree_out 101 7 1 4; tree_out 202 71 2 5; tree_out 303 712 3 6]) /\
  (forall x y, In x [tree_out 101 7 1 4; tree_out 202 71 2 5; tree_out 303 712 3 6] -> In y [tree_out 101 7 1 4; tree_out 202 71 2 5; tree_out 303 712 3 6] -> same_shape (snd x) (snd y)).
Proof.
  split; [fit|]. split; [fit|]. split.
  { do 2 eexists. split; [vm_compute; reflexivity|]. split; [vm_compute; reflexivity|]. split; [vm_compute; reflexivity|].
    unfold ex_tree_layers, tree_layer_in, tree_out; cbn [fst snd ex_layer_in ex_out]; ex_loop. }
  split; [cbn; repeat constructor|]. intros x y [<-|[<-|[<-|[]]]] [<-|[<-|[<-|[]]]]; cbn; repeat constructor.
Qed.
(** and what scan does *)
Example C82_example :
  forall np, exists w' ss', scan_tree mat_arrays np (ex_opts false) ex_in_axes ex_out_axes (3, 3) (fun pc c xs => user_fun (tree_layer pc c xs)) ex_scan_world 0 (PyInt 7)
      ex_arg (Some ex_ctx) ex_streams = (w', ss', Ok (PyInt 7123, TNode KList [TLeaf ex_matrix; TLeaf (ints [7%Z; 71%Z; 712%Z])])) /\
    look w' 0 ["inner"; "w"] = SValue (lparam (ints [101%Z; 202%Z; 303%Z]) [PyStr "layers"; PyStr "x"]) /\
    look w' 0 ["inner"; "count"] = SValue (lstat 3).
Proof. intros []; do 2 eexists; repeat (apply conj; [vm_compute; reflexivity|]); vm_compute; reflexivity. Qed.
(** in_axes and out_axes that are no prefixes *)
Example C82_no_prefix :
  (forall np arg', ~ fits np (TNode KTuple [TLeaf 0%Z]) ex_arg arg') /\ (forall np y', ~ fits np (TNode KTuple [TLeaf 0%Z; TLeaf 0%Z]) (snd (tree_out 101 7 1 4)) y').
Proof.
  split.
  - intros np arg' H. inversion H as [| |? ? ? ? F]; subst. inversion F as [|? ? ? ? ? ? _ F2]; subst. inversion F2.
  - intros np y' H. inversion H.
Qed.
Example C82_no_prefix_scan : forall np,
  (scan_tree mat_arrays np (ex_opts false) (TNode KTuple [TLeaf 0%Z]) ex_out_axes (3, 3) (fun pc c xs => user_fun (tree_layer pc c xs)) ex_scan_world 0 (PyInt 7)
      ex_arg (Some ex_ctx) ex_streams = (ex_scan_world, ex_streams, Err ValueError)) /\
  exists w' ss', scan_tree mat_arrays np (ex_opts false) ex_in_axes (TNode KTuple [TLeaf 0%Z; TLeaf 0%Z]) (3, 3) (fun pc c xs => user_fun (tree_layer pc c xs)) ex_scan_world 0 (PyInt 7)
      ex_arg (Some ex_ctx) ex_streams = (w', ss', Err ValueError) /\
    look w' 0 ["inner"; "count"] = SValue (lstat 0).
Proof. intros []; (split; [vm_compute; reflexivity|]); do 2 eexists; (split; [vm_compute; reflexivity|]); vm_compute; reflexivity. Qed.
(** a matrix with three columns and a vector of length two *)
Example C82_lengths_example :
  let arg := TNode KTuple [TLeaf (ints [100%Z; 200%Z]); TNode (KDict ["m"]) [TLeaf ex_matrix]] in
  forall n, ~ tree_count mat_arrays (ex_opts false) [] ex_in_axes arg n.
Proof.
  intros arg n [H _].
  destruct (H 0%Z (ints [100%Z; 200%Z])) as (l & E & L). { eapply (tover_arg _ _ _ _ [0]); [reflexivity|]. exists [0], []. split; reflexivity. }
  destruct (H 1%Z ex_matrix) as (l' & E' & L'). { eapply (tover_arg _ _ _ _ [1; 0]); [reflexivity|]. exists [1; 0], []. split; reflexivity. }
  injection E as <-. injection E' as <-. cbn in L, L'. congruence.
Qed.

(** **** What does not hold *)
(** None in in_axes does not mean, as it does in jax.vmap, that every layer gets the
    whole argument.  Where None is a prefix of every tree, the layers get None
    instead of it, and otherwise ValueError is raised. *)
Definition see_layer (pc : option pctx) (c : pyval) (xs : tree pyval) : prog (pyval * tree pyval) := Finish (Ok (c, xs)).
Theorem C82_broadcast_refuted :
  exists J o (f : option pctx -> pyval -> tree pyval -> prog (pyval * tree pyval)) w r c x y in_axes,
    arrays_ok J /\ (forall pc c xs, ok_prog (f pc c xs)) /\ wf_world w /\ names_ok w r /\ live w r /\
    (** every layer returns the argument it gets *)
    (forall pc c xs w r, user_fun (f pc c xs) w r = (w, Ok (c, xs))) /\
    in_axes = TNode KTuple [TLeaf 0%Z; TNone] /\
    (exists w' ss', scan_tree J true o in_axes (TLeaf 0%Z) (3, 3) (fun pc c xs => user_fun (f pc c xs)) w r c (TNode KTuple [TLeaf x; TLeaf y]) None [] =
       (w', ss', Ok (c, TNode KTuple [TLeaf x; TNone]))) /\
    scan_tree J false o in_axes (TLeaf 0%Z) (3, 3) (fun pc c xs => user_fun (f pc c xs)) w r c (TNode KTuple [TLeaf x; TLeaf y]) None [] = (w, [], Err ValueError).
Proof.
  destruct C49_example_hyps as (A & B & C & _).
  exists mat_arrays, (ex_opts false), see_layer, ex_scan_world, 0, (PyInt 7), (ints [100%Z; 200%Z; 300%Z]), (PyInt 5), (TNode KTuple [TLeaf 0%Z; TNone]).
  split; [exact mat_arrays_ok|]. split; [intros; constructor|]. do 3 (split; [assumption|]). split; [intros; reflexivity|]. split; [reflexivity|].
  split; [do 2 eexists; vm_compute; reflexivity|vm_compute; reflexivity].
Qed.
Print Assumptions C82_broadcast_refuted.
(** None in out_axes drops the result (or raises ValueError after the layers ran). *)
Theorem C82_output_refuted :
  exists J o (f : option pctx -> pyval -> tree pyval -> prog (pyval * tree pyval)) w r c x y out_axes,
    arrays_ok J /\ (forall pc c xs, ok_prog (f pc c xs)) /\ wf_world w /\ names_ok w r /\ live w r /\
    (forall pc c xs w r, user_fun (f pc c xs) w r = (w, Ok (c, xs))) /\
    out_axes = TNode KTuple [TLeaf 0%Z; TNone] /\
    (exists w' ss', scan_tree J true o (TLeaf 0%Z) out_axes (3, 3) (fun pc c xs => user_fun (f pc c xs)) w r c (TNode KTuple [TLeaf x; TLeaf y]) None [] =
       (w', ss', Ok (c, TNode KTuple [TLeaf x; TNone]))) /\
    (exists w' ss', scan_tree J false o (TLeaf 0%Z) out_axes (3, 3) (fun pc c xs => user_fun (f pc c xs)) w r c (TNode KTuple [TLeaf x; TLeaf y]) None [] = (w', ss', Err ValueError)).
Proof.
  destruct C49_example_hyps as (A & B & C & _).
  exists mat_arrays, (ex_opts false), see_layer, ex_scan_world, 0, (PyInt 7), (ints [100%Z; 200%Z; 300%Z]), (ints [4%Z; 5%Z; 6%Z]), (TNode KTuple [TLeaf 0%Z; TNone]).
  split; [exact mat_arrays_ok|]. split; [intros; constructor|]. do 3 (split; [assumption|]). split; [intros; reflexivity|]. split; [reflexivity|].
  split; do 2 eexists; vm_compute; reflexivity.
Qed.
Print Assumptions C82_output_refuted.
