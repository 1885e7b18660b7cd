(** Prop_Scan: C49 and C50, nnx.scan; C61, nnx.remat.

    The scanned function is any program over modules (Spec_Prog).  [loop]
    (Spec_Scan) is the python loop it stands for. *)
From Coq Require Import ZArith Lia.
From Verif Require Import ValuesFacts PyBase PyBaseFacts ValuesM Spec_Eq FiltersM StateM ModuleM SpmdM ContextM TransformM ScanM.
From Verif Require Import Spec_Module Spec_Prog Spec_Context Spec_Scan.
From Verif Require Import Context_proofs Transform_proofs Scan_proofs ScanRng_proofs Ex_Module Prop_Transform.
Local Open Scope string_scope.
Local Open Scope list_scope.

(** *** C49 *)
(** The module's state splits into per-layer states [axs], broadcast state [b] and
    carry state [cs].  The layers get the slices of [axs] and of the argument
    [xs].  If the python loop over the layers (from the last to the first with
    reverse=True) runs, ends with carry [c'] and leaves the structure of the
    module as it was, then scan returns [c'] and the stacked outputs, and
    afterwards the per-layer state of the module is the stack of what the layers
    left, the carry state is that of the last iteration, and the broadcast state,
    the structure, and everything not below the module are unchanged. *)
Theorem C49_scan :
  forall J o (f : option pctx -> pyval -> list pyval -> prog (pyval * list pyval)) w r d s axs b cs
         t c xs ctx pc ss ss' layers outs css c' fins,
  arrays_ok J -> (forall pc c xs, ok_prog (f pc c xs)) ->
  wf_world w -> r < List.length (w_heap w) -> names_ok w r -> live w r ->
  get_module_def w r = Ok d -> get_state w r = Ok s -> partition_state s (o_filters o) = Ok (Many (axs ++ [b; cs])) ->
  (forall st k v ax l, In st axs -> dget k st = Some (ARaw v) -> node_value w (ARaw (a_stack J ax l))) ->
  layers <> [] -> scan_ctx (w_trace w) (o_split o) ctx ss = (Ok pc, ss') -> layers_ok J o axs xs pc layers ->
  (o_length o = None -> xs <> [] \/ exists st, In st axs /\ st <> []) -> (forall m, o_length o = Some m -> m = List.length layers) ->
  loop w d (o_filters o) f b cs c (if o_reverse o then rev layers else layers) outs css c' ->
  Forall2 (fun x fin => leave_axes o (fst x) = Ok fin) outs fins ->
  (forall x y : layer_out, In x outs -> In y outs -> List.length (snd x) = List.length (snd y)) ->
  (forall x, In x fins -> Forall2 alike axs x) -> (forall x, In x css -> alike cs x) ->
  (o_reverse o = true -> exists l0 axs1 cs1 c1 ys1 s1 fin1, nth_error layers 0 = Some l0 /\
     call_on w d (snd (fst l0) ++ [b; cs]) (f (fst (fst l0)) c (snd l0)) = Some ((c1, ys1), s1) /\
     partition_state s1 (o_filters o) = Ok (Many (axs1 ++ [b; cs1])) /\ alike cs cs1 /\ leave_axes o axs1 = Ok fin1) ->
  exists w' axs' ys s',
    scan_apply J o t (fun pc c xs => user_fun (f pc c xs)) w r c xs ctx ss = (w', ss', Ok (c', ys)) /\
    leaf_stack J (o_out o) (map snd (if o_reverse o then rev outs else outs)) ys /\
    (forall x, In x outs -> List.length (snd x) = List.length ys) /\
    List.length axs' = List.length (o_axes o) /\
    (forall i fx st, nth_error (o_axes o) i = Some fx -> nth_error axs' i = Some st ->
       is_stack J (snd fx) (map (fun x => nth i x []) (if o_reverse o then rev fins else fins)) st) /\
    get_state w' r = Ok s' /\ keys s' = keys s /\
    (forall i st k a, nth_error axs' i = Some st -> dget k st = Some a -> dget k s' = Some a) /\
    (forall k a, dget k (last css cs) = Some a -> dget k s' = Some a) /\
    (forall k a, dget k b = Some a -> dget k s' = Some a) /\
    get_module_def w' r = Ok d /\ w_trace w' = w_trace w /\ (forall p, follow w' r p = follow w r p) /\
    (forall x ob, get_obj w x = Some ob -> ~ reaches w r x -> get_obj w' x = Some ob) /\
    wf_world w' /\ names_ok w' r /\ live w' r /\ w_nodes w' = w_nodes w.
Proof.
  intros J o f w r d s axs b cs t c xs ctx pc ss ss' layers outs css c' fins HJ Hf Hw Hr Hno Hlive Hd Hs Hp Hnode Hne Hctx Hok Hn1 Hn2 Hl Hleft Hys Hfit Hcs Hpr.
  destruct (leaves_explicit_ok J o f HJ Hf w r d s axs b cs Hw Hr Hd Hs Hp t c xs ctx pc ss ss' layers outs css c' fins
    Hno Hlive Hnode Hne Hctx Hok Hn1 Hn2 Hl Hleft Hys Hfit Hcs Hpr) as (w4 & axsF & ysF & s' & E & A1 & A2 & A3 & A4 & A5).
  exists w4, axsF, ysF, s'. split; [exact E|]. split; [exact A3|]. split; [|auto].
  intros x Hx. apply A4. apply in_map_iff. exists x. split; [reflexivity|]. destruct (o_reverse o); [now apply -> in_rev|exact Hx].
Qed.
Print Assumptions C49_scan.

(** In forward order the layers may also add carry state, and change the metadata
    of per-layer state: then scan is [m.update_state] of the stacked per-layer
    states and the last carry state. *)
Theorem C49_new_state :
  forall J o (f : option pctx -> pyval -> list pyval -> prog (pyval * list pyval)) w r d s axs b cs
         t c xs ctx pc ss ss' layers outs css c' fins,
  arrays_ok J -> (forall pc c xs, ok_prog (f pc c xs)) ->
  wf_world w -> r < List.length (w_heap w) ->
  get_module_def w r = Ok d -> get_state w r = Ok s -> partition_state s (o_filters o) = Ok (Many (axs ++ [b; cs])) ->
  o_reverse o = false -> layers <> [] -> scan_ctx (w_trace w) (o_split o) ctx ss = (Ok pc, ss') -> layers_ok J o axs xs pc layers ->
  (o_length o = None -> xs <> [] \/ exists s, In s axs /\ s <> []) -> (forall m, o_length o = Some m -> m = List.length layers) ->
  loop w d (o_filters o) f b cs c layers outs css c' -> Forall2 (fun x fin => leave_axes o (fst x) = Ok fin) outs fins ->
  uniform (fun x y : list pyval => List.length x = List.length y) cs outs fins css ->
  exists w3 axs' ys, wf_world w3 /\ all_unchanged w w3 /\ w_trace w3 = w_trace w /\ List.length axs' = List.length (o_axes o) /\
    (forall i fx st, nth_error (o_axes o) i = Some fx -> nth_error axs' i = Some st ->
       is_stack J (snd fx) (map (fun x => nth i x []) fins) st) /\
    leaf_stack J (o_out o) (map snd outs) ys /\ (forall x, In x outs -> List.length (snd x) = List.length ys) /\
    scan_apply J o t (fun pc c xs => user_fun (f pc c xs)) w r c xs ctx ss =
      let (w', res) := update_state w3 r (UStates (Many (axs' ++ [last css cs; []; []]))) in (w', ss', rmap (fun _ => (c', ys)) res).
Proof.
  intros J o f w r d s axs b cs t c xs ctx pc ss ss' layers outs css c' fins HJ Hf Hw Hr Hd Hs Hp Hrev Hne Hctx Hok Hn1 Hn2 Hl Hleft Hu.
  destruct (leaves_forward J o f HJ Hf w r d s axs b cs Hw Hr Hd Hs Hp t c xs ctx pc ss ss' layers outs css c' fins
    Hrev Hne Hctx Hok Hn1 Hn2 Hl Hleft Hu) as (ysF & (w3 & axsF & [G1 G2 G3 G4] & A1 & A2 & A5) & A3 & A4).
  exists w3, axsF, ysF. repeat (split; [assumption|]). split; [|exact A5]. intros x Hx. apply A4. now apply in_map.
Qed.
Print Assumptions C49_new_state.

(** Example: three layers of a module with a submodule.  Tuples play the role of
    arrays.  Parameters are per layer and carry the axis name "layers" in their
    sharding; "count" is carried, "scale" is broadcast. *)
Definition tuple_arrays : arrays :=
  mkArrays (fun _ v => match v with
                       | PyTuple l => if forallb (fun x => match x with PyMod _ => false | _ => true end) l then Ok l else Err ValueError
                       | _ => Err ValueError
                       end)
           (fun _ l => PyTuple l).
Lemma tuple_arrays_ok : arrays_ok tuple_arrays.
Proof.
  constructor; [|intros; exact Logic.I]. intros ax v l x H I. cbn in H. destruct v; try discriminate.
  destruct (forallb _ _) eqn:E; [|discriminate]. injection H as <-. rewrite forallb_forall in E. specialize (E x I). destruct x; try exact Logic.I. discriminate.
Qed.
Definition lparam (v : pyval) (sh : list pyval) : attr := ACont (mkCont Param_cls [("sharding", PyTuple sh)] v).
Definition lstat (z : Z) : attr := ACont (mkCont BatchStat_cls [("sharding", PyNone)] (PyInt z)).
Definition lvar (v : pyval) : attr := ACont (mkCont Variable_cls [("sharding", PyNone)] v).
Definition ints (l : list Z) : pyval := PyTuple (map PyInt l).
Definition ex_scan_world : world := mkWorld
  [ mkMobj (Mod_cls "Block") 1 false (0, 0) [("scale", lvar (PyInt 10)); ("inner", sub 1); ("name", ARaw (PyStr "b"))];
    mkMobj (Mod_cls "Dense") 2 false (0, 0) [("w", lparam (ints [1%Z; 2%Z; 3%Z]) [PyStr "layers"; PyStr "x"]); ("count", lstat 0)];
    mkMobj (Mod_cls "Other") 5 false (0, 0) [("peer", sub 1)] ]
  5 (0, 0) default_node_types.
Definition ex_opts (rev : bool) : scan_opts :=
  mkScan [(FType "Param", 0%Z)] (FPred (fun k _ => starts_with "scale" k)) FEllipsis (RStr "dropout") 0%Z 0%Z None rev (Some "layers").
Definition num (a : ans) : Z := match a with AValue (ACont (mkCont _ _ (PyInt z))) => z | _ => 0%Z end.
Definition vnum (v : pyval) : Z := match v with PyInt z => z | _ => 0%Z end.
(** m.inner.count += 1; w = m.inner.w; m.inner.w = w + x; return c * m.scale + w, c *)
Definition ex_layer (pc : option pctx) (c : pyval) (xs : list pyval) : prog (pyval * list pyval) :=
  Do (CGet 0 "inner") (fun _ => Do (CGet 1 "count") (fun n => Do (CSet 1 "count" (ARaw (PyInt (num n + 1)))) (fun _ =>
  Do (CGet 1 "w") (fun a => Do (CSet 1 "w" (ARaw (PyInt (num a + vnum (nth 0 xs PyNone))))) (fun _ =>
  Do (CGet 0 "scale") (fun b => Finish (Ok (PyInt (vnum c * num b + num a), [c])))))))).
Lemma ex_layer_ok pc c xs : ok_prog (ex_layer pc c xs).
Proof. unfold ex_layer. repeat (apply ok_do; [first [exact Logic.I | split; [exact Logic.I|reflexivity]]|intros ? _]). constructor. Qed.
Definition ex_ctx : context := mkCtx [("params", 0); ("dropout", 1)] [("train", true)] (0, 0).
Definition ex_streams : list stream := [mkStream (KSeed 0) 2 []; mkStream (KSeed 1) 0 []].
Definition ex_pc : pctx := mkPctx [("params", KSeed 0); ("dropout", KSeed 1)] [("params", [2]); ("dropout", [0])] [("train", true)].
Definition ex_layer_in (i : nat) (w x : Z) : step_in :=
  (Some (mkPctx [("dropout", KSplit (KSeed 1) 3 i); ("params", KSeed 0)] [("params", [2]); ("dropout", [0])] [("train", true)]),
   [[("inner/w", lparam (PyInt w) [PyStr "x"])]], [PyInt x]).
Definition ex_layers : list step_in := [ex_layer_in 0 1 100; ex_layer_in 1 2 200; ex_layer_in 2 3 300].

Lemma ex_layers_ok rev : layers_ok tuple_arrays (ex_opts rev) [[("inner/w", lparam (ints [1%Z; 2%Z; 3%Z]) [PyStr "layers"; PyStr "x"])]] [ints [100%Z; 200%Z; 300%Z]]
  (Some (ex_pc, fun name => String.eqb name "dropout")) ex_layers.
Proof.
  assert (G : forall i l, nth_error ex_layers i = Some l -> exists x y, nth_error [1%Z; 2%Z; 3%Z] i = Some x /\ nth_error [100%Z; 200%Z; 300%Z] i = Some y /\
     l = ex_layer_in i x y /\ enter_axes (ex_opts rev) [[("inner/w", lparam (PyInt x) [PyStr "layers"; PyStr "x"])]] = Ok (snd (fst l))).
  { intros [|[|[|[|i]]]] l E; cbn in E; try discriminate; injection E as <-; do 2 eexists; repeat split; vm_compute; reflexivity. }
  intros i l E. destruct (G i l E) as (x & y & X & Y & -> & EN). change (List.length ex_layers) with 3. split; [reflexivity|]. split.
  - exists [[("inner/w", lparam (PyInt x) [PyStr "layers"; PyStr "x"])]]. split; [|exact EN].
    constructor; [|constructor]. split.
    + constructor; [|constructor]. repeat split; reflexivity.
    + intros k v (a & D & ->). cbn in D. destruct (String.eqb_spec k "inner/w") as [->|]; [|discriminate]. injection D as <-. cbn.
      exists (map PyInt [1%Z; 2%Z; 3%Z]), (PyInt x). split; [reflexivity|]. split; [reflexivity|].
      split; [change (nth_error (map PyInt [1%Z; 2%Z; 3%Z]) i = Some (PyInt x)); rewrite nth_error_map, X; reflexivity|]. eexists. split; reflexivity.
  - constructor; [|constructor]. exists (map PyInt [100%Z; 200%Z; 300%Z]). split; [reflexivity|]. split; [reflexivity|]. rewrite nth_error_map, Y. reflexivity.
Qed.

Definition ex_out (w c : Z) : layer_out := ([[("inner/w", lparam (PyInt w) [PyStr "x"])]], [PyInt c]).
Definition ex_fin (w : Z) : list state := [[("inner/w", lparam (PyInt w) [PyStr "layers"; PyStr "x"])]].
Definition ex_carry (z : Z) : state := [("inner/count", lstat z)].
(** the hypotheses of [C49_scan], both directions *)
Ltac ex_loop := repeat (eapply loop_step; [vm_compute; reflexivity|vm_compute; reflexivity|]); apply loop_done.
Example C49_example_hyps :
  wf_world ex_scan_world /\ names_ok ex_scan_world 0 /\ live ex_scan_world 0 /\
  (exists d s, get_module_def ex_scan_world 0 = Ok d /\ get_state ex_scan_world 0 = Ok s /\
     (forall rev, partition_state s (o_filters (ex_opts rev)) =
        Ok (Many ([[("inner/w", lparam (ints [1%Z; 2%Z; 3%Z]) [PyStr "layers"; PyStr "x"])]] ++ [[("scale", lvar (PyInt 10))]; ex_carry 0]))) /\
     loop ex_scan_world d (o_filters (ex_opts false)) ex_layer [("scale", lvar (PyInt 10))] (ex_carry 0) (PyInt 7) ex_layers
       [ex_out 101 7; ex_out 202 71; ex_out 303 712] [ex_carry 1; ex_carry 2; ex_carry 3] (PyInt 7123) /\
     loop ex_scan_world d (o_filters (ex_opts true)) ex_layer [("scale", lvar (PyInt 10))] (ex_carry 0) (PyInt 7) (rev ex_layers)
       [ex_out 303 7; ex_out 202 73; ex_out 101 732] [ex_carry 1; ex_carry 2; ex_carry 3] (PyInt 7321)) /\
  scan_ctx (0, 0) (RStr "dropout") (Some ex_ctx) ex_streams =
    (Ok (Some (ex_pc, fun name => String.eqb name "dropout")), [mkStream (KSeed 0) 3 []; mkStream (KSeed 1) 1 []]) /\
  Forall2 (fun x fin => leave_axes (ex_opts false) (fst x) = Ok fin) [ex_out 101 7; ex_out 202 71; ex_out 303 712] [ex_fin 101; ex_fin 202; ex_fin 303] /\
  (forall x, In x [ex_fin 101; ex_fin 202; ex_fin 303] -> Forall2 alike [[("inner/w", lparam (ints [1%Z; 2%Z; 3%Z]) [PyStr "layers"; PyStr "x"])]] x) /\
  (forall x, In x [ex_carry 1; ex_carry 2; ex_carry 3] -> alike (ex_carry 0) x).
Proof.
  split; [apply wf_worldb_ok; vm_compute; reflexivity|]. split; [apply names_okb_ok; vm_compute; reflexivity|]. split; [apply liveb_ok; vm_compute; reflexivity|].
  split. { do 2 eexists. split; [vm_compute; reflexivity|]. split; [vm_compute; reflexivity|]. split; [intros; vm_compute; reflexivity|].
    split; unfold ex_layers; cbn [rev app]; unfold ex_layer_in, ex_out; ex_loop. }
  split; [reflexivity|]. split; [repeat constructor|]. split.
  - intros x [<-|[<-|[<-|[]]]]; repeat constructor.
  - intros x [<-|[<-|[<-|[]]]]; repeat constructor.
Qed.
(** If scan cannot tell one number of layers - two of the arrays scanned over have
    different lengths, or one differs from the given [length], or there is neither
    an array nor a [length] - it raises ValueError, before the function is called
    and with module and context as they were. *)
Theorem C49_lengths :
  forall J o (f : scanned) w r d s axs b cs t c xs ctx ss,
  wf_world w -> r < List.length (w_heap w) ->
  get_module_def w r = Ok d -> get_state w r = Ok s -> partition_state s (o_filters o) = Ok (Many (axs ++ [b; cs])) ->
  (forall ax v, scanned_over o axs xs ax v -> exists l, a_slices J ax v = Ok l) -> (forall n, ~ layer_count J o axs xs n) ->
  scan_apply J o t f w r c xs ctx ss = (w, ss, Err ValueError).
Proof. intros. now apply (scan_lengths J o f w r d s axs b cs). Qed.
Print Assumptions C49_lengths.
(** The carried state keeps its structure: if a layer adds or removes carried Variables,
    or replaces one by a raw array or by a Variable of another class or with other metadata,
    the scan raises TypeError after this layer. *)
Definition same_structure (s s' : state) : Prop :=
  Forall2 (fun x y => fst x = fst y /\
    match snd x, snd y with
    | ARaw _, ARaw _ => True
    | ACont c, ACont d => c_cls c = c_cls d /\ same_meta (c_meta c) (c_meta d)
    | _, _ => False
    end) s s'.
Theorem C49_carry_structure :
  forall (X Y : Type) t (layer : world -> state * pyval -> step_of X -> world * result ((state * pyval) * outcome Y)) w carry x rest w1 carry1 y,
  (forall k a, In (k, a) (fst carry) \/ In (k, a) (fst carry1) -> wf_attr a) ->
  layer (set_trace w t) carry x = (w1, Ok (carry1, y)) -> ~ same_structure (fst carry) (fst carry1) ->
  lax_scan false t layer w carry (x :: rest) = (set_trace w1 (w_trace w), Err TypeError).
Proof.
  intros X Y t layer w carry x rest w1 carry1 y W E N. unfold lax_scan. cbn [scan_steps]. rewrite E.
  destruct (same_struct (fst carry) (fst carry1)) eqn:S; [|reflexivity]. exfalso. apply N. clear -W S. unfold same_structure.
  destruct carry as [s1 c1], carry1 as [s2 c2]. cbn [fst] in *. revert s2 W S. induction s1 as [|[k a] s1 IH]; intros [|[k' a'] s2] W S; cbn [same_struct] in S; try discriminate; constructor.
  - apply andb_prop in S as [S _]. unfold same_entry in S. apply andb_prop in S as [S1 S2]. apply String.eqb_eq in S1. cbn [fst snd] in *. split; [exact S1|].
    destruct a as [|c], a' as [|d]; try discriminate; auto. apply is_equivalent_spec in S2; [exact S2| |]; [apply (W k (ACont c))|apply (W k' (ACont d))]; [left|right]; now left.
  - apply andb_prop in S as [_ S]. apply IH; auto. intros n b [Hb|Hb]; apply (W n b); [left|right]; now right.
Qed.
Print Assumptions C49_carry_structure.
Example C49_carry_structure_example : ~ same_structure [("n", lstat 1)] [("n", ARaw (PyInt 1))].
Proof. intros H. inversion H as [|? ? ? ? [_ K] _]. exact K. Qed.
(** three layers of parameters, an argument of length two *)
Example C49_lengths_example :
  let axs := [[("inner/w", lparam (ints [1%Z; 2%Z; 3%Z]) [PyStr "layers"; PyStr "x"])]] in
  let xs := [ints [100%Z; 200%Z]] in
  (forall ax v, scanned_over (ex_opts false) axs xs ax v -> exists l, a_slices tuple_arrays ax v = Ok l) /\
  (forall n, ~ layer_count tuple_arrays (ex_opts false) axs xs n).
Proof.
  intros axs xs. split.
  - intros ax v H. destruct H as [st g ax k v I (a & D & ->)|v I].
    + cbn in I. destruct I as [I|[]]. injection I as <- <- <-. cbn in D. destruct (String.eqb k "inner/w"); [|discriminate]. injection D as <-. eexists. reflexivity.
    + destruct I as [<-|[]]. eexists. reflexivity.
  - intros n [H _].
    destruct (H 0%Z (ints [100%Z; 200%Z])) as (l & E & L). { apply (over_arg (ex_opts false)). now left. }
    destruct (H 0%Z (ints [1%Z; 2%Z; 3%Z])) as (l' & E' & L').
    { eapply (over_state (ex_opts false) _ _ _ _ _ "inner/w"); [now left|]. exists (lparam (ints [1%Z; 2%Z; 3%Z]) [PyStr "layers"; PyStr "x"]). split; reflexivity. }
    injection E as <-. injection E' as <-. cbn in L, L'. congruence.
Qed.

(** and what scan does with it, forwards and backwards *)
Example C49_example :
  (exists w' ss', scan_apply tuple_arrays (ex_opts false) (3, 3) (fun pc c xs => user_fun (ex_layer pc c xs)) ex_scan_world 0 (PyInt 7)
      [ints [100%Z; 200%Z; 300%Z]] (Some ex_ctx) ex_streams = (w', ss', Ok (PyInt 7123, [ints [7%Z; 71%Z; 712%Z]])) /\
    look w' 0 ["inner"; "w"] = SValue (lparam (ints [101%Z; 202%Z; 303%Z]) [PyStr "layers"; PyStr "x"]) /\
    look w' 0 ["inner"; "count"] = SValue (lstat 3)) /\
  (exists w' ss', scan_apply tuple_arrays (ex_opts true) (3, 3) (fun pc c xs => user_fun (ex_layer pc c xs)) ex_scan_world 0 (PyInt 7)
      [ints [100%Z; 200%Z; 300%Z]] (Some ex_ctx) ex_streams = (w', ss', Ok (PyInt 7321, [ints [732%Z; 73%Z; 7%Z]])) /\
    look w' 0 ["inner"; "w"] = SValue (lparam (ints [101%Z; 202%Z; 303%Z]) [PyStr "layers"; PyStr "x"])).
Proof. split; do 2 eexists; repeat (apply conj; [vm_compute; reflexivity|]); vm_compute; reflexivity. Qed.

(** **** What does not hold *)
(** What a layer writes to broadcast state is lost: after [f] the layer's module
    has scale = 99, after scan the module has the old one. *)
Definition ex_write (pc : option pctx) (c : pyval) (xs : list pyval) : prog (pyval * list pyval) :=
  Do (CSet 0 "scale" (ARaw (PyInt 99))) (fun _ => Finish (Ok (c, []))).
Theorem C49_broadcast_write_refuted :
  exists J o (f : option pctx -> pyval -> list pyval -> prog (pyval * list pyval)) w r d layer c b cs s1 w' ss',
    arrays_ok J /\ (forall pc c xs, ok_prog (f pc c xs)) /\ wf_world w /\ names_ok w r /\ live w r /\ get_module_def w r = Ok d /\
    call_on w d (layer ++ [b; cs]) (f None c []) = Some ((c, []), s1) /\ dget "scale" s1 = Some (lvar (PyInt 99)) /\
    scan_apply J o (3, 3) (fun pc c xs => user_fun (f pc c xs)) w r c [] None [] = (w', ss', Ok (c, [])) /\
    look w r ["scale"] = SValue (lvar (PyInt 10)) /\ look w' r ["scale"] = SValue (lvar (PyInt 10)).
Proof.
  exists tuple_arrays, (ex_opts false), ex_write, ex_scan_world, 0. eexists.
  exists (snd (fst (ex_layer_in 0 1 100))), (PyInt 0), [("scale", lvar (PyInt 10))], (ex_carry 0). do 3 eexists.
  destruct C49_example_hyps as (A & B & C & _). split; [exact tuple_arrays_ok|].
  split. { intros. unfold ex_write. repeat (apply ok_do; [first [exact Logic.I | split; [exact Logic.I|reflexivity]]|intros ? _]). constructor. }
  do 3 (split; [assumption|]). repeat (apply conj; [vm_compute; reflexivity|]). vm_compute; reflexivity.
Qed.
Print Assumptions C49_broadcast_write_refuted.
(** So is broadcast state that a layer creates, *)
Definition ex_create (pc : option pctx) (c : pyval) (xs : list pyval) : prog (pyval * list pyval) :=
  Do (CSet 0 "scale2" (lvar (PyInt 5))) (fun _ => Finish (Ok (c, []))).
Theorem C49_new_broadcast_refuted :
  exists J o (f : option pctx -> pyval -> list pyval -> prog (pyval * list pyval)) w r d layer c b cs s1 w' ss',
    arrays_ok J /\ (forall pc c xs, ok_prog (f pc c xs)) /\ wf_world w /\ names_ok w r /\ live w r /\ get_module_def w r = Ok d /\
    call_on w d (layer ++ [b; cs]) (f None c []) = Some ((c, []), s1) /\ dget "scale2" s1 = Some (lvar (PyInt 5)) /\
    scan_apply J o (3, 3) (fun pc c xs => user_fun (f pc c xs)) w r c [] None [] = (w', ss', Ok (c, [])) /\
    look w' r ["scale2"] = SNothing.
Proof.
  exists tuple_arrays, (ex_opts false), ex_create, ex_scan_world, 0. eexists.
  exists (snd (fst (ex_layer_in 0 1 100))), (PyInt 0), [("scale", lvar (PyInt 10))], (ex_carry 0). do 3 eexists.
  destruct C49_example_hyps as (A & B & C & _). split; [exact tuple_arrays_ok|].
  split. { intros. unfold ex_create. repeat (apply ok_do; [first [exact Logic.I | split; [exact Logic.I|reflexivity] | split; [apply wf_containerb_ok; reflexivity|reflexivity]]|intros ? _]). constructor. }
  do 3 (split; [assumption|]). repeat (apply conj; [vm_compute; reflexivity|]). vm_compute; reflexivity.
Qed.
Print Assumptions C49_new_broadcast_refuted.
(** and broadcast state that the layers delete is afterwards a stacked array: one
    number before scan, a tuple of three numbers after it. *)
Definition ex_delete (pc : option pctx) (c : pyval) (xs : list pyval) : prog (pyval * list pyval) :=
  Do (CDel 0 "scale") (fun _ => Finish (Ok (c, []))).
Theorem C49_deleted_broadcast_refuted :
  exists J o (f : option pctx -> pyval -> list pyval -> prog (pyval * list pyval)) w r d layer c b cs s1 w' ss',
    arrays_ok J /\ (forall pc c xs, ok_prog (f pc c xs)) /\ wf_world w /\ names_ok w r /\ live w r /\ get_module_def w r = Ok d /\
    call_on w d (layer ++ [b; cs]) (f None c []) = Some ((c, []), s1) /\ dget "scale" s1 = None /\
    look w r ["scale"] = SValue (lvar (PyInt 10)) /\
    scan_apply J o (3, 3) (fun pc c xs => user_fun (f pc c xs)) w r c [] None [] = (w', ss', Ok (c, [])) /\
    look w' r ["scale"] = SValue (lvar (PyTuple [PyInt 10; PyInt 10; PyInt 10])).
Proof.
  exists tuple_arrays, (ex_opts false), ex_delete, ex_scan_world, 0. eexists.
  exists (snd (fst (ex_layer_in 0 1 100))), (PyInt 0), [("scale", lvar (PyInt 10))], (ex_carry 0). do 3 eexists.
  destruct C49_example_hyps as (A & B & C & _). split; [exact tuple_arrays_ok|].
  split. { intros. unfold ex_delete. repeat (apply ok_do; [exact Logic.I|intros ? _]). constructor. }
  do 3 (split; [assumption|]). repeat (apply conj; [vm_compute; reflexivity|]). vm_compute; reflexivity.
Qed.
Print Assumptions C49_deleted_broadcast_refuted.
(** With reverse=True and new carry state, layer 0 runs first although the loop
    runs it last: the carry lists the layers in the order they ran. *)
Definition ex_order (pc : option pctx) (c : pyval) (xs : list pyval) : prog (pyval * list pyval) :=
  Do (CSet 0 "hidden" (lstat 1)) (fun _ =>
  Finish (Ok (PyTuple (match c with PyTuple l => l | _ => [] end ++ xs), []))).
Theorem C49_reverse_new_carry_refuted :
  exists J o (f : option pctx -> pyval -> list pyval -> prog (pyval * list pyval)) w r d s axs b cs xs layers outs css w' ss',
    arrays_ok J /\ (forall pc c xs, ok_prog (f pc c xs)) /\ wf_world w /\ names_ok w r /\ live w r /\ get_module_def w r = Ok d /\
    get_state w r = Ok s /\ partition_state s (o_filters o) = Ok (Many (axs ++ [b; cs])) /\ layers_ok J o axs xs None layers /\
    o_reverse o = true /\
    loop w d (o_filters o) f b cs (PyTuple []) (rev layers) outs css (ints [300%Z; 200%Z; 100%Z]) /\
    scan_apply J o (3, 3) (fun pc c xs => user_fun (f pc c xs)) w r (PyTuple []) xs None [] = (w', ss', Ok (ints [100%Z; 300%Z; 200%Z], [])).
Proof.
  destruct C49_example_hyps as (A & B & C & _).
  exists tuple_arrays, (ex_opts true), ex_order, ex_scan_world, 0. do 2 eexists.
  exists [[("inner/w", lparam (ints [1%Z; 2%Z; 3%Z]) [PyStr "layers"; PyStr "x"])]], [("scale", lvar (PyInt 10))], (ex_carry 0), [ints [100%Z; 200%Z; 300%Z]].
  exists (map (fun l : step_in => ((None, snd (fst l), snd l) : step_in)) ex_layers).
  exists (map (fun l : step_in => ((snd (fst l), []) : layer_out)) (rev ex_layers)), (repeat [("hidden", lstat 1); ("inner/count", lstat 0)] 3). do 2 eexists.
  split; [exact tuple_arrays_ok|].
  split. { intros. unfold ex_order. repeat (apply ok_do; [first [exact Logic.I | split; [exact Logic.I|reflexivity] | split; [apply wf_containerb_ok; reflexivity|reflexivity]]|intros ? _]). constructor. }
  do 3 (split; [assumption|]). split; [vm_compute; reflexivity|]. split; [vm_compute; reflexivity|]. split; [vm_compute; reflexivity|].
  split. { intros i l E. rewrite nth_error_map in E. destruct (nth_error ex_layers i) as [l0|] eqn:E0; [|discriminate]. injection E as <-.
    destruct (ex_layers_ok true i l0 E0) as (_ & Q). split; [reflexivity|exact Q]. }
  split; [reflexivity|]. split; [|vm_compute; reflexivity].
  unfold ex_layers; cbn [rev app map repeat]; unfold ex_layer_in; cbn [fst snd]; ex_loop.
Qed.
Print Assumptions C49_reverse_new_carry_refuted.

(** *** C50 *)
(** Layer [i] of a scan over [n] layers gets the context merged from [pci].  What
    the function does with it is a sequence of calls on it, on copies of it and
    on contexts partitioned and merged from it. *)
Definition layer_context (n : nat) (pc : pctx) (p : string -> bool) (i : nat) (pci : pctx) : Prop :=
  exists sl (xs : nat -> list pyval) l, nth_error (scan_input n (Some (pc, p)) sl xs) i = Some l /\ fst (fst l) = Some pci.
Lemma layer_context_is n pc p i pci : layer_context n pc p i pci -> pci = step_keys p n pc i.
Proof.
  intros (sl & xs & l & E & F). unfold scan_input in E. rewrite nth_error_map in E. destruct (nth_error (seq 0 n) i) as [j|] eqn:S; [|discriminate].
  injection E as <-. cbn in F. injection F as <-.
  assert (i < n). { rewrite <- (seq_length n 0). apply nth_error_Some. congruence. }
  pose proof (nth_error_nth _ _ 0 S) as Y. rewrite seq_nth in Y by assumption. cbn in Y. now subst.
Qed.
(** call number [a] of [ops], made by layer context [pci], draws [k] from [name] *)
Definition draws_key (blake : string -> nat) (t : trace_state) (pci : pctx) (ops : list cop) (a : nat) (name : string) (k : key) : Prop :=
  (exists c, nth_error ops a = Some (ODraw c name)) /\ nth_error (snd (crun blake (alone t pci) ops)) a = Some (OutKey k).

Lemma draw_shape blake cur split x ss pc p ss' n i pci t ops a name k : NoDup (keys (x_rngs x)) ->
  scan_ctx cur split (Some x) ss = (Ok (Some (pc, p)), ss') -> layer_context n pc p i pci -> Forall no_new ops ->
  draws_key blake t pci ops a name k ->
  exists p0 rest, dget name (pc_counts pc) = Some p0 /\ rest <> [] /\ k = KFold (layer_root p n pc i name) (stable_hash blake (p0 ++ rest)) /\
    nth_error (snd (crun blake (alone t pc) ops)) a = Some (OutKey (KFold (root pc name) (stable_hash blake (p0 ++ rest)))).
Proof.
  intros N S L F [[c O] D]. rewrite (layer_context_is _ _ _ _ _ L) in D. cbn in S. destruct (context_partition cur x ss) as [[pc'|e] ss1] eqn:P; [|discriminate].
  destruct (to_rng_predicate split) as [p'|e]; [|discriminate]. cbn in S. injection S as -> -> ->.
  destruct (layer_nth blake t p n pc i ops a _ (partition_wf _ _ _ _ _ N P) F O) as (out & out' & A & B & Y).
  rewrite D in B. injection B as <-. cbn in Y. destruct out as [k0|e|]; try discriminate.
  destruct Y as (p0 & rest & Y1 & Y2 & -> & Y3). injection Y3 as ->. exists p0, rest. auto.
Qed.

(** Streams selected by split_rngs: no key is drawn in two layers, whatever the
    layers do. *)
Theorem C50_split_streams_differ :
  forall blake cur split x ss pc p ss' n i j pci pcj t t' ops ops' a b name k k',
  NoDup (keys (x_rngs x)) -> scan_ctx cur split (Some x) ss = (Ok (Some (pc, p)), ss') ->
  layer_context n pc p i pci -> layer_context n pc p j pcj -> i <> j -> rmatches split name ->
  Forall no_new ops -> Forall no_new ops' ->
  draws_key blake t pci ops a name k -> draws_key blake t' pcj ops' b name k' -> k <> k'.
Proof.
  intros blake cur split x ss pc p ss' n i j pci pcj t t' ops ops' a b name k k' N S Li Lj Hij M F F' D D'.
  destruct (draw_shape _ _ _ _ _ _ _ _ _ _ _ _ _ _ _ _ N S Li F D) as (p0 & rest & _ & _ & -> & _).
  destruct (draw_shape _ _ _ _ _ _ _ _ _ _ _ _ _ _ _ _ N S Lj F' D') as (p1 & rest1 & _ & _ & -> & _).
  cbn in S. destruct (context_partition cur x ss) as [[pc'|e] ss1]; [|discriminate]. destruct (to_rng_predicate split) as [p'|e] eqn:T; [|discriminate]. cbn in S. injection S as -> -> ->.
  assert (E : p name = true).
  { pose proof (rng_filter_spec split) as Q. unfold rspec in Q. rewrite T in Q. now apply Q. }
  unfold layer_root. rewrite E. intros H. injection H. intros. lia.
Qed.
Print Assumptions C50_split_streams_differ.

(** The other streams: what a layer draws from them is what a context merged
    directly from the partition of the parent draws; so the same calls give the
    same keys in every layer. *)
Theorem C50_other_streams_shared :
  forall blake cur split x ss pc p ss' n i pci t ops a name k,
  NoDup (keys (x_rngs x)) -> scan_ctx cur split (Some x) ss = (Ok (Some (pc, p)), ss') ->
  layer_context n pc p i pci -> ~ rmatches split name -> Forall no_new ops ->
  (draws_key blake t pci ops a name k <-> draws_key blake t pc ops a name k).
Proof.
  intros blake cur split x ss pc p ss' n i pci t ops a name k N S L M F.
  assert (E : p name = false).
  { cbn in S. destruct (context_partition cur x ss) as [[pc'|e] ss1]; [|discriminate]. destruct (to_rng_predicate split) as [p'|e] eqn:T; [|discriminate]. cbn in S. injection S as -> -> ->.
    pose proof (rng_filter_spec split) as Q. unfold rspec in Q. rewrite T in Q. destruct (p name) eqn:E; [|reflexivity]. exfalso. apply M. now apply Q. }
  split; intros D.
  - destruct (draw_shape _ _ _ _ _ _ _ _ _ _ _ _ _ _ _ _ N S L F D) as (p0 & rest & _ & _ & -> & B).
    unfold layer_root. rewrite E. destruct D as [O _]. split; assumption.
  - destruct D as [[c O] D]. cbn in S. destruct (context_partition cur x ss) as [[pc'|e] ss1] eqn:P; [|discriminate].
    destruct (to_rng_predicate split) as [p'|e]; [|discriminate]. cbn in S. injection S as -> -> ->.
    destruct (layer_nth blake t p n pc i ops a _ (partition_wf _ _ _ _ _ N P) F O) as (out & out' & A & B & Y).
    rewrite D in A. injection A as <-. cbn in Y. destruct Y as (p0 & rest & Y1 & Y2 & -> & Y3). unfold layer_root in Y3. rewrite E in Y3.
    rewrite (layer_context_is _ _ _ _ _ L). split; [eauto|]. congruence.
Qed.
Print Assumptions C50_other_streams_shared.
Theorem C50_other_streams_same_key :
  forall blake cur split x ss pc p ss' n i j pci pcj t ops a name k,
  NoDup (keys (x_rngs x)) -> scan_ctx cur split (Some x) ss = (Ok (Some (pc, p)), ss') ->
  layer_context n pc p i pci -> layer_context n pc p j pcj -> ~ rmatches split name -> Forall no_new ops ->
  draws_key blake t pci ops a name k -> draws_key blake t pcj ops a name k.
Proof.
  intros blake cur split x ss pc p ss' n i j pci pcj t ops a name k N S Li Lj M F D.
  apply (proj2 (C50_other_streams_shared blake cur split x ss pc p ss' n j pcj t ops a name k N S Lj M F)).
  exact (proj1 (C50_other_streams_shared blake cur split x ss pc p ss' n i pci t ops a name k N S Li M F) D).
Qed.
Print Assumptions C50_other_streams_same_key.
(** Draws never fail in a layer: every call returns a key in a layer if it does so
    in a context merged directly from the partition, and raises the same exception
    otherwise. *)
Theorem C50_same_outcome :
  forall blake cur split x ss pc p ss' n i pci t ops a out,
  NoDup (keys (x_rngs x)) -> scan_ctx cur split (Some x) ss = (Ok (Some (pc, p)), ss') ->
  layer_context n pc p i pci -> Forall no_new ops -> nth_error (snd (crun blake (alone t pc) ops)) a = Some out ->
  exists out', nth_error (snd (crun blake (alone t pci) ops)) a = Some out' /\
    match out, out' with OutKey _, OutKey _ => True | OutErr e, OutErr e' => e = e' | OutDone, OutDone => True | _, _ => False end.
Proof.
  intros blake cur split x ss pc p ss' n i pci t ops a out N S L F O. rewrite (layer_context_is _ _ _ _ _ L).
  cbn in S. destruct (context_partition cur x ss) as [[pc'|e] ss1] eqn:P; [|discriminate].
  destruct (to_rng_predicate split) as [p'|e]; [|discriminate]. cbn in S. injection S as -> -> ->.
  pose proof (partition_wf _ _ _ _ _ N P) as W. destruct (layer_keys blake t p n pc i ops W F) as (_ & B & _).
  assert (Ha : a < List.length ops) by (rewrite <- B; apply nth_error_Some; congruence).
  destruct (nth_error ops a) as [o|] eqn:Eo; [|apply nth_error_None in Eo; lia].
  destruct (layer_nth blake t p n pc i ops a o W F Eo) as (out0 & out' & A & C & Y). rewrite O in A. injection A as <-. exists out'. split; [exact C|].
  destruct o; cbn in Y; destruct out; try (subst out'; auto; fail). destruct Y as (? & ? & _ & _ & _ & ->). exact Logic.I.
Qed.
Print Assumptions C50_same_outcome.

(** The parent context (and whoever holds its streams) never draws a key that a
    layer draws, before or after the scan, provided its streams have different
    root keys, none of them obtained with jax.random.split. *)
Theorem C50_parent_keys_differ :
  forall blake t0 hist h1 c x split pc p ss' h2 n i pci t ops a name k name' j k',
  (forall s s', blake s = blake s' -> s = s') ->
  let w0 := fst (crun blake (cstart t0) hist) in
  let w := fst (crun blake w0 h1) in
  nth_error (cw_ctxs w) c = Some x ->
  NoDup (keys (x_rngs x)) ->
  (forall n1 n2 i1 i2 s1 s2, dget n1 (x_rngs x) = Some i1 -> dget n2 (x_rngs x) = Some i2 ->
     nth_error (cw_streams w) i1 = Some s1 -> nth_error (cw_streams w) i2 = Some s2 -> s_key s1 = s_key s2 -> n1 = n2) ->
  (forall n1 i1 s1, dget n1 (x_rngs x) = Some i1 -> nth_error (cw_streams w) i1 = Some s1 ->
     match s_key s1 with KSplit _ _ _ => False | _ => True end) ->
  scan_ctx (cw_trace w) split (Some x) (cw_streams w) = (Ok (Some (pc, p)), ss') ->
  layer_context n pc p i pci -> Forall no_new ops ->
  draws_key blake t pci ops a name k ->
  dget name' (x_rngs x) = Some j -> j < List.length (cw_streams w0) ->
  In (Some k') (stream_uses blake j w0 (h1 ++ OPart c :: h2)) ->
  k <> k'.
Proof.
  intros blake t0 hist h1 c x split pc p ss' h2 n i pci t ops a name k name' j k' Hb w0 w X N Hroots Hnosplit S L F D Dj Hj U.
  assert (OK0 : ctxs_ok w0) by (apply ctxs_ok_run, ctxs_ok_start). assert (OK : ctxs_ok w) by now apply ctxs_ok_run.
  destruct (nth_error (cw_streams w0) j) as [s0|] eqn:S0; [|apply nth_error_None in S0; lia].
  destruct (stream_counts blake j h1 w0 s0 OK0 S0) as [_ Sw]. fold w in Sw.
  apply In_nth_error in U as [m U].
  destruct (stream_counts blake j (h1 ++ OPart c :: h2) w0 s0 OK0 S0) as [Hk _]. specialize (Hk m k' U).
  destruct (draw_shape _ _ _ _ _ _ _ _ _ _ _ _ _ _ _ _ N S L F D) as (p0 & rest & P0 & R & -> & _). rewrite Hk. clear Hk U.
  cbn in S. destruct (context_partition (cw_trace w) x (cw_streams w)) as [[pc'|e] ss1] eqn:P; [|discriminate].
  destruct (to_rng_predicate split) as [p'|e]; [|discriminate]. cbn in S. injection S as -> -> ->.
  assert (Hex : forall n1 i1, dget n1 (x_rngs x) = Some i1 -> exists s1, nth_error (cw_streams w) i1 = Some s1).
  { intros n1 i1 E1. destruct (nth_error (cw_streams w) i1) eqn:E2; [eauto|]. apply nth_error_None in E2.
    pose proof (OK x i1 (nth_error_In _ _ X)) as OKx. apply dget_In in E1. exfalso.
    assert (i1 < List.length (cw_streams w)) by (apply OKx; apply in_map_iff; exists (n1, i1); auto). lia. }
  assert (N2 : NoDup (map snd (x_rngs x))).
  { clear - N Hroots Hex. assert (G : forall l : list (string * nat), (forall kv, In kv l -> dget (fst kv) (x_rngs x) = Some (snd kv)) -> NoDup (map fst l) -> NoDup (map snd l)).
    { induction l as [|[a b] l IH]; intros H Nl; [constructor|]. inversion Nl as [|? ? Na Nl']; subst. cbn. constructor; [|apply IH; [intros; apply H; now right|exact Nl']].
      intros I. apply in_map_iff in I as ([a2 b2] & E & I). cbn in E. subst b2. apply Na.
      pose proof (H _ (or_introl eq_refl)) as H1. pose proof (H _ (or_intror I)) as H2. cbn in H1, H2. destruct (Hex _ _ H1) as [s1 E1].
      replace a with a2; [apply in_map_iff; exists (a2, b); auto|]. symmetry. eapply Hroots; eauto. }
    apply G; [|exact N]. intros [a b] I. cbn. now apply In_dget. }
  assert (Hn : exists i1, dget name (x_rngs x) = Some i1).
  { destruct (dget name (x_rngs x)) eqn:E; [eauto|]. exfalso. unfold context_partition in P. destruct (negb _); [discriminate|].
    destruct (fork_all (x_rngs x) (cw_streams w)) as [[fs|e] ss1] eqn:FA; [|discriminate]. cbn in P. injection P as <- <-. cbn in P0.
    destruct (fork_all_names _ _ _ _ FA) as [KN _]. apply dget_In in P0. apply in_map_iff in P0 as (nf & E1 & I). injection E1 as <- _.
    apply (proj1 (dget_None _ _)) in E. apply E. unfold keys. rewrite <- KN. now apply in_map with (f := fst). }
  destruct Hn as [i1 D1]. destruct (Hex _ _ D1) as [s1 E1].
  destruct (partition_paths _ _ _ _ _ name N N2 P i1 s1 D1 E1) as [Pp Pk]. rewrite P0 in Pp. injection Pp as ->.
  unfold layer_root, root. rewrite Pk.
  destruct (p name).
  - intros H. injection H as H _. specialize (Hnosplit name' j _ Dj Sw). cbn in Hnosplit. rewrite <- H in Hnosplit. exact Hnosplit.
  - intros H. injection H as HK HH. assert (name = name') by (eapply Hroots; eauto). subst name'. assert (i1 = j) by congruence. subst i1.
    rewrite Sw in E1. injection E1 as <-. cbn [s_path s_count] in HH. unfold stable_hash in HH. apply Hb, hash_str_inj in HH.
    rewrite <- app_assoc in HH. apply app_inv_head in HH. destruct rest; [congruence|discriminate].
Qed.
Print Assumptions C50_parent_keys_differ.

Example C50_example :
  let blake := String.length in
  let ops := [ODraw 0 "params"; ODraw 0 "dropout"; OPart 0; OMerge 0; ODraw 1 "dropout"] in
  scan_ctx (0, 0) (RStr "dropout") (Some ex_ctx) ex_streams =
    (Ok (Some (ex_pc, fun name => String.eqb name "dropout")), [mkStream (KSeed 0) 3 []; mkStream (KSeed 1) 1 []]) /\
  (forall i pci, layer_context 3 ex_pc (fun name => String.eqb name "dropout") i pci ->
     draws_key blake (0, 0) pci ops 0 "params" (KFold (KSeed 0) 3) /\
     draws_key blake (0, 0) pci ops 1 "dropout" (KFold (KSplit (KSeed 1) 3 i) 3) /\
     draws_key blake (0, 0) pci ops 4 "dropout" (KFold (KSplit (KSeed 1) 3 i) 5)) /\
  layer_context 3 ex_pc (fun name => String.eqb name "dropout") 2 (step_keys (fun name => String.eqb name "dropout") 3 ex_pc 2) /\
  Forall no_new ops.
Proof.
  split; [reflexivity|]. split.
  - intros i pci H. rewrite (layer_context_is _ _ _ _ _ H). repeat apply conj; try (eexists; reflexivity); reflexivity.
  - split; [exists [], (fun _ => []); eexists; split; reflexivity|]. repeat constructor.
Qed.

(** *** C61 *)
(** What the function gets for the context: nothing, or a context merged from the
    partition [pc] of the context given, whose streams advance by one. *)
Definition ctx_arg (cur : trace_state) (ctx : option context) (ss : list stream) (pc : option pctx) (ss' : list stream) : Prop :=
  match ctx with
  | None => pc = None /\ ss' = ss
  | Some x => exists q, context_partition cur x ss = (Ok q, ss') /\ pc = Some q
  end.
Lemma ctx_arg_is cur ctx ss pc ss' : ctx_arg cur ctx ss pc ss' -> remat_ctx cur ctx ss = (Ok pc, ss').
Proof. destruct ctx as [x|]; cbn; [intros (q & -> & ->); reflexivity|intros [-> ->]; reflexivity]. Qed.

(** A function that returns [out] and changes only node attributes when called on
    the module directly has the same result and the same effect through remat. *)
Theorem C61_remat :
  forall A (f : option pctx -> prog A) w r t ctx ss pc ss' wd out,
  (forall pc, ok_prog (f pc)) -> wf_world w -> r < List.length (w_heap w) -> names_ok w r -> live w r ->
  ctx_arg (w_trace w) ctx ss pc ss' ->
  user_fun (f pc) w r = (wd, Ok out) -> nodes_only w wd r -> names_ok wd r ->
  exists w', remat_apply t (fun pc => user_fun (f pc)) w r ctx ss = (w', ss', Ok out) /\
    (forall p, look w' r p = look wd r p) /\
    (forall p, follow w' r p = follow wd r p) /\
    get_state w' r = get_state wd r /\
    w_trace w' = w_trace w /\
    (forall x o, get_obj w x = Some o -> ~ reaches w r x -> get_obj w' x = Some o).
Proof.
  intros A f w r t ctx ss pc ss' wd out Hf Hw Hr Hno Hlive Hc Hrun HN Hnod. apply ctx_arg_is in Hc.
  destruct (C46_jit A (f pc) w r t wd out (Hf pc) Hw Hr Hno Hlive Hrun HN Hnod) as (w' & E & Q).
  exists w'. split; [|exact Q]. rewrite (remat_is_jit f t w r ctx ss pc ss' Hf Hw Hr Hno Hlive Hc), E. reflexivity.
Qed.
Print Assumptions C61_remat.
(** Exceptions come out unchanged, and no object that existed has changed. *)
Theorem C61_exception :
  forall A (f : option pctx -> prog A) w r t ctx ss pc ss' wd e,
  (forall pc, ok_prog (f pc)) -> wf_world w -> r < List.length (w_heap w) -> names_ok w r -> live w r ->
  ctx_arg (w_trace w) ctx ss pc ss' -> user_fun (f pc) w r = (wd, Err e) ->
  exists w', remat_apply t (fun pc => user_fun (f pc)) w r ctx ss = (w', ss', Err e) /\ all_unchanged w w' /\ w_trace w' = w_trace w.
Proof.
  intros A f w r t ctx ss pc ss' wd e Hf Hw Hr Hno Hlive Hc Hrun. apply ctx_arg_is in Hc.
  destruct (jit_raises (f pc) w r t true wd e (Hf pc) Hw Hr Hno Hlive Hrun) as (w' & E & Q).
  exists w'. split; [|exact Q]. rewrite (remat_is_jit f t w r ctx ss pc ss' Hf Hw Hr Hno Hlive Hc), E. reflexivity.
Qed.
Print Assumptions C61_exception.
(** A context from another trace is refused and the module is not touched. *)
Theorem C61_stale_context :
  forall A (f : option pctx -> prog A) w r t x ss, wf_world w -> r < List.length (w_heap w) -> x_trace x <> w_trace w ->
  remat_apply t (fun pc => user_fun (f pc)) w r (Some x) ss = (w, ss, Err TraceContextError).
Proof.
  intros A f w r t x ss Hw Hr Hx. apply remat_ctx_fails; auto. unfold remat_ctx, context_partition.
  destruct (trace_ok (w_trace w) (x_trace x)) eqn:E; [|reflexivity]. apply trace_ok_iff in E. congruence.
Qed.
Print Assumptions C61_stale_context.
(** As with jit, deletions are lost. *)
Theorem C61_deletion_refuted :
  exists (f : option pctx -> prog unit) w r t wd w' p, (forall pc, ok_prog (f pc)) /\ wf_world w /\ r < List.length (w_heap w) /\ names_ok w r /\ live w r /\
    user_fun (f None) w r = (wd, Ok tt) /\ remat_apply t (fun pc => user_fun (f pc)) w r None [] = (w', [], Ok tt) /\
    look wd r p = SNothing /\ look w' r p = SValue (param 10).
Proof.
  destruct ex_cyc_ok as (A & B & C & D).
  exists (fun _ => ex_del), ex_cyc, 0, (7, 7). do 2 eexists. exists ["w"].
  split; [intros; unfold ex_del; constructor; [exact Logic.I|intros; constructor]|]. do 4 (split; [assumption|]).
  split; [vm_compute; reflexivity|]. split; [vm_compute; reflexivity|]. split; vm_compute; reflexivity.
Qed.
Print Assumptions C61_deletion_refuted.
Example C61_example :
  ctx_arg (0, 0) (Some ex_ctx) ex_streams (Some ex_pc) [mkStream (KSeed 0) 3 []; mkStream (KSeed 1) 1 []] /\
  nodes_only ex_cyc ex_prog_world 0 /\
  exists w', remat_apply (7, 7) (fun _ => user_fun ex_prog) ex_cyc 0 (Some ex_ctx) ex_streams =
    (w', [mkStream (KSeed 0) 3 []; mkStream (KSeed 1) 1 []], Ok true) /\ look w' 0 ["out"; "norm"; "mean"] = SValue (stat 77).
Proof.
  split; [eexists; split; reflexivity|]. split; [exact ex_prog_nodes|].
  eexists. split; vm_compute; reflexivity.
Qed.
