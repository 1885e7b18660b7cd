(** Prop_ModRepr: C69 (repr of a Module). *)
From Coq Require Import ZArith Lia Permutation.
From Verif Require Import PyBase ValuesM Spec_Eq FiltersM StateM ModuleM TlsM Spec_Tls ModReprM Spec_ModRepr ModRepr_proofs.
Local Open Scope string_scope.
Local Open Scope list_scope.

(** Whatever the module, with shared submodules, reference cycles, modules inside tuples
    and containers: [repr] returns.  Every connected module is listed in full exactly once,
    where it is first mentioned, with all its printed attributes in order; everywhere else
    it is its class name with dots.  The global is afterwards as before. *)
Theorem C69_repr :
  forall (leaf : pyval -> result string) (w : world) (r : nat),
  all_exist w -> distinct_ids w -> leaves_print leaf -> (exists o, get_obj w r = Some o) ->
  exists (ob : robj) (occs : list (nat * bool)) (t : string),
    shows leaf w r occs ob /\ first_in_full occs /\
    (forall x, In (x, true) occs <-> connected w r x) /\
    render "" ob = Ok t /\
    run (repr_prog leaf w r) None = ((Ok t, Done), None).
Proof. intros leaf w r He Hd Hl Hr. exact (repr_correct leaf w He Hd r Hr Hl). Qed.
Print Assumptions C69_repr.

(** A history of reprs in one thread, some of which may raise because the repr of an
    attribute does: each gives the text it would give on its own, as long as the
    traceback of one that raised is dropped before the next. *)
Theorem C69_history_partial :
  forall (leaf : pyval -> result string) (w : world) (es : list event),
  all_exist w -> dropped leaf w es -> (forall r, In r (reprs es) -> exists o, get_obj w r = Some o) ->
  fst (history leaf w es (None, false)) = map (fresh leaf w) (reprs es).
Proof. intros leaf w es He. exact (history_fresh leaf w He es). Qed.
Print Assumptions C69_history_partial.

(** Threads whose reprs do not overlap, in any order, each given enough accesses: every
    one prints what it would on its own, and the global ends as it began. *)
Theorem C69_serial_threads_partial :
  forall (leaf : pyval -> result string) (w : world) (rs order : list nat),
  all_exist w -> leaves_print leaf -> distinct_ids w -> (forall r, In r rs -> exists o, get_obj w r = Some o) ->
  Permutation order (seq 0 (List.length rs)) ->
  exists N, forall n, N <= n ->
    interleave (flat_map (fun i => repeat i n) order) (map (repr_prog leaf w) rs) None =
    (map (fun r => Ret (fresh leaf w r, Done)) rs, None).
Proof. exact serial_threads. Qed.
Print Assumptions C69_serial_threads_partial.

(** *** Examples *)
Definition ex_leaf (v : pyval) : result string :=
  match v with PyObj ["Bad"] _ => Err UserError | PyInt _ => Ok "7" | _ => Ok "v" end.
Definition ex_plain (v : pyval) : result string := match v with PyInt _ => Ok "7" | _ => Ok "v" end.
(** 0 and 1 refer to each other, 2 is shared, once inside a tuple; 3 has an attribute whose
    repr raises after a good submodule. *)
Definition ex_rw : world :=
  mkWorld [mkMobj ["A"; "Module"; "object"] 1 false (0, 0)
             [("b", ARaw (PyMod 1)); ("n", ARaw (PyInt 7%Z)); ("t", ARaw (PyTuple [PyMod 2; PyInt 7%Z]));
              ("w", ACont (mkCont ["Param"; "Variable"; "Node"; "NodeBase"; "Container"; "object"] [("sharding", PyNone)] (PyInt 1%Z)))];
           mkMobj ["B"; "Module"; "object"] 2 false (0, 0) [("_up", ARaw (PyMod 0)); ("c", ARaw (PyMod 2)); ("s", ARaw (PyStr "hi"))];
           mkMobj ["C"; "Module"; "object"] 3 false (0, 0) [("k", ACont (mkCont ["Static"; "Container"; "object"] [] (PyInt 7%Z)))];
           mkMobj ["D"; "Module"; "object"] 4 false (0, 0) [("c", ARaw (PyMod 2)); ("x", ARaw (PyObj ["Bad"] 0))]]
          4 (0, 0) ["State"; "NodeBase"].
Definition nl : string := String newline "".
Lemma ex_rw_exist : all_exist ex_rw.
Proof.
  intros x y (ob & na & Ho & Hin & _ & Hm).
  assert (Hx : x < 4) by (apply (nth_error_Some (w_heap ex_rw)); unfold get_obj in Ho; congruence).
  assert (G : y < 4).
  { destruct x as [|[|[|[|x]]]]; [injection Ho as <-; cbn in Hin .. | lia];
      decompose [or] Hin; try contradiction; subst na; cbn in Hm;
      try (destruct Hm as [Hm | (k & v & [[= <- <-] | []] & Hm)]); try (destruct Hm as [Hm | (k & v & [] & Hm)]);
      inversion Hm as [| l v' r Hv Hm']; subst; try lia.
    cbn in Hv. decompose [or] Hv; try contradiction; subst v'; inversion Hm'; lia. }
  destruct y as [|[|[|[|y]]]]; try lia; eexists; reflexivity.
Qed.
Lemma ex_rw_distinct : distinct_ids ex_rw.
Proof.
  intros x y ox oy Hx Hy E.
  do 4 (destruct x as [|x]; [do 4 (destruct y as [|y]; [injection Hx as <-; injection Hy as <-; (reflexivity || discriminate)|]); destruct y; discriminate|]).
  destruct x; discriminate.
Qed.
Example C69_example :
  all_exist ex_rw /\ distinct_ids ex_rw /\ leaves_print ex_plain /\ (exists o, get_obj ex_rw 0 = Some o) /\
  run (repr_prog ex_plain ex_rw 0) None =
    ((Ok ("A(" ++ nl ++ "  b=B(" ++ nl ++ "    _up=A(...)," ++ nl ++ "    c=C(" ++ nl ++ "      k=Static(" ++ nl ++
         "        value=7" ++ nl ++ "      )" ++ nl ++ "    )," ++ nl ++ "    s=hi" ++ nl ++ "  )," ++ nl ++
         "  n=7," ++ nl ++ "  t=(C(...), 7)" ++ nl ++ ")")%string, Done), None).
Proof.
  split; [exact ex_rw_exist|]. split; [exact ex_rw_distinct|]. split.
  - intros v _ _. destruct v; eexists; reflexivity.
  - split; [eexists; reflexivity | vm_compute; reflexivity].
Qed.
Example C69_history_example :
  all_exist ex_rw /\
  dropped ex_leaf ex_rw [EvRepr 3; EvDrop; EvRepr 2; EvRepr 0; EvRepr 2; EvRepr 3] /\
  (forall r, In r (reprs [EvRepr 3; EvDrop; EvRepr 2; EvRepr 0; EvRepr 2; EvRepr 3]) -> exists o, get_obj ex_rw r = Some o) /\
  fresh ex_leaf ex_rw 3 = Err UserError.
Proof.
  split; [exact ex_rw_exist|]. split.
  - apply dr_raise. eapply dr_ok; [vm_compute; reflexivity|]. eapply dr_ok; [vm_compute; reflexivity|].
    eapply dr_ok; [vm_compute; reflexivity|]. apply dr_last.
  - split; [|reflexivity]. cbn. intros r [<- | [<- | [<- | [<- | [<- | []]]]]]; eexists; reflexivity.
Qed.

Example C69_serial_example :
  all_exist ex_rw /\ leaves_print ex_plain /\ distinct_ids ex_rw /\
  (forall r, In r [2; 0; 2] -> exists o, get_obj ex_rw r = Some o) /\
  Permutation [1; 2; 0] (seq 0 (List.length [2; 0; 2])).
Proof.
  split; [exact ex_rw_exist|]. split; [intros v _ _; destruct v; eexists; reflexivity|]. split; [exact ex_rw_distinct|]. split.
  - cbn. intros r [<- | [<- | [<- | []]]]; eexists; reflexivity.
  - cbn. apply (Permutation_trans (l' := [1; 0; 2])); [apply perm_skip, perm_swap|apply perm_swap].
Qed.

(** *** Refutations *)
(** The text does not depend on the module only: while the traceback of a repr that raised
    is kept, modules it printed are shown as dots. *)
Theorem C69_kept_traceback_refuted :
  exists leaf w bad r,
    all_exist w /\ distinct_ids w /\
    fst (history leaf w [EvRepr bad; EvRepr r] (None, false)) = [Err UserError; Ok "C(...)"] /\
    fresh leaf w r = Ok ("C(" ++ nl ++ "  k=Static(" ++ nl ++ "    value=7" ++ nl ++ "  )" ++ nl ++ ")")%string.
Proof.
  exists ex_leaf, ex_rw, 3, 2. split; [exact ex_rw_exist|]. split; [exact ex_rw_distinct|]. split; vm_compute; reflexivity.
Qed.
Print Assumptions C69_kept_traceback_refuted.
(** Two threads: the global is shared, so a module another thread is printing is shown as
    dots, and a repr raises AttributeError when the other thread clears the global. *)
Theorem C69_threads_refuted :
  exists leaf w r,
    all_exist w /\ distinct_ids w /\ leaves_print leaf /\
    (exists sched t g, interleave sched [repr_prog leaf w r; repr_prog leaf w r] None =
                         ([Ret (Ok t, Done); Ret (Ok "C(...)", Done)], g)) /\
    (exists sched t s g, interleave sched [repr_prog leaf w r; repr_prog leaf w r] None =
                         ([Ret (Ok t, Done); Ret (Err AttributeError, s)], g)).
Proof.
  exists ex_plain, ex_rw, 2. split; [exact ex_rw_exist|]. split; [exact ex_rw_distinct|].
  split; [intros v _ _; destruct v; eexists; reflexivity|]. split.
  - exists [0; 0; 0; 0; 1; 1; 0]. do 2 eexists. vm_compute. reflexivity.
  - exists [0; 0; 1; 0; 1; 0; 0; 1]. do 3 eexists. vm_compute. reflexivity.
Qed.
Print Assumptions C69_threads_refuted.
