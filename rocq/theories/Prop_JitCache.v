(** C56: a jitted function called many times computes what the function computes.  The
    compilation cache (JitCacheM) is keyed by the module's definition and the kinds of
    its state; specification in Spec_JitCache. *)
From Coq Require Import ZArith.
From Verif Require Import PyBase PyBaseFacts ValuesM Spec_Eq ValuesFacts FiltersM StateM ModuleM TransformM Spec_Module Graph_facts Mdef_proofs
  JitCacheM Spec_JitCache JitCache_proofs Ex_Module.
Local Open Scope string_scope.
Local Open Scope nat_scope.
Local Open Scope list_scope.

Lemma out_same {A} E (x y : result (option state * A)) : res_sim (out_sim E) x y -> same_outcome E x y.
Proof. destruct x as [[s a]|], y as [[t b]|]; cbn; auto. Qed.
Lemma world_sim_refl (E : pyval -> pyval -> Prop) w : (forall v, E v v) -> nodes_fit E (w_nodes w) -> wf_world w -> world_sim E w w.
Proof.
  intros HE NF W. split; [|repeat split; exact NF]. assert (G : forall o, In o (w_heap w) -> obj_sim E o o).
  { intros o I. apply In_nth_error in I as [r Hr]. repeat split. apply dict_sim_refl; [exact HE|]. exact (wf_attrs_entries w r o W Hr). }
  induction (w_heap w) as [|o h IH]; constructor; [apply G; now left|]. apply IH. intros p I. apply G. now right.
Qed.
Lemma nodes_fit_eq nodes : nodes_fit eq nodes.
Proof. intros v v' ->. reflexivity. Qed.
Lemma transparent (A : Type) (E : pyval -> pyval -> Prop) (ok : pyval -> Prop) same_aval stateful t
    (fn : world -> nat -> world * result A) w0 (calls : list (world * nat)) ps :
  (forall v, E v v) -> (forall a b, E a b -> py_eq a b) -> (forall a b, ok a -> ok b -> py_eq a b -> E a b) ->
  blind E fn -> wf_world w0 -> nodes_fit E (w_nodes w0) ->
  Forall2 (fun c p => wf_world (fst c) /\ same_phase (fst c) (snd c) /\ module_partition (fst c) (snd c) [] = Ok p) calls ps ->
  Forall (constants_ok ok) ps ->
  Forall2 (same_outcome E) (cached_calls same_aval (fun p => snd (jitted_fn stateful t fn w0 p)) [] ps)
                           (map (fun p => snd (jitted_fn stateful t fn w0 p)) ps).
Proof.
  intros HE HQ HK HF W0 NF H O. apply (cached_calls_sim E HE ok HK); [|constructor|].
  - intros p q S. apply out_same. apply jitted_sim; [exact HE|exact HQ|exact HF| |exact S]. now apply world_sim_refl.
  - clear - H O. induction H as [|[w r] p calls ps (W & S & E') F IH]; constructor; [|apply IH; now inversion O].
    split; [eapply partition_good; eauto|now inversion O].
Qed.

(** Whatever the history of calls (the modules, their worlds, the number of calls, which
    of them raised), every call returns the outcome the function itself has on that
    call's module: the same output, the same new state, or the same exception.  This
    needs that no two of the static values and metadata in the history are equal and
    yet different, as [True] and [1] are. *)
Theorem C56_transparent :
  forall (A : Type) (same_aval : pyval -> pyval -> bool) (stateful : bool) (t : trace_state)
         (fn : world -> nat -> world * result A) (w0 : world) (calls : list (world * nat)) (ps : list pure) (ok : pyval -> Prop),
  order_blind fn -> wf_world w0 ->
  Forall2 (fun c p => wf_world (fst c) /\ same_phase (fst c) (snd c) /\ module_partition (fst c) (snd c) [] = Ok p) calls ps ->
  (forall a b, ok a -> ok b -> py_eq a b -> a = b) -> Forall (constants_ok ok) ps ->
  Forall2 (same_outcome eq) (cached_calls same_aval (fun p => snd (jitted_fn stateful t fn w0 p)) [] ps)
                            (map (fun p => snd (jitted_fn stateful t fn w0 p)) ps).
Proof.
  intros A same_aval stateful t fn w0 calls ps ok HF W0 H K O.
  apply (transparent A eq ok same_aval stateful t fn w0 calls ps); auto using nodes_fit_eq. intros a b <-. constructor.
Qed.
Print Assumptions C56_transparent.

(** For instance when there are no bools among them. *)
Lemma no_bool_eq a b : no_bool a -> no_bool b -> py_eq a b -> a = b.
Proof.
  intros Ha Hb H. revert Ha Hb. induction H as [v|a b z Na Nb|l l' F IH] using py_eq_ind'; intros Ha Hb; [reflexivity| |].
  - inversion Na; subst; inversion Ha. subst. inversion Nb; subst; inversion Hb. reflexivity.
  - inversion Ha as [| | |? Hl| |]; subst. inversion Hb as [| | |? Hl'| |]; subst. f_equal. clear F Ha Hb.
    induction IH as [|x y l l' E1 F IH]; [reflexivity|]. inversion Hl; subst. inversion Hl'; subst. f_equal; auto.
Qed.
Theorem C56_no_bools :
  forall (A : Type) (same_aval : pyval -> pyval -> bool) (stateful : bool) (t : trace_state)
         (fn : world -> nat -> world * result A) (w0 : world) (calls : list (world * nat)) (ps : list pure),
  order_blind fn -> wf_world w0 ->
  Forall2 (fun c p => wf_world (fst c) /\ same_phase (fst c) (snd c) /\ module_partition (fst c) (snd c) [] = Ok p) calls ps ->
  Forall (constants_ok no_bool) ps ->
  Forall2 (same_outcome eq) (cached_calls same_aval (fun p => snd (jitted_fn stateful t fn w0 p)) [] ps)
                            (map (fun p => snd (jitted_fn stateful t fn w0 p)) ps).
Proof.
  intros A same_aval stateful t fn w0 calls ps HF W0 H O.
  exact (C56_transparent A same_aval stateful t fn w0 calls ps no_bool HF W0 H no_bool_eq O).
Qed.
Print Assumptions C56_no_bools.

(** Or when the function itself does not tell equal values apart (it uses static values
    as numbers and truth values, and compares them with [==]): then the outcome is the
    same up to [==]. *)
Theorem C56_eq_blind :
  forall (A : Type) (same_aval : pyval -> pyval -> bool) (stateful : bool) (t : trace_state)
         (fn : world -> nat -> world * result A) (w0 : world) (calls : list (world * nat)) (ps : list pure),
  eq_blind fn -> wf_world w0 -> nodes_fit py_eq (w_nodes w0) ->
  Forall2 (fun c p => wf_world (fst c) /\ same_phase (fst c) (snd c) /\ module_partition (fst c) (snd c) [] = Ok p) calls ps ->
  Forall2 (same_outcome py_eq) (cached_calls same_aval (fun p => snd (jitted_fn stateful t fn w0 p)) [] ps)
                               (map (fun p => snd (jitted_fn stateful t fn w0 p)) ps).
Proof.
  intros A same_aval stateful t fn w0 calls ps HF W0 NF H.
  apply (transparent A py_eq (fun _ => True) same_aval stateful t fn w0 calls ps); auto; [constructor|].
  apply Forall_forall. intros p _. split; [apply Forall_forall; intros s _ k c _ n v _; exact Logic.I|].
  induction (p_def p) as [i|c i subs st ini IH] using mdef_rect'; [exact Logic.I|]. cbn [mdef_ok]. split.
  - intros k [v|d] _; [exact Logic.I|]. split; [exact Logic.I|]. intros n v _. exact Logic.I.
  - induction IH as [|[n d] l Hd F IHF]; [exact Logic.I|]. split; assumption.
Qed.
Print Assumptions C56_eq_blind.
(** the node types registered by the library do not tell equal values apart *)
Lemma default_nodes_fit : nodes_fit py_eq default_node_types.
Proof.
  intros v v' H. destruct H as [v|a b z Na Nb|l l' F]; [reflexivity| |reflexivity].
  assert (X : forall a z, number a z -> is_node default_node_types (ARaw a) = false) by (intros ? ? []; reflexivity).
  now rewrite (X _ _ Na), (X _ _ Nb).
Qed.

(** In general it is false: a function that returns the static attribute [flag], called
    with a module where it is [True] and then with one where it is [1], returns [True]
    both times. *)
Definition read_flag (w : world) (m : nat) : world * result pyval :=
  match get_obj w m with
  | Some o => match dget "flag" (m_vars o) with Some (ARaw v) => (w, Ok v) | _ => (w, Err AttributeError) end
  | None => (w, Err OutOfModel)
  end.
Lemma read_flag_blind : order_blind read_flag.
Proof.
  intros w v m W. unfold read_flag. pose proof (heap_get _ w v m W) as G.
  destruct (get_obj w m) as [o|], (get_obj v m) as [p|]; try contradiction; [|auto].
  destruct G as (_ & _ & _ & _ & G). pose proof (dict_sim_get _ _ _ G "flag") as D.
  destruct (dget "flag" (m_vars o)) as [a|], (dget "flag" (m_vars p)) as [b|]; try contradiction; [|auto].
  destruct D as [x x' <-|]; auto.
Qed.
Definition ex_flag (v : pyval) : world :=
  mkWorld [mkMobj (Mod_cls "Net") 1 false (0, 0) [("flag", ARaw v); ("w", param 10)]] 1 (0, 0) default_node_types.
Theorem C56_lookalike_refuted :
  exists (fn : world -> nat -> world * result pyval) (p1 p2 : pure),
    order_blind fn /\ wf_world (ex_flag (PyBool true)) /\ wf_world (ex_flag (PyInt 1%Z)) /\
    same_phase (ex_flag (PyBool true)) 0 /\ same_phase (ex_flag (PyInt 1%Z)) 0 /\
    module_partition (ex_flag (PyBool true)) 0 [] = Ok p1 /\ module_partition (ex_flag (PyInt 1%Z)) 0 [] = Ok p2 /\
    cached_calls (fun _ _ => true) (fun p => snd (jitted_fn false (1, 0) fn (ex_flag PyNone) p)) [] [p1; p2] =
      [Ok (None, PyBool true); Ok (None, PyBool true)] /\
    snd (jitted_fn false (1, 0) fn (ex_flag PyNone) p2) = Ok (None, PyInt 1%Z).
Proof.
  assert (PH : forall v, same_phase (ex_flag v) 0).
  { intros v. exists false. intros x o _ Ho. destruct x as [|[|x]]; [|discriminate|discriminate]. injection Ho as <-. reflexivity. }
  exists read_flag. do 2 eexists. split; [apply read_flag_blind|]. split; [apply wf_worldb_ok; vm_compute; reflexivity|].
  split; [apply wf_worldb_ok; vm_compute; reflexivity|]. split; [apply PH|]. split; [apply PH|]. split; [vm_compute; reflexivity|].
  split; [vm_compute; reflexivity|]. split; vm_compute; reflexivity.
Qed.
Print Assumptions C56_lookalike_refuted.
(** A function that only compares the flag gets the right answer from the shared entry. *)
Definition flag_is_one (w : world) (m : nat) : world * result bool :=
  match get_obj w m with
  | Some o => match dget "flag" (m_vars o) with Some (ARaw v) => (w, Ok (pyval_eqb v (PyInt 1%Z))) | _ => (w, Err AttributeError) end
  | None => (w, Err OutOfModel)
  end.
Example C56_eq_example :
  eq_blind flag_is_one /\
  exists p1 p2 p3, constants_ok no_bool p2 /\ constants_ok no_bool p3 /\ ~ constants_ok no_bool p1 /\
    Forall2 (fun c p => wf_world (fst c) /\ same_phase (fst c) (snd c) /\ module_partition (fst c) (snd c) [] = Ok p)
            [(ex_flag (PyBool true), 0); (ex_flag (PyInt 1%Z), 0); (ex_flag (PyInt 0%Z), 0)] [p1; p2; p3] /\
    cached_calls (fun _ _ => true) (fun p => snd (jitted_fn false (1, 0) flag_is_one (ex_flag PyNone) p)) [] [p1; p2; p3] =
      [Ok (None, true); Ok (None, true); Ok (None, false)].
Proof.
  assert (PH : forall v, same_phase (ex_flag v) 0).
  { intros v. exists false. intros x o _ Ho. destruct x as [|[|x]]; [|discriminate|discriminate]. injection Ho as <-. reflexivity. }
  split.
  - intros w v m W. unfold flag_is_one. pose proof (heap_get _ w v m W) as G.
    destruct (get_obj w m) as [o|], (get_obj v m) as [p|]; try contradiction; [|auto].
    destruct G as (_ & _ & _ & _ & G). pose proof (dict_sim_get _ _ _ G "flag") as D.
    destruct (dget "flag" (m_vars o)) as [a|], (dget "flag" (m_vars p)) as [b|]; try contradiction; [|auto].
    destruct D as [x x' E|]; [|auto]. cbn [fst snd]. split; [exact W|]. f_equal. apply eq_true_iff_eq. rewrite !pyval_eqb_eq.
    split; intros H; [apply py_eq_sym in E|]; eapply py_eq_trans; eauto.
  - assert (K : forall z p, module_partition (ex_flag (PyInt z)) 0 [] = Ok p -> constants_ok no_bool p).
    { intros z p H. vm_compute in H. injection H as <-. split.
      - constructor; [|constructor]. intros k c [E|[]] n v. injection E as <- <-. cbn [c_meta dget].
        destruct (String.eqb n "sharding"); [|discriminate]. intros [= <-]. constructor.
      - cbn. split; [|exact Logic.I]. intros k a [E|[]]. injection E as <- <-. constructor. }
    do 3 eexists. split; [apply (K 1%Z); vm_compute; reflexivity|]. split; [apply (K 0%Z); vm_compute; reflexivity|]. split.
    2:{ split; [|shelve].
        constructor; [|constructor; [|constructor; [|constructor]]]; cbn [fst snd]; (split; [apply wf_worldb_ok; vm_compute; reflexivity|]);
          (split; [apply PH|vm_compute; reflexivity]). }
    Unshelve. 2:{ vm_compute. reflexivity. }
    intros [_ [H _]]. specialize (H "flag" (ARaw (PyBool true)) (or_introl eq_refl)). inversion H.
Qed.

(** Writing the returned state back into the caller's module gives the same module. *)
Theorem C56_write_back :
  forall (w : world) (r : nat) (s s' : state), wf_world w -> dict_sim eq s s' ->
  world_sim eq (fst (update_state w r (UStates (One s)))) (fst (update_state w r (UStates (One s')))) /\
  snd (update_state w r (UStates (One s))) = snd (update_state w r (UStates (One s'))).
Proof.
  intros w r s s' W S. unfold update_state. assert (WS : world_sim eq w w) by (apply world_sim_refl; auto using nodes_fit_eq).
  assert (HQ : forall a b : pyval, a = b -> py_eq a b) by (intros a b <-; constructor).
  destruct (get_state w r) as [cur|e] eqn:E; [|cbn; auto]. unfold update_module. apply update_loop_sim; [exact HQ| |exact WS].
  apply updates_sim; [|constructor]. constructor; [|constructor; [exact S|constructor]]. apply dict_sim_refl; [auto|]. eapply get_state_wf; eauto.
Qed.
Print Assumptions C56_write_back.

(** When no recompilation happens: exactly when the static structures agree, the root
    modules are in the same phase and the states have the same paths with entries of the
    same kind.  In particular the values of arrays and the identity of the module do not
    matter. *)
Theorem C56_key :
  forall (same_aval : pyval -> pyval -> bool) (w w' : world) (r r' : nat) (p p' : pure) (o o' : mobj) (s s' : state),
  wf_world w -> wf_world w' -> get_obj w r = Some o -> get_obj w' r' = Some o' ->
  module_partition w r [] = Ok p -> module_partition w' r' [] = Ok p' ->
  get_state w r = Ok s -> get_state w' r' = Ok s' ->
  (pure_key_eqb same_aval p p' = true <->
   same_structure w r w' r' /\ m_init o = m_init o' /\
   Forall2 (fun x y => fst x = fst y /\ same_kind same_aval (snd x) (snd y)) s s').
Proof.
  intros same_aval w w' r r' p p' o o' s s' W W' Ho Ho' P P' S S'.
  unfold module_partition in P, P'. rewrite S in P. rewrite S' in P'.
  destruct (get_module_def w r) as [d|] eqn:D; [|discriminate]. destruct (get_module_def w' r') as [d'|] eqn:D'; [|discriminate].
  cbn in P, P'. injection P as <-. injection P' as <-.
  assert (ST : state_key_eqb same_aval s s' = true <-> Forall2 (fun x y => fst x = fst y /\ same_kind same_aval (snd x) (snd y)) s s').
  { pose proof (get_state_wf w r s W S) as V. pose proof (get_state_wf w' r' s' W' S') as V'. clear - V V'. revert s' V'.
    induction s as [|[k a] s IH]; intros [|[k' b] s'] V'; cbn [state_key_eqb]; try (split; [discriminate|inversion 1]);
      [split; [constructor|reflexivity]|].
    rewrite !andb_true_iff, String.eqb_eq, IH; [|intros x y I; apply (V x); now right|intros x y I; apply (V' x); now right].
    assert (K : attr_key_eqb same_aval a b = true <-> same_kind same_aval a b).
    { pose proof (V k a (or_introl eq_refl)) as Wa. pose proof (V' k' b (or_introl eq_refl)) as Wb. unfold attr_key_eqb.
      destruct a as [x|[c m x]], b as [y|[c' m' y]]; cbn in *; try (split; [discriminate|tauto]); [reflexivity|].
      rewrite !andb_true_iff, cls_eqb_eq, (dict_eqb_spec m m' (proj1 Wa) (proj1 Wb)). tauto. }
    rewrite K. split; [intros [[-> H1] H2]; constructor; auto|]. inversion 1 as [|? ? ? ? [H1 H2] H3]; subst. cbn [fst snd] in *. auto. }
  unfold pure_key_eqb. cbn [p_states p_def sts_key_eqb]. rewrite andb_true_iff, ST.
  assert (DK : def_key_eqb d d' = true <-> mdef_eqb d d' = true /\ m_init o = m_init o').
  { unfold get_module_def, dfs_fuel in D, D'. cbn [make_def] in D, D'. rewrite Ho in D. rewrite Ho' in D'. cbn [index_of] in D, D'.
    destruct (make_fields _ _ _ _) as [[[subs st] mi]|] in D; [|discriminate]. cbn in D. injection D as <-.
    destruct (make_fields _ _ _ _) as [[[subs' st'] mi']|] in D'; [|discriminate]. cbn in D'. injection D' as <-.
    rewrite def_key_eqb_MDef, mdef_eqb_MDef, !andb_true_iff, Bool.eqb_true_iff. cbn. tauto. }
  rewrite DK. assert (EQ : mdef_eqb d d' = true <-> same_structure w r w' r') by (split; [eapply mdef_eqb_sound|eapply mdef_eqb_complete]; eauto).
  rewrite EQ. tauto.
Qed.
Print Assumptions C56_key.

(** Without the phase condition the claim is false: in [init], the submodule leaves
    initialization before its parent (a nested [self.sub.init(...)]), and the second call
    of the jitted function still sees it initializing. *)
Definition sub_phase (w : world) (m : nat) : world * result bool :=
  match get_obj w m with
  | Some o => match dget "sub" (m_vars o) with
              | Some (ARaw (PyMod x)) => match get_obj w x with Some p => (w, Ok (m_init p)) | None => (w, Err OutOfModel) end
              | _ => (w, Err AttributeError)
              end
  | None => (w, Err OutOfModel)
  end.
Definition ex_nested : world :=
  mkWorld [mkMobj (Mod_cls "Net") 1 false (0, 0) [("sub", sub 1); ("w", param 10)];
           mkMobj (Mod_cls "Layer") 2 false (0, 0) [("w", param 11)]] 2 (0, 0) default_node_types.
Lemma sub_phase_blind : order_blind sub_phase.
Proof.
  intros w v m W. unfold sub_phase. pose proof (heap_get _ w v m W) as G.
  destruct (get_obj w m) as [o|], (get_obj v m) as [p|]; try contradiction; [|auto].
  destruct G as (_ & _ & _ & _ & G). pose proof (dict_sim_get _ _ _ G "sub") as D.
  destruct (dget "sub" (m_vars o)) as [a|], (dget "sub" (m_vars p)) as [b|]; try contradiction; [|auto].
  destruct D as [x x' <-|]; [|auto]. destruct x; auto. pose proof (heap_get _ w v r W) as G'.
  destruct (get_obj w r) as [q|], (get_obj v r) as [q'|]; try contradiction; [|auto]. destruct G' as (_ & _ & E & _). cbn. now rewrite E.
Qed.
Theorem C56_nested_phase_refuted :
  exists (fn : world -> nat -> world * result bool) (w1 w2 : world) (p1 p2 : pure),
    order_blind fn /\ set_init_all true ex_nested 0 = Ok w1 /\ set_init_all false w1 1 = Ok w2 /\ wf_world w1 /\ wf_world w2 /\
    module_partition w1 0 [] = Ok p1 /\ module_partition w2 0 [] = Ok p2 /\
    map snd (match cached_calls (fun _ _ => true) (fun p => snd (jitted_fn false (1, 0) fn ex_nested p)) [] [p1; p2] with
             | [Ok x; Ok y] => [x; y] | _ => [] end) = [true; true] /\
    snd (jitted_fn false (1, 0) fn ex_nested p2) = Ok (None, false).
Proof.
  exists sub_phase. do 4 eexists. split; [apply sub_phase_blind|]. split; [vm_compute; reflexivity|]. split; [vm_compute; reflexivity|].
  split; [apply wf_worldb_ok; vm_compute; reflexivity|]. split; [apply wf_worldb_ok; vm_compute; reflexivity|].
  split; [vm_compute; reflexivity|]. split; [vm_compute; reflexivity|]. split; vm_compute; reflexivity.
Qed.
Print Assumptions C56_nested_phase_refuted.

(** Two calls on different modules of the same structure share an entry, each computing
    with its own values; a third, initializing, is compiled again. *)
Definition bump (w : world) (m : nat) : world * result pyval :=
  match get_obj w m with
  | Some o => match dget "w" (m_vars o) with
              | Some (ACont c) => match setattr w m "w" (ARaw (PyTuple [c_val c])) with
                                  | Ok w' => (w', Ok (c_val c))
                                  | Err e => (w, Err e)
                                  end
              | _ => (w, Err AttributeError)
              end
  | None => (w, Err OutOfModel)
  end.
Lemma bump_blind : order_blind bump.
Proof.
  intros w v m W. unfold bump. pose proof (heap_get _ w v m W) as G.
  destruct (get_obj w m) as [o|], (get_obj v m) as [p|]; try contradiction; [|auto].
  destruct G as (_ & _ & _ & _ & G). pose proof (dict_sim_get _ _ _ G "w") as D.
  destruct (dget "w" (m_vars o)) as [a|], (dget "w" (m_vars p)) as [b|]; try contradiction; [|auto].
  destruct D as [x x' <-|c n n' x x' W1 W2 E <-]; [auto|]. cbn [c_val].
  assert (HQ : forall a b : pyval, a = b -> py_eq a b) by (intros a b' <-; constructor).
  pose proof (setattr_sim _ HQ w v m "w" (ARaw (PyTuple [x])) (ARaw (PyTuple [x])) W (sim_raw _ _ _ eq_refl)) as S.
  destruct (setattr w m "w" _), (setattr v m "w" _); try contradiction; cbn in *; [auto|]. subst. auto.
Qed.
Definition ex_nested2 : world :=
  mkWorld [mkMobj (Mod_cls "Layer") 9 false (0, 0) [];
           mkMobj (Mod_cls "Layer") 4 false (0, 0) [("w", param 21)];
           mkMobj (Mod_cls "Net") 3 false (0, 0) [("w", param 20); ("sub", sub 1)]] 9 (0, 0) default_node_types.
Example C56_example :
  exists w3 p1 p2 p3, order_blind bump /\ set_init_all true ex_nested 0 = Ok w3 /\
    Forall2 (fun c p => wf_world (fst c) /\ same_phase (fst c) (snd c) /\ module_partition (fst c) (snd c) [] = Ok p)
            [(ex_nested, 0); (ex_nested2, 2); (w3, 0)] [p1; p2; p3] /\
    Forall (constants_ok no_bool) [p1; p2; p3] /\
    pure_key_eqb (fun _ _ => true) p1 p2 = true /\ pure_key_eqb (fun _ _ => true) p1 p3 = false /\
    cached_calls (fun _ _ => true) (fun p => snd (jitted_fn true (1, 0) bump ex_nested p)) [] [p1; p2; p3] =
      map (fun n => Ok (Some [("sub/w", param (S n)); ("w", ACont (mkCont Param_cls [("sharding", PyNone)] (PyTuple [PyObj Array_cls n])))],
                        PyObj Array_cls n)) [10; 20; 10].
Proof.
  do 4 eexists. split; [apply bump_blind|]. split; [vm_compute; reflexivity|]. split.
  - assert (PH : forall w b, forallb (fun o => Bool.eqb (m_init o) b) (w_heap w) = true -> forall r, same_phase w r).
    { intros w b H r. exists b. intros x o _ Ho. rewrite forallb_forall in H. apply Bool.eqb_prop, H. exact (nth_error_In _ _ Ho). }
    constructor; [|constructor; [|constructor; [|constructor]]]; cbn [fst snd]; (split; [apply wf_worldb_ok; vm_compute; reflexivity|]).
    + split; [apply (PH _ false); reflexivity|vm_compute; reflexivity].
    + split; [apply (PH _ false); reflexivity|vm_compute; reflexivity].
    + split; [apply (PH _ true); vm_compute; reflexivity|vm_compute; reflexivity].
  - split; [|split; [vm_compute; reflexivity|]; split; [vm_compute; reflexivity|]; vm_compute; reflexivity].
    assert (ST : forall x y i j, state_ok no_bool [(x, param i); (y, param j)]).
    { intros x y i j k c [E|[E|[]]] n v; injection E as _ <-; cbn [c_meta dget];
        (destruct (String.eqb n "sharding"); [intros [= <-]; constructor|discriminate]). }
    assert (NO : statics_ok no_bool []) by (intros k a []).
    constructor; [|constructor; [|constructor; [|constructor]]]; (split; [constructor; [apply ST|constructor]|cbn; tauto]).
Qed.
