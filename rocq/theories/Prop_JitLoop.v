(** C84: a program that calls a jitted function many times, with its compilation cache,
    does what the program does without jit.  Model in JitLoopM, specification in
    Spec_JitLoop. *)
From Coq Require Import ZArith.
From Verif Require Import PyBase PyBaseFacts ValuesM Spec_Eq ValuesFacts FiltersM StateM ModuleM TransformM JitCacheM JitLoopM.
From Verif Require Import Spec_Module Spec_Prog Spec_JitCache Spec_JitLoop Graph_facts Bisim_proofs Prog_proofs JitCache_proofs Transform_proofs Mixed_proofs JitLoop_proofs.
From Verif Require Import Clone_proofs Ex_Module Prop_JitCache.
Local Open Scope string_scope.
Local Open Scope nat_scope.
Local Open Scope list_scope.

(** *** One call
    Whatever calls of the jitted function were made before, with whatever modules, and
    whatever else happened in between: a call returns what the function returns when it
    is called directly here and now, and leaves the module as that does. *)
Theorem C84_call :
  forall (A : Type) (same_aval : pyval -> pyval -> bool) (t : trace_state) (f : prog A) (nodes : list string) (ok : pyval -> Prop)
         (cache : jit_cache) (w : world) (r : nat) (wd : world) (out : A),
  ok_prog f -> order_blind (user_fun f) -> (forall a b, ok a -> ok b -> py_eq a b -> a = b) ->
  jit_made same_aval true t (user_fun f) nodes ok cache -> usable nodes ok w r ->
  user_fun f w r = (wd, Ok out) -> nodes_only w wd r -> names_ok wd r ->
  exists cache' w', jit_loop_call same_aval true t (user_fun f) cache w r = (cache', w', Ok out) /\
    (forall p, seen_like eq (look w' r p) (look wd r p)) /\
    (forall p, follow w' r p = follow wd r p) /\
    (exists s s', get_state w' r = Ok s /\ get_state wd r = Ok s' /\ dict_sim eq s s') /\
    w_trace w' = w_trace w /\
    (forall x o, get_obj w x = Some o -> ~ reaches w r x -> get_obj w' x = Some o).
Proof.
  intros A same_aval t f nodes ok cache w r wd out Hf HB HK HM U Hrun HN Hnod.
  assert (HQ : forall a b : pyval, a = b -> py_eq a b) by (intros a b <-; constructor).
  assert (HE : forall v : pyval, v = v) by reflexivity. assert (HS : forall a b : pyval, a = b -> b = a) by auto.
  assert (HT : forall a b c : pyval, a = b -> b = c -> a = c) by congruence. assert (HO : forall a b, a = b -> ok b -> ok a) by (intros a b <-; auto).
  assert (HC : Forall (entry_ok ok nodes) cache) by (eapply made_ok; exact HM).
  assert (WS : world_sim eq w w) by (apply world_sim_refl; [auto|apply nodes_fit_eq|apply U]).
  destruct (loop_carries eq HE HS HT HQ ok HK HO nodes (nodes_fit_eq nodes)
              same_aval t f cache w w r wd out Hf HB HC WS U Hrun HN Hnod) as (cache' & w' & v' & C & Wd & S & W' & T & N & B & K & F).
  destruct (get_obj_ex _ _ (us_valid _ _ _ _ U)) as [o Ho]. assert (Hrr : reaches w r r) by (eapply reaches_refl; eauto).
  exists cache', w'. split; [exact C|].
  split. { intros p. rewrite <- (bisim_look _ _ _ p B r r (conj eq_refl Hrr)). now apply look_sim. }
  split. { intros p. rewrite (follow_sim eq HQ w' v' S p r). pose proof (bisim_follow_iff _ _ _ p B r r (conj eq_refl Hrr)) as G.
    destruct (follow v' r p), (follow wd r p); try contradiction; [destruct G as [-> _]|]; reflexivity. }
  split.
  { pose proof (get_state_sim eq HQ w' v' r S) as G. rewrite (bisim_get_state v' wd _ r r W' Wd B) in G; [|destruct HN; congruence|cbn; auto].
    destruct (bisim_valid _ _ _ _ _ B (conj eq_refl Hrr)) as [_ Vd]. destruct (get_state_total wd r Wd Vd) as (sd & Hsd & _).
    rewrite Hsd in G. destruct (get_state w' r) as [s|]; [|contradiction]. exists s, sd. auto. }
  split; [|exact F]. destruct S as (_ & _ & -> & _). exact T.
Qed.
Print Assumptions C84_call.

(** If the function raises, or jit is not stateful, the result is the same and no module
    changes. *)
Theorem C84_other :
  forall (A : Type) (same_aval : pyval -> pyval -> bool) (stateful : bool) (t : trace_state) (f : prog A) (nodes : list string) (ok : pyval -> Prop)
         (cache : jit_cache) (w : world) (r : nat) (wd : world) (res : result A),
  ok_prog f -> order_blind (user_fun f) -> (forall a b, ok a -> ok b -> py_eq a b -> a = b) ->
  jit_made same_aval stateful t (user_fun f) nodes ok cache -> usable nodes ok w r ->
  user_fun f w r = (wd, res) -> (stateful = false \/ exists e, res = Err e) ->
  exists cache' w', jit_loop_call same_aval stateful t (user_fun f) cache w r = (cache', w', res) /\
    all_unchanged w w' /\ w_trace w' = w_trace w.
Proof.
  intros A same_aval stateful t f nodes ok cache w r wd res Hf HB HK HM U Hrun HST.
  assert (HQ : forall a b : pyval, a = b -> py_eq a b) by (intros a b <-; constructor).
  assert (HE : forall v : pyval, v = v) by reflexivity. assert (HS : forall a b : pyval, a = b -> b = a) by auto.
  assert (HT : forall a b c : pyval, a = b -> b = c -> a = c) by congruence. assert (HO : forall a b, a = b -> ok b -> ok a) by (intros a b <-; auto).
  assert (HC : Forall (entry_ok ok nodes) cache) by (eapply made_ok; exact HM).
  assert (WS : world_sim eq w w) by (apply world_sim_refl; [auto|apply nodes_fit_eq|apply U]).
  destruct (loop_other eq HE HS HT HQ ok HK HO nodes (nodes_fit_eq nodes)
              same_aval stateful t f cache w w r wd res Hf HB HC WS U Hrun HST) as (cache' & w' & C & U1 & U2 & _).
  exists cache', w'. auto.
Qed.
Print Assumptions C84_other.

(** *** A whole program
    Any sequence of calls of the jitted function and of other code on the module, from an
    empty cache: the results are those of the program without jit, and the module looks
    the same at the end, with the same sharing and the same state. *)
Lemma program (A : Type) (E : pyval -> pyval -> Prop) (ok : pyval -> Prop) same_aval stateful t (f : prog A) r l w wd xs :
  (forall v, E v v) -> (forall a b, E a b -> E b a) -> (forall a b c, E a b -> E b c -> E a c) -> (forall a b, E a b -> py_eq a b) ->
  (forall a b, ok a -> ok b -> py_eq a b -> E a b) -> (forall a b, E a b -> ok b -> ok a) -> nodes_fit E (w_nodes w) ->
  ok_prog f -> blind E (user_fun f) -> wf_world w -> r < List.length (w_heap w) -> live w r ->
  run_plainly stateful f r E (w_nodes w) ok w l wd xs ->
  exists w', run_jitted same_aval stateful t f r l [] w = (w', xs) /\
    (forall p, seen_like E (look w' r p) (look wd r p)) /\
    (forall p q, follow w' r p = follow w' r q <-> follow wd r p = follow wd r q) /\
    (exists s s', get_state w' r = Ok s /\ get_state wd r = Ok s' /\ dict_sim E s s') /\
    w_trace w' = w_trace w /\
    (forall x o, get_obj w x = Some o -> ~ reaches w r x -> get_obj w' x = Some o).
Proof.
  intros HE HS HT HQ HK HO NF Hf HB W V L H.
  assert (WS : world_sim E w w) by (apply world_sim_refl; auto).
  destruct (get_obj_ex _ _ V) as [o Ho]. assert (Hrr : reaches w r r) by (eapply reaches_refl; eauto).
  destruct (program_tracks E HE HS HT HQ ok HK HO (w_nodes w) NF same_aval stateful t f r l Hf HB w wd xs H [] w w (fun x y => x = y /\ reaches w r x))
    as (w' & v' & R & C & (S & P & Hr & T') & T & F).
  { constructor. }
  { split; [exact WS|]. split; [exact (pair_refl w r W V L)|]. auto. }
  exists w'. split; [exact C|]. split.
  { intros p. rewrite <- (bisim_look _ _ _ p (pr_bi _ _ _ P) r r Hr). now apply look_sim. }
  split. { intros p q. rewrite !(follow_sim E HQ w' v' S). eapply bisim_alias; [apply P|exact Hr]. }
  split.
  { pose proof (get_state_sim E HQ w' v' r S) as G. rewrite (same_state v' wd R r P Hr) in G.
    destruct (bisim_valid _ _ _ _ _ (pr_bi _ _ _ P) Hr) as [_ Vd]. destruct (get_state_total wd r (pr_wf' _ _ _ P) Vd) as (sd & Hsd & _).
    rewrite Hsd in G. destruct (get_state w' r) as [s|]; [|contradiction]. exists s, sd. auto. }
  split; [exact T|]. intros x ob Hx Hnr. apply F; [exact Hx|]. intros y [_ Hy]. contradiction.
Qed.
Theorem C84_program :
  forall (A : Type) (same_aval : pyval -> pyval -> bool) (stateful : bool) (t : trace_state) (f : prog A) (r : nat) (l : list (option (prog A)))
         (w wd : world) (xs : list (result A)) (ok : pyval -> Prop),
  ok_prog f -> order_blind (user_fun f) -> (forall a b, ok a -> ok b -> py_eq a b -> a = b) ->
  wf_world w -> r < List.length (w_heap w) -> live w r ->
  run_plainly stateful f r eq (w_nodes w) ok w l wd xs ->
  exists w', run_jitted same_aval stateful t f r l [] w = (w', xs) /\
    (forall p, seen_like eq (look w' r p) (look wd r p)) /\
    (forall p q, follow w' r p = follow w' r q <-> follow wd r p = follow wd r q) /\
    (exists s s', get_state w' r = Ok s /\ get_state wd r = Ok s' /\ dict_sim eq s s') /\
    w_trace w' = w_trace w /\
    (forall x o, get_obj w x = Some o -> ~ reaches w r x -> get_obj w' x = Some o).
Proof.
  intros A same_aval stateful t f r l w wd xs ok Hf HB HK W V L H.
  apply (program A eq ok same_aval stateful t f r l w wd xs); auto using nodes_fit_eq; try congruence. intros a b <-. constructor.
Qed.
Print Assumptions C84_program.
(** If the code does not tell equal values apart, nothing need be known about static
    values and metadata, and everything is the same up to [==]. *)
Theorem C84_program_eq :
  forall (A : Type) (same_aval : pyval -> pyval -> bool) (stateful : bool) (t : trace_state) (f : prog A) (r : nat) (l : list (option (prog A)))
         (w wd : world) (xs : list (result A)),
  ok_prog f -> eq_blind (user_fun f) -> nodes_fit py_eq (w_nodes w) ->
  wf_world w -> r < List.length (w_heap w) -> live w r ->
  run_plainly stateful f r py_eq (w_nodes w) (fun _ => True) w l wd xs ->
  exists w', run_jitted same_aval stateful t f r l [] w = (w', xs) /\
    (forall p, seen_like py_eq (look w' r p) (look wd r p)) /\
    (forall p q, follow w' r p = follow w' r q <-> follow wd r p = follow wd r q) /\
    (exists s s', get_state w' r = Ok s /\ get_state wd r = Ok s' /\ dict_sim py_eq s s') /\
    w_trace w' = w_trace w /\
    (forall x o, get_obj w x = Some o -> ~ reaches w r x -> get_obj w' x = Some o).
Proof.
  intros A same_aval stateful t f r l w wd xs Hf HB NF W V L H.
  apply (program A py_eq (fun _ => True) same_aval stateful t f r l w wd xs); auto using py_eq_sym. { constructor. } exact py_eq_trans.
Qed.
Print Assumptions C84_program_eq.

(** *** What a call costs
    If the module has the structure, phase and kinds of state of an earlier call, no
    python code runs: no module is made, the id counter stays, nothing is compiled. *)
Lemma update_loop_size items : forall w r w' res, update_loop w r items = (w', res) ->
  List.length (w_heap w') = List.length (w_heap w) /\ w_uuid w' = w_uuid w.
Proof.
  assert (SP : forall parts w r a w', set_path w r parts a = Ok w' -> List.length (w_heap w') = List.length (w_heap w) /\ w_uuid w' = w_uuid w).
  { induction parts as [|n parts IH]; intros w r a w' H; [discriminate|]. destruct parts as [|n' parts].
    - cbn [set_path] in H. apply setattr_inv in H as (o & a' & Ho & _ & _ & _ & ->). cbn. split; [|reflexivity].
      clear. revert r. induction (w_heap w) as [|x h IH]; intros [|r]; cbn; auto.
    - change (set_path w r (n :: n' :: parts) a) with
        (match get_obj w r with None => Err OutOfModel | Some o => match dget n (m_vars o) with
           | Some (ARaw (PyMod r')) => set_path w r' (n' :: parts) a | Some _ => Err OutOfModel
           | None => if String.eqb n "_module__state" then Err OutOfModel else Err KeyError end end) in H.
      destruct (get_obj w r) as [o|]; [|discriminate]. destruct (dget n (m_vars o)) as [[[]|]|]; try discriminate; [eapply IH; exact H|].
      destruct (String.eqb n "_module__state"); discriminate. }
  induction items as [|[k a] items IH]; intros w r w' res H; cbn [update_loop] in H; [injection H as <- <-; auto|].
  destruct (set_path w r (split_slash k) a) as [w1|] eqn:P; [|injection H as <- <-; auto].
  destruct (SP _ _ _ _ _ P) as [A1 A2]. destruct (IH _ _ _ _ H) as [B1 B2]. split; congruence.
Qed.
Theorem C84_no_retrace :
  forall (A : Type) (same_aval : pyval -> pyval -> bool) (stateful : bool) (t : trace_state) (fn : world -> nat -> world * result A)
         (cache : jit_cache) (w w0 : world) (r r0 : nat) (p0 : pure) (o o0 : mobj) (s s0 : state),
  In (w0, p0) cache -> module_partition w0 r0 [] = Ok p0 -> wf_world w -> wf_world w0 ->
  get_obj w r = Some o -> get_obj w0 r0 = Some o0 -> get_state w r = Ok s -> get_state w0 r0 = Ok s0 ->
  same_structure w0 r0 w r -> m_init o0 = m_init o ->
  Forall2 (fun x y => fst x = fst y /\ same_kind same_aval (snd x) (snd y)) s0 s ->
  exists w' res, jit_loop_call same_aval stateful t fn cache w r = (cache, w', res) /\
    List.length (w_heap w') = List.length (w_heap w) /\ w_uuid w' = w_uuid w.
Proof.
  intros A same_aval stateful t fn cache w w0 r r0 p0 o o0 s s0 I P0 W W0 Ho Ho0 S S0 ST PH KD.
  assert (V : r < List.length (w_heap w)) by (eapply get_obj_lt; eauto).
  destruct (partition_all w r W V) as (p & s' & P & _). unfold jit_loop_call. rewrite P.
  assert (KEY : pure_key_eqb same_aval p0 p = true) by (apply (C56_key same_aval w0 w r0 r p0 p o0 o s0 s); auto).
  destruct (find _ cache) as [[v q]|] eqn:F.
  - destruct (snd _) as [[[u|] out]|e]; try (eexists w, _; split; [reflexivity|]; auto).
    destruct (update_state w r (UStates (One u))) as [w' [[]|e]] eqn:U; (eexists w', _; split; [reflexivity|]);
      unfold update_state in U; rewrite S in U; eapply update_loop_size; exact U.
  - exfalso. pose proof (find_none _ _ F _ I) as X. cbn [snd] in X. congruence.
Qed.
Print Assumptions C84_no_retrace.

(** *** Code that qualifies
    A program that, given similar answers, does similar things and returns the same, does
    not tell the worlds apart that the compiler does not tell apart. *)
Theorem C84_blind :
  forall (A : Type) (E : pyval -> pyval -> Prop) (f : prog A),
  (forall v, E v v) -> (forall a b, E a b -> py_eq a b) ->
  prog_sim E f f -> blind E (user_fun f).
Proof. intros A E f HE HQ H. exact (prog_blind E HE HQ f H). Qed.
Print Assumptions C84_blind.

(** *** A case
    A training loop: the jitted step swaps a parameter with a buffer and returns the
    buffer; between the steps the program assigns the parameter, and once changes a
    static attribute, so that the step is compiled again. *)
Definition step_prog : prog pyval :=
  Do (CGet 0 "w") (fun a => match a with
    | AValue (ACont c) => Do (CGet 0 "buf") (fun b => match b with
        | AValue (ARaw (PyObj k i)) => match c_val c with
            | PyObj k' j => Do (CSet 0 "buf" (ARaw (PyObj k' j))) (fun _ => Do (CSet 0 "w" (ARaw (PyObj k i))) (fun _ => Finish (Ok (PyObj k i))))
            | _ => Finish (Err UserError) end
        | _ => Finish (Err UserError) end)
    | _ => Finish (Err UserError) end).
Definition assign_prog (n : string) (v : pyval) : prog pyval := Do (CSet 0 n (ARaw v)) (fun _ => Finish (Ok PyNone)).
Definition ex_loop (i j : nat) (mode : string) : world :=
  mkWorld [mkMobj (Mod_cls "Net") 1 false (0, 0) [("w", param i); ("buf", arr j); ("mode", ARaw (PyStr mode)); ("a", sub 1); ("b", sub 1)];
           mkMobj (Mod_cls "Layer") 2 false (0, 0) [("w", param 11)]] 2 (0, 0) default_node_types.
Definition ex_steps : list (option (prog pyval)) :=
  [None; Some (assign_prog "w" (PyObj Array_cls 30)); None; Some (assign_prog "mode" (PyStr "eval")); None; None].

Lemma step_ok : ok_prog step_prog.
Proof.
  constructor; [exact Logic.I|]. intros a Ha. destruct a as [|[|c]| | | | |]; try constructor; [exact Logic.I|]. intros b Hb.
  destruct b as [|[[]|]| | | | |]; try constructor. destruct (c_val c); try constructor; cbn; [split; cbn; auto|]. intros ? _. constructor; [cbn; split; cbn; auto|]. intros ? _. constructor.
Qed.
Lemma step_blind : order_blind (user_fun step_prog).
Proof.
  apply C84_blind; [reflexivity|intros a b <-; constructor|]. constructor; [now constructor|]. intros a b Hab.
  inversion Hab as [x Hx|x y Hxy|x y Hxy]; subst; [destruct b; try contradiction; constructor| |constructor].
  destruct Hxy as [v v' Ev|c m m' v v' _ _ _ Ev]; [constructor|]. constructor; [now constructor|]. intros a b Hab2.
  inversion Hab2 as [x Hx|x y Hxy2|x y Hxy2]; subst; [destruct b; try contradiction; constructor| |constructor].
  destruct Hxy2 as [u u' Eu|]; [|constructor]. subst u'. destruct u; try constructor. cbn [c_val]. destruct v'; try constructor.
  - apply cs_set. now constructor.
  - intros ? ? _. constructor; [apply cs_set; now constructor|]. intros ? ? _. constructor.
Qed.
Lemma assign_ok n v : is_submodule (ARaw v) = false -> ok_prog (assign_prog n v).
Proof. intros H. constructor; [split; [exact Logic.I|exact H]|]. intros ? _. constructor. Qed.
Lemma assign_blind n v : order_blind (user_fun (assign_prog n v)).
Proof.
  apply C84_blind; [reflexivity|intros a b <-; constructor|]. constructor; [apply cs_set; now constructor|]. intros ? ? _. constructor.
Qed.
(** deciding the hypotheses on a concrete heap *)
Definition plain_constb (o : mobj) : bool :=
  forallb (fun na => match snd na with
     | ACont c => match c_val c with PyObj _ _ => true | _ => false end && forallb (fun kv => match snd kv with PyNone => true | _ => false end) (c_meta c)
     | ARaw (PyStr _) | ARaw (PyObj _ _) | ARaw (PyMod _) => true
     | _ => false end) (m_vars o).
Lemma usableb_ok w r : wf_worldb w = true -> Nat.ltb r (List.length (w_heap w)) = true -> names_okb w = true -> liveb w = true ->
  forallb (fun o => negb (m_init o)) (w_heap w) = true -> forallb plain_constb (w_heap w) = true -> usable (w_nodes w) no_bool w r.
Proof.
  intros W V N L P K. constructor; [now apply wf_worldb_ok|now apply Nat.ltb_lt|now apply names_okb_ok|now apply liveb_ok| |reflexivity|].
  - exists false. intros x o _ Ho. rewrite forallb_forall in P. specialize (P o (nth_error_In _ _ Ho)). now destruct (m_init o).
  - intros x o n a _ Ho Hd. rewrite forallb_forall in K. specialize (K o (nth_error_In _ _ Ho)). unfold plain_constb in K.
    rewrite forallb_forall in K. specialize (K _ (dget_In _ _ _ Hd)). cbn [snd] in K. destruct a as [[]|c]; try discriminate; try (intros _; constructor).
    apply andb_prop in K as [K1 K2]. split; [|intros _; destruct (c_val c); try discriminate; constructor].
    intros k v Hk. rewrite forallb_forall in K2. specialize (K2 _ (dget_In _ _ _ Hk)). cbn [snd] in K2. destruct v; try discriminate. constructor.
Qed.

Lemma ex_usable i j m : usable default_node_types no_bool (ex_loop i j m) 0.
Proof. apply (usableb_ok (ex_loop i j m)); vm_compute; reflexivity. Qed.
Lemma ex_nodes_only i j i' j' m : nodes_only (ex_loop i j m) (ex_loop i' j' m) 0.
Proof.
  assert (NW : forall i j n a, n = "w" -> a = param i -> node_attr (ex_loop i j m) 0 n a).
  { intros i0 j0 n a -> ->. eexists. split; [reflexivity|]. split; [reflexivity|]. split; [reflexivity|]. exists "Node". cbn. tauto. }
  assert (NB : forall i j n a, n = "buf" -> a = arr j -> node_attr (ex_loop i j m) 0 n a).
  { intros i0 j0 n a -> ->. eexists. split; [reflexivity|]. split; [reflexivity|]. split; [reflexivity|]. exists "jax.Array". cbn. tauto. }
  split; [reflexivity|]. intros x [q Hq]. assert (V : x < 2) by (apply follow_valid in Hq as [o Ho]; exact (get_obj_lt _ _ _ Ho)).
  destruct x as [|[|x]]; [| |exfalso; lia].
  - do 2 eexists. split; [reflexivity|]. split; [reflexivity|]. split; [reflexivity|]. split; [reflexivity|]. intros n. cbn [m_vars dget].
    destruct (String.eqb n "w") eqn:E1; [apply String.eqb_eq in E1; right; split; [now apply (NW i j)|split; [now apply (NW i' j')|]]; cbn; auto|].
    + split; [reflexivity|]. split; [|reflexivity]. apply same_meta_refl.
    + destruct (String.eqb n "buf") eqn:E2; [apply String.eqb_eq in E2; right; split; [now apply (NB i j)|split; [now apply (NB i' j')|]]; reflexivity|].
      destruct (String.eqb n "mode"); [left; reflexivity|]. destruct (String.eqb n "a"); [left; reflexivity|]. destruct (String.eqb n "b"); [left; reflexivity|]. exact Logic.I.
  - do 2 eexists. split; [reflexivity|]. split; [reflexivity|]. split; [reflexivity|]. split; [reflexivity|]. intros n. cbn [m_vars dget].
    destruct (String.eqb n "w"); [left; reflexivity|exact Logic.I].
Qed.
Lemma ex_run l i j m xs w2 :
  run_plainly true step_prog 0 eq default_node_types no_bool (ex_loop j i m) l w2 xs ->
  run_plainly true step_prog 0 eq default_node_types no_bool (ex_loop i j m) (None :: l) w2 (Ok (PyObj Array_cls j) :: xs).
Proof.
  intros H. eapply rp_call with (wd := ex_loop j i m); [apply ex_usable|vm_compute; reflexivity| |exact H].
  intros out _ _. split; [apply ex_nodes_only|apply (ex_usable j i m)].
Qed.
Example C84_example :
  ok_prog step_prog /\ order_blind (user_fun step_prog) /\ wf_world (ex_loop 10 20 "train") /\ live (ex_loop 10 20 "train") 0 /\
  run_plainly true step_prog 0 eq default_node_types no_bool (ex_loop 10 20 "train") ex_steps (ex_loop 10 30 "eval")
    [Ok (PyObj Array_cls 20); Ok PyNone; Ok (PyObj Array_cls 10); Ok PyNone; Ok (PyObj Array_cls 30); Ok (PyObj Array_cls 10)] /\
  snd (run_jitted (fun _ _ => true) true (1, 0) step_prog 0 ex_steps [] (ex_loop 10 20 "train")) =
    [Ok (PyObj Array_cls 20); Ok PyNone; Ok (PyObj Array_cls 10); Ok PyNone; Ok (PyObj Array_cls 30); Ok (PyObj Array_cls 10)].
Proof.
  split; [apply step_ok|]. split; [apply step_blind|]. split; [apply (ex_usable 10 20 "train")|]. split; [apply (ex_usable 10 20 "train")|].
  split; [|vm_compute; reflexivity]. unfold ex_steps. apply ex_run.
  eapply rp_code; [now apply assign_ok|apply assign_blind|vm_compute; reflexivity|]. apply (ex_run _ 30 10 "train").
  eapply rp_code; [now apply assign_ok|apply assign_blind|vm_compute; reflexivity|]. apply (ex_run _ 10 30 "eval"). apply (ex_run _ 30 10 "eval"). 
  constructor.
Qed.
(** The second step is taken from the cache, the third is compiled, the fourth is taken
    from the cache again. *)
Example C84_cache_example :
  let call c := jit_loop_call (fun _ _ => true) true (1, 0) (user_fun step_prog) c in
  exists c1 w1 x1 w2 x2 c3 w3 x3 w4 x4,
    call [] (ex_loop 10 20 "train") 0 = (c1, w1, x1) /\ List.length c1 = 1 /\
    call c1 (ex_loop 30 10 "train") 0 = (c1, w2, x2) /\
    call c1 (ex_loop 10 30 "eval") 0 = (c3, w3, x3) /\ List.length c3 = 2 /\
    call c3 (ex_loop 30 10 "eval") 0 = (c3, w4, x4).
Proof. cbv zeta. do 10 eexists. repeat (split; [vm_compute; reflexivity|]). vm_compute. reflexivity. Qed.

(** A function that uses a static attribute as a truth value: [True] and [1] share a cache
    entry. *)
Definition flag_prog : prog pyval :=
  Do (CGet 0 "flag") (fun a => match a with
    | AValue (ARaw v) => if pyval_eqb v (PyInt 1%Z) then Do (CSet 0 "w" (arr 7)) (fun _ => Finish (Ok (PyStr "on"))) else Finish (Ok (PyStr "off"))
    | _ => Finish (Err UserError) end).
Definition flag_steps : list (option (prog pyval)) := [None; Some (assign_prog "flag" (PyInt 1%Z)); None; Some (assign_prog "flag" (PyInt 0%Z)); None].
Example C84_eq_example :
  ok_prog flag_prog /\ eq_blind (user_fun flag_prog) /\ nodes_fit py_eq default_node_types /\
  run_plainly false flag_prog 0 py_eq default_node_types (fun _ => True) (ex_flag (PyBool true)) flag_steps (ex_flag (PyInt 0%Z))
    [Ok (PyStr "on"); Ok PyNone; Ok (PyStr "on"); Ok PyNone; Ok (PyStr "off")].
Proof.
  assert (U : forall v, is_submodule (ARaw v) = false -> usable default_node_types (fun _ => True) (ex_flag v) 0).
  { intros v Hv. assert (RX : forall x, reaches (ex_flag v) 0 x -> x = 0).
    { intros x Hx. apply reaches_valid in Hx as [o Ho]. destruct x as [|[|x]]; [reflexivity|discriminate|discriminate]. }
    constructor; [apply wf_worldb_ok|cbn; lia|apply names_okb_ok; vm_compute; reflexivity| | |reflexivity|].
    - destruct v; try discriminate Hv; vm_compute; reflexivity.
    - intros x o H Ho. apply RX in H as ->. injection Ho as <-. reflexivity.
    - exists false. intros x o H Ho. apply RX in H as ->. injection Ho as <-. reflexivity.
    - intros x o n a _ _ _. destruct a; [auto|]. split; [intros k v' _|intros _]; exact Logic.I. }
  split. { constructor; [exact Logic.I|]. intros a _. destruct a as [|[v|]| | | | |]; try constructor. destruct (pyval_eqb v _); constructor; [split; cbn; auto|]. intros ? _. constructor. }
  split.
  { apply C84_blind; [constructor|auto|]. constructor; [now constructor|]. intros a b Hab.
    inversion Hab as [x Hx|x y Hxy|x y Hxy]; subst; [destruct b; try contradiction; constructor| |constructor].
    destruct Hxy as [v v' Ev|]; [|constructor]. replace (pyval_eqb v (PyInt 1%Z)) with (pyval_eqb v' (PyInt 1%Z)).
    - destruct (pyval_eqb v' (PyInt 1%Z)); constructor; [apply cs_set; constructor; constructor|]. intros ? ? _. constructor.
    - apply eq_true_iff_eq. rewrite !pyval_eqb_eq. split; intros H; [|apply py_eq_sym in Ev]; eapply py_eq_trans; eauto. }
  split; [exact default_nodes_fit|]. unfold flag_steps.
  assert (AB : forall v, blind py_eq (user_fun (assign_prog "flag" v))).
  { intros v. apply C84_blind; [constructor|auto|]. constructor; [apply cs_set; constructor; constructor|]. intros ? ? _. constructor. }
  eapply rp_call; [now apply U|vm_compute; reflexivity|discriminate|].
  eapply rp_code; [now apply assign_ok|apply AB|vm_compute; reflexivity|]. fold (ex_flag (PyInt 1%Z)).
  eapply rp_call; [now apply (U (PyInt 1%Z))|vm_compute; reflexivity|discriminate|].
  eapply rp_code; [now apply assign_ok|apply AB|vm_compute; reflexivity|].
  eapply rp_call; [now apply (U (PyInt 0%Z))|vm_compute; reflexivity|discriminate|]. constructor.
Qed.

(** *** What the compiler takes as a constant
    A module kept in a tuple is a static value.  The jitted function that reads a
    parameter of it sees the value of the first call for ever. *)
Definition ex_hidden : world :=
  mkWorld [mkMobj (Mod_cls "Net") 1 false (0, 0) [("layers", ARaw (PyTuple [PyMod 1]))];
           mkMobj (Mod_cls "Layer") 2 false (0, 0) [("w", param 10)]] 2 (0, 0) default_node_types.
Definition first_layer : world -> nat -> world * result pyval :=
  fun w m => match get_obj w m with
             | Some o => match dget "layers" (m_vars o) with
                         | Some (ARaw (PyTuple (PyMod r :: _))) => match get_obj w r with
                             | Some o' => match dget "w" (m_vars o') with Some (ACont c) => (w, Ok (c_val c)) | _ => (w, Err UserError) end
                             | None => (w, Err UserError) end
                         | _ => (w, Err UserError) end
             | None => (w, Err UserError) end.
Theorem C84_hidden_refuted :
  exists (c : jit_cache) (w w' w2 : world) (x : pyval),
    jit_loop_call (fun _ _ => true) true (1, 0) first_layer [] ex_hidden 0 = (c, w, Ok (PyObj Array_cls 10)) /\
    setattr w 1 "w" (arr 30) = Ok w' /\ usable default_node_types no_bool w' 0 /\
    snd (first_layer w' 0) = Ok (PyObj Array_cls 30) /\
    jit_loop_call (fun _ _ => true) true (1, 0) first_layer c w' 0 = (c, w2, Ok x) /\ x = PyObj Array_cls 10.
Proof.
  do 5 eexists. split; [vm_compute; reflexivity|]. split; [vm_compute; reflexivity|]. split.
  - match goal with |- usable _ _ ?u _ => assert (RX : forall x, reaches u 0 x -> x = 0) end.
    { intros x [[|n q] Hq]; [injection Hq as <-; reflexivity|]. cbn [follow get_obj nth_error w_heap m_vars dget] in Hq.
      destruct (String.eqb n "layers"); discriminate. }
    constructor; [apply wf_worldb_ok; vm_compute; reflexivity|cbn; lia|apply names_okb_ok; vm_compute; reflexivity| | |reflexivity|].
    + intros x o H Ho. apply RX in H as ->. injection Ho as <-. reflexivity.
    + exists false. intros x o H Ho. apply RX in H as ->. injection Ho as <-. reflexivity.
    + intros x o n a H Ho Hd. apply RX in H as ->. injection Ho as <-. cbn [m_vars dget] in Hd.
      destruct (String.eqb n "layers"); [|discriminate]. injection Hd as <-. intros _. repeat constructor.
  - split; [vm_compute; reflexivity|]. split; vm_compute; reflexivity.
Qed.
Print Assumptions C84_hidden_refuted.
