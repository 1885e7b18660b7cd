(** Prop_Train: C65, training with TrainState.  The optimizer ([tx_init], [tx_update],
    [apply_updates]), [asarray] and [add_one] are arbitrary functions that may raise. *)
From Coq Require Import ZArith Lia.
From Verif Require Import PyBase PyBaseFacts ValuesM Spec_Eq PytreeM Spec_Pytree Pytree_proofs PtreeM Spec_Ptree Ptree_proofs StateM ModuleM TrainM
  Spec_Train Train_proofs.
Local Open Scope string_scope.
Local Open Scope list_scope.

(** Construction: the optimizer state is [tx.init(params)], the extra keyword arguments
    become fields. *)
Theorem C65_new :
  forall tx_init asarray h mdef params tx step kw opt n,
  tx_init tx params = Ok opt -> asarray step = Ok n -> NoDup (keys kw) ->
  (forall k a, In (k, a) kw -> user_name k /\ wf_attr a /\ ~ In k ["self"; "moduledef"; "params"; "tx"; "opt_state"; "step"]) ->
  exists o, train_new tx_init asarray h mdef params tx step kw = (h ++ [o], Ok tt) /\
    train_obj o mdef params tx opt n /\
    keys (p_vars o) = F_SORTED :: "moduledef" :: "params" :: "tx" :: "opt_state" :: "step" :: keys kw /\
    (forall k a, dget k kw = Some a -> dget k (p_vars o) = Some (FAttr a)).
Proof. intros tx_init asarray. exact (train_new_ok tx_init asarray). Qed.
Print Assumptions C65_new.

(** One update: a new object with the optimizer's parameters and state, one more step
    and the given fields; everything else as it was.  The old objects are unchanged. *)
Theorem C65_step :
  forall tx_update apply_updates add_one h r o mdef params tx opt step g kw u opt' params' step',
  nth_error h r = Some o -> train_obj o mdef params tx opt step ->
  NoDup (keys kw) ->
  (forall k v, In (k, v) kw -> wf_attr v /\ user_name k /\ ~ In k reserved /\
                              exists old new, dget k (p_vars o) = Some old /\ stores old v new) ->
  tx_update tx g opt params = Ok (u, opt') -> apply_updates params u = Ok params' -> add_one step = Ok step' ->
  exists o', apply_gradients tx_update apply_updates add_one h r g kw = (h ++ [o'], Ok tt) /\
    train_obj o' mdef params' tx opt' step' /\ keys (p_vars o') = keys (p_vars o) /\
    (forall n, ~ In n (keys kw) -> ~ In n ["params"; "opt_state"; "step"] -> dget n (p_vars o') = dget n (p_vars o)) /\
    (forall k v, dget k kw = Some v -> exists old new, dget k (p_vars o) = Some old /\ stores old v new /\
                                                      dget k (p_vars o') = Some new).
Proof.
  intros tx_update apply_updates add_one h r o mdef params tx opt step g kw u opt' params' step' O T ND KW.
  exact (step_ok tx_update apply_updates add_one h r o mdef params tx opt step g kw u opt' params' step' O T (conj ND KW)).
Qed.
Print Assumptions C65_step.

(** Training: construct, then update with any list of gradients (and new values for
    extra fields).  The last object has what the optimizer alone computes from these
    gradients, the step has grown by their number, each extra field has the value given
    last, and every object made on the way is still there. *)
Theorem C65_training :
  forall tx_init tx_update apply_updates asarray add_one h mdef params tx step kw opt n gs params' opt' n',
  tx_init tx params = Ok opt -> asarray step = Ok n -> NoDup (keys kw) ->
  (forall k a, In (k, a) kw -> user_name k /\ wf_attr a /\ ~ In k reserved) ->
  (forall g kw', In (g, kw') gs -> NoDup (keys kw') /\ forall k v, In (k, v) kw' -> In k (keys kw) /\ exists x, v = ARaw x) ->
  opt_run (tx_update tx) apply_updates params opt (map fst gs) params' opt' ->
  adds add_one (List.length gs) n n' ->
  exists o os o', train_new tx_init asarray h mdef params tx step kw = (h ++ [o], Ok tt) /\
    train_loop tx_update apply_updates add_one (h ++ [o]) (List.length h) gs = (h ++ o :: os, Ok (List.length h + List.length gs)) /\
    List.length os = List.length gs /\ nth_error (h ++ o :: os) (List.length h + List.length gs) = Some o' /\
    train_obj o' mdef params' tx opt' n' /\
    forall k a, dget k kw = Some a -> holds o' k (last_given k (map snd gs) (match a with ARaw v => v | ACont c => c_val c end)).
Proof.
  intros tx_init tx_update apply_updates asarray add_one h mdef params tx step kw opt n gs params' opt' n' TI AS ND KW GS OR AD.
  destruct (train_new_ok tx_init asarray h mdef params tx step kw opt n TI AS ND) as (o & E & T & K & FV).
  { intros k a I. destruct (KW k a I) as (U & W & R). split; [exact U|]. split; [exact W|]. intros J. apply R. cbn in J |- *. tauto. }
  assert (O : nth_error (h ++ [o]) (List.length h) = Some o) by (rewrite nth_error_app2 by lia; now rewrite Nat.sub_diag).
  assert (PK : Forall (plain_kw o) (map snd gs)).
  { apply Forall_forall. intros d I. apply in_map_iff in I as ([g kw'] & <- & I). destruct (GS g kw' I) as [N H]. split; [exact N|].
    intros k v J. destruct (H k v J) as (IK & x & ->). pose proof IK as IK'. apply in_map_iff in IK as ([k' a] & Q & IK). cbn [fst] in Q. subst k'.
    destruct (KW k a IK) as (U & _ & R). split; [exact U|]. split; [exact R|]. split; [|eauto].
    rewrite K. do 6 right. exact IK'. }
  destruct (loop_ok tx_update apply_updates add_one gs (h ++ [o]) (List.length h) o mdef params tx opt n params' opt' n' O T PK OR AD)
    as (os & o' & E' & L & O' & T' & K' & HD).
  assert (IX : (if gs then List.length h else List.length (h ++ [o]) + pred (List.length gs)) = List.length h + List.length gs).
  { destruct gs; cbn [List.length pred]; [lia|]. rewrite app_length. cbn [List.length]. lia. }
  rewrite IX in *. exists o, os, o'.
  replace (h ++ o :: os) with ((h ++ [o]) ++ os) by (rewrite <- app_assoc; reflexivity).
  split; [exact E|]. split; [exact E'|]. split; [exact L|]. split; [exact O'|]. split; [exact T'|].
  intros k a G. apply HD.
  - intros R. exact (proj2 (proj2 (KW k a (dget_In _ _ _ G))) R).
  - pose proof (FV k a G) as F. destruct a as [v|c]; [left; exact F|right; exists c; split; [exact F|reflexivity]].
Qed.
Print Assumptions C65_training.

(** When the optimizer raises, no object is made. *)
Theorem C65_optimizer_raises :
  forall tx_update apply_updates add_one h r o mdef params tx opt step g e,
  nth_error h r = Some o -> train_obj o mdef params tx opt step ->
  (tx_update tx g opt params = Err e \/ exists u opt', tx_update tx g opt params = Ok (u, opt') /\ apply_updates params u = Err e) ->
  apply_gradients tx_update apply_updates add_one h r g [] = (h, Err e).
Proof.
  intros tx_update apply_updates add_one h r o mdef params tx opt step g e O (_ & _ & _ & _ & _ & MD & TX & HP & HO & HS) C.
  unfold apply_gradients. cbn [existsb dmem dget orb].
  rewrite (pread_raw h r o "tx" tx O TX), (pread_node h r o "opt_state" opt O HO), (pread_node h r o "params" params O HP).
  cbn [heval]. destruct C as [C|(u & opt' & C & A)]; rewrite C; cbn [heval]; [reflexivity|]. cbn [fst]. rewrite A. reflexivity.
Qed.
Print Assumptions C65_optimizer_raises.

(** A keyword that is no field is refused, and so is a field the update computes. *)
Theorem C65_unknown :
  forall tx_update apply_updates add_one h r o mdef params tx opt step g kw u opt' params' step',
  nth_error h r = Some o -> train_obj o mdef params tx opt step ->
  tx_update tx g opt params = Ok (u, opt') -> apply_updates params u = Ok params' -> add_one step = Ok step' ->
  (forall k, In k ["self"; "grads"; "params"; "opt_state"; "step"] -> ~ In k (keys kw)) ->
  (exists k, In k (keys kw) /\ ~ In k (keys (p_vars o))) ->
  apply_gradients tx_update apply_updates add_one h r g kw = (h, Err ValueError).
Proof.
  intros tx_update apply_updates add_one h r o mdef params tx opt step g kw u opt' params' step' O
    (PC & _ & _ & _ & _ & MD & TX & HP & HO & HS) TU AU AO NR (k & I & N).
  unfold apply_gradients.
  rewrite existsb_none by (intros n J; apply NR; cbn in J |- *; tauto).
  rewrite (pread_raw h r o "tx" tx O TX), (pread_node h r o "opt_state" opt O HO), (pread_node h r o "params" params O HP).
  cbn [heval]. rewrite TU. cbn [heval fst snd]. rewrite AU. cbn [heval]. rewrite (pread_node h r o "step" step O HS). cbn [heval].
  rewrite AO. cbn [heval].
  rewrite existsb_none by (intros n J; apply NR; cbn in J |- *; tauto).
  apply (replace_unknown h r o); auto.
  - now rewrite PC.
  - unfold immutable. now rewrite PC.
  - exists k. split; [cbn; tauto|exact N].
Qed.
Print Assumptions C65_unknown.
Theorem C65_given_twice :
  forall tx_update apply_updates add_one h r o mdef params tx opt step g kw,
  nth_error h r = Some o -> train_obj o mdef params tx opt step ->
  (exists k, In k ["params"; "opt_state"; "step"] /\ In k (keys kw)) ->
  exists e, apply_gradients tx_update apply_updates add_one h r g kw = (h, Err e) /\
    ((exists u opt' params' step', tx_update tx g opt params = Ok (u, opt') /\ apply_updates params u = Ok params' /\ add_one step = Ok step') ->
     e = TypeError).
Proof.
  intros tx_update apply_updates add_one h r o mdef params tx opt step g kw O (PC & _ & _ & _ & _ & MD & TX & HP & HO & HS) (k & I1 & I2).
  unfold apply_gradients. destruct (existsb _ ["self"; "grads"]); [eauto|].
  assert (X : existsb (fun n => dmem n kw) ["params"; "opt_state"; "step"] = true).
  { apply existsb_exists. exists k. split; [exact I1|]. now apply dmem_In. }
  rewrite X. rewrite (pread_raw h r o "tx" tx O TX), (pread_node h r o "opt_state" opt O HO), (pread_node h r o "params" params O HP).
  cbn [heval]. destruct (tx_update tx g opt params) as [[u opt']|e] eqn:TU; cbn [heval fst snd].
  2:{ exists e. split; [reflexivity|]. intros (? & ? & ? & ? & H & _). discriminate. }
  destruct (apply_updates params u) as [params'|e] eqn:AU; cbn [heval].
  2:{ exists e. split; [reflexivity|]. intros (u' & ? & ? & ? & H & H' & _). injection H as <- _. congruence. }
  rewrite (pread_node h r o "step" step O HS). cbn [heval]. destruct (add_one step) as [step'|e] eqn:AO; cbn [heval]; [eauto|].
  exists e. split; [reflexivity|]. intros (? & ? & ? & ? & _ & _ & H). discriminate.
Qed.
Print Assumptions C65_given_twice.

(** So is a keyword of the constructor that repeats one of its parameters. *)
Theorem C65_new_twice :
  forall tx_init asarray h mdef params tx step kw, (exists k, In k ["self"; "moduledef"; "params"; "tx"; "step"] /\ In k (keys kw)) ->
  train_new tx_init asarray h mdef params tx step kw = (h, Err TypeError).
Proof.
  intros tx_init asarray h mdef params tx step kw (k & I1 & I2). unfold train_new. cbv zeta.
  assert (X : existsb (fun n => dmem n kw) train_params = true) by (apply existsb_exists; exists k; split; [exact I1|now apply dmem_In]).
  rewrite X. reflexivity.
Qed.
Print Assumptions C65_new_twice.

(** [apply]: the name of a field stands for the State it holds. *)
Theorem C65_apply :
  forall as_def as_state A h w r o mdef params tx opt step d args ss (body : world -> nat -> world * result A),
  nth_error h r = Some o -> train_obj o mdef params tx opt step -> as_def mdef = Some d ->
  Forall2 (fun a s => match a with SState s' => s = s' | SName n => exists v, holds o n v /\ as_state v = Some s end) args ss ->
  train_apply as_def as_state h w r args body = mdef_apply w d ss body.
Proof.
  intros as_def as_state A h w r o mdef params tx opt step d args ss body O (_ & _ & _ & _ & _ & MD & _) AD F.
  assert (R : rmapM (resolve as_state h r) args = Ok ss).
  { induction F as [|a s args ss H F IH]; [reflexivity|]. cbn [rmapM]. rewrite IH.
    destruct a as [n|s']; [|subst s'; reflexivity]. destruct H as (v & H & S). cbn [resolve]. rewrite (pread_holds h r o n v O H). cbn [rbind].
    rewrite S. reflexivity. }
  unfold train_apply. rewrite (pread_raw h r o "moduledef" mdef O MD). cbn [rbind]. rewrite R. cbn [rbind]. now rewrite AD.
Qed.
Print Assumptions C65_apply.
(** A name that is no field raises before anything is built. *)
Theorem C65_apply_unknown :
  forall as_def as_state A h w r o mdef params tx opt step args n (body : world -> nat -> world * result A),
  nth_error h r = Some o -> train_obj o mdef params tx opt step ->
  (exists ss rest, args = map SState ss ++ SName n :: rest) -> ~ In n (keys (p_vars o)) ->
  train_apply as_def as_state h w r args body = (w, Err AttributeError).
Proof.
  intros as_def as_state A h w r o mdef params tx opt step args n body O (_ & _ & _ & _ & _ & MD & _) (ss & rest & ->) N.
  unfold train_apply. rewrite (pread_raw h r o "moduledef" mdef O MD). cbn [rbind].
  assert (R : rmapM (resolve as_state h r) (map SState ss ++ SName n :: rest) = Err AttributeError).
  { induction ss as [|s ss IH]; cbn [map app rmapM resolve rbind].
    - unfold pread, pgetattr. rewrite O. apply dget_None in N. rewrite N. reflexivity.
    - rewrite IH. reflexivity. }
  rewrite R. reflexivity.
Qed.
Print Assumptions C65_apply_unknown.

(** *** as a jax pytree *)
(** Parameters, optimizer state and step are among the leaves; the ModuleDef, the
    optimizer and other fields that are no nodes are static; unflattening gives the
    TrainState back. *)
Theorem C65_leaves :
  forall o mdef params tx opt step, train_obj o mdef params tx opt step ->
  is_node_t (TVal mdef) = false -> is_node_t (TVal tx) = false -> params <> PyNone -> opt <> PyNone -> step <> PyNone ->
  exists ls ds st t', flatten (tree_of o) = Ok (ls, DObj TrainState_cls ds st) /\
    In (TVal params) ls /\ In (TVal opt) ls /\ In (TVal step) ls /\
    dget "moduledef" st = Some (TVal mdef) /\ dget "tx" st = Some (TVal tx) /\
    (forall n f, dget n (p_vars o) = Some f -> is_node_t (tree_of_field f) = false -> dget n st = Some (tree_of_field f)) /\
    (forall n f l d, dget n (p_vars o) = Some f -> is_node_t (tree_of_field f) = true -> flatten (tree_of_field f) = Ok (l, d) -> incl l ls) /\
    unflatten (DObj TrainState_cls ds st) ls = Ok (t', []) /\ same_tree (tree_of o) t'.
Proof.
  intros o mdef params tx opt step (PC & WF & SE & FS & ON & MD & TX & HP & HO & HS) NM NT P1 P2 P3.
  destruct (train_flatten o WF FS) as (ls & ds & st & F & G & NS & NDS & KK).
  assert (ST : forall n f, dget n (p_vars o) = Some f -> is_node_t (tree_of_field f) = false -> dget n st = Some (tree_of_field f)).
  { intros n f D N. apply dget_In_keys in D as I. apply KK in I as [I|I].
    - apply in_map_iff in I as ([n' d'] & Q & I). cbn [fst] in Q. subst n'.
      destruct (gathers_ds _ _ _ _ _ _ G n d' I) as (x & l & X & S & _). rewrite D in X. cbn [option_map] in X. injection X as <-. congruence.
    - apply in_map_iff in I as ([n' x] & Q & I). cbn [fst] in Q. subst n'.
      destruct (gathers_st _ _ _ _ _ _ G n x I) as [X _]. rewrite D in X. cbn [option_map] in X. injection X as <-. now apply In_dget. }
  assert (LS : forall n f l d, dget n (p_vars o) = Some f -> is_node_t (tree_of_field f) = true -> flatten (tree_of_field f) = Ok (l, d) -> incl l ls).
  { intros n f l d D N FL. apply dget_In_keys in D as I. apply KK in I as [I|I].
    - apply in_map_iff in I as ([n' d'] & Q & I). cbn [fst] in Q. subst n'.
      destruct (gathers_ds _ _ _ _ _ _ G n d' I) as (x & l' & X & S & E & IN). rewrite D in X. cbn [option_map] in X. injection X as <-.
      rewrite FL in E. injection E as <- <-. exact IN.
    - apply in_map_iff in I as ([n' x] & Q & I). cbn [fst] in Q. subst n'.
      destruct (gathers_st _ _ _ _ _ _ G n x I) as [X S]. rewrite D in X. cbn [option_map] in X. injection X as <-. congruence. }
  assert (ND : forall n v, holds_node o n v -> v <> PyNone -> In (TVal v) ls).
  { intros n v (c & D & C1 & C2 & C3) NV. assert (I : incl [TVal v] ls).
    { apply (LS n _ [TVal v] (DBox TreeNode_cls [] DLeaf) D).
      - cbn [tree_of_field]. rewrite C1. reflexivity.
      - cbn [tree_of_field]. rewrite C1, C2, C3. destruct v; [congruence|reflexivity..]. }
    apply I. now left. }
  destruct (wf_round (tree_of o) (wf_train_tree o WF FS ON)) as (ls0 & d0 & F0 & LF & R). rewrite F in F0. injection F0 as <- <-.
  assert (K : Forall2 same_kind ls ls).
  { clear - LF. induction LF; constructor; auto. split; [assumption|]. split; reflexivity. }
  destruct (R ls [] K) as (t' & U & _ & _ & _ & _ & S). rewrite app_nil_r in U.
  rewrite PC in *. exists ls, ds, st, t'. split; [exact F|]. split; [eauto|]. split; [eauto|]. split; [eauto|].
  split; [exact (ST _ _ MD NM)|]. split; [exact (ST _ _ TX NT)|]. split; [exact ST|]. split; [exact LS|]. split; [exact U|]. now apply S.
Qed.
Print Assumptions C65_leaves.

(** An update does not change the treedef, so a compiled training step is not traced
    again. *)
Theorem C65_same_treedef :
  forall tx_update apply_updates add_one h r o mdef params tx opt step g u opt' params' step' ls d,
  nth_error h r = Some o -> train_obj o mdef params tx opt step ->
  tx_update tx g opt params = Ok (u, opt') -> apply_updates params u = Ok params' -> add_one step = Ok step' ->
  Forall (fun v => v <> PyNone) [params; opt; step; params'; opt'; step'] ->
  flatten (tree_of o) = Ok (ls, d) ->
  exists o' ls', apply_gradients tx_update apply_updates add_one h r g [] = (h ++ [o'], Ok tt) /\
                 flatten (tree_of o') = Ok (ls', d).
Proof.
  intros tx_update apply_updates add_one h r o mdef params tx opt step g u opt' params' step' ls d O T TU AU AO NN FL.
  destruct (step_ok tx_update apply_updates add_one h r o mdef params tx opt step g [] u opt' params' step' O T) as (o' & E & T' & K & FR & _); auto.
  { split; [constructor|intros k v []]. }
  exists o'. destruct T as (PC & WF & SE & FS & ON & MD & TX & HP & HO & HS). destruct T' as (PC' & WF' & SE' & FS' & ON' & MD' & TX' & HP' & HO' & HS').
  destruct (train_flatten o WF FS) as (ls0 & ds & st & F & G & _). rewrite FL in F. injection F as <- ->.
  destruct (train_flatten o' WF' FS') as (ls' & ds' & st' & F' & G' & _). exists ls'. split; [exact E|]. rewrite F'.
  rewrite (sort_keys_ext2 (p_vars o') (p_vars o) K) in G'.
  destruct (gathers_def _ _ _ _ _ _ _ G _ _ _ G') as [-> ->]; [|congruence].
  intros n x y _ GX GY. cbn beta in GX, GY.
  repeat match goal with H : Forall _ (_ :: _) |- _ => inversion H; clear H; subst end.
  assert (ND : forall v v' m, holds_node o m v -> holds_node o' m v' -> v <> PyNone -> v' <> PyNone -> n = m ->
            is_node_t x = is_node_t y /\ (is_node_t x = false -> x = y) /\
            (is_node_t x = true -> exists l l' d, flatten x = Ok (l, d) /\ flatten y = Ok (l', d))).
  { intros v v' m (c & D & C1 & C2 & C3) (c' & D' & C1' & C2' & C3') NV NV' ->. rewrite D in GX. rewrite D' in GY. cbn in GX, GY.
    injection GX as <-. injection GY as <-. rewrite C1, C1', C2, C2', C3, C3'. split; [reflexivity|]. split; [discriminate|]. intros _.
    exists [TVal v], [TVal v'], (DBox TreeNode_cls [] DLeaf). split; [destruct v; [congruence|reflexivity..]|destruct v'; [congruence|reflexivity..]]. }
  destruct (string_dec n "params") as [Q1|Q1]; [eapply (ND params params'); eauto|].
  destruct (string_dec n "opt_state") as [Q2|Q2]; [eapply (ND opt opt'); eauto|].
  destruct (string_dec n "step") as [Q3|Q3]; [eapply (ND step step'); eauto|].
  rewrite FR in GY; [|intros []|cbn; intros [J|[J|[J|[]]]]; congruence]. rewrite GX in GY. injection GY as <-.
  split; [reflexivity|]. split; [reflexivity|]. intros _. destruct (dget n (p_vars o)) as [f|]; [|discriminate]. injection GX as <-.
  destruct (field_flat f) as (l & d & EF). eauto.
Qed.
Print Assumptions C65_same_treedef.

(** *** A concrete case: an optimizer that adds, with a count as its state. *)
Definition ex_init (tx p : pyval) : result pyval := Ok (PyInt 0).
Definition ex_update (tx g s p : pyval) : result (pyval * pyval) :=
  match g, s with PyInt g, PyInt s => Ok (PyInt g, PyInt (s + 10)) | _, _ => Err TypeError end.
Definition ex_apply (p u : pyval) : result pyval :=
  match p, u with PyInt p, PyInt u => Ok (PyInt (p + u)) | _, _ => Err TypeError end.
Definition ex_asarray (v : pyval) : result pyval := Ok v.
Definition ex_add (v : pyval) : result pyval := match v with PyInt z => Ok (PyInt (z + 1)) | _ => Err TypeError end.
Definition ex_kw : dict attr :=
  [("batch_stats", ARaw (PyObj ["State"; "object"] 7)); ("other", ACont (mkCont Node_cls [] (PyInt 100))); ("int", ARaw (PyInt 200))].
Definition ex_def : pyval := PyObj ["ModuleDef"; "object"] 1.
Definition ex_tx : pyval := PyObj ["GradientTransformation"; "object"] 2.
Definition ex_gs : list (pyval * dict attr) :=
  [(PyInt 5, []); (PyInt 7, [("batch_stats", ARaw (PyObj ["State"; "object"] 8))]); (PyInt 9, [("other", ARaw (PyInt 101))])].
Example C65_example :
  opt_run (ex_update ex_tx) ex_apply (PyInt 1) (PyInt 0) (map fst ex_gs) (PyInt 22) (PyInt 30) /\
  adds ex_add 3 (PyInt 0) (PyInt 3) /\
  (let '(h, _) := train_new ex_init ex_asarray [] ex_def (PyInt 1) ex_tx (PyInt 0) ex_kw in
   let '(h, res) := train_loop ex_update ex_apply ex_add h 0 ex_gs in
   res = Ok 3 /\ List.length h = 4 /\ pread h 3 "params" = Ok (PyInt 22) /\ pread h 0 "params" = Ok (PyInt 1) /\
   pread h 3 "step" = Ok (PyInt 3) /\ pread h 3 "batch_stats" = Ok (PyObj ["State"; "object"] 8) /\
   pread h 3 "other" = Ok (PyInt 101) /\ pread h 3 "int" = Ok (PyInt 200) /\
   (exists o ds, nth_error h 3 = Some o /\
      flatten (tree_of o) = Ok ([TVal (PyObj ["State"; "object"] 8); TVal (PyInt 30); TVal (PyInt 101); TVal (PyInt 22); TVal (PyInt 3)],
        DObj TrainState_cls ds [(F_SORTED, TNames [F_SORTED; "batch_stats"; "int"; "moduledef"; "opt_state"; "other"; "params"; "step"; "tx"]);
                                ("int", TVal (PyInt 200)); ("moduledef", TVal ex_def); ("tx", TVal ex_tx)]))).
Proof.
  split; [|split].
  - econstructor; [reflexivity..|]. econstructor; [reflexivity..|]. econstructor; [reflexivity..|]. constructor.
  - econstructor; [reflexivity|]. econstructor; [reflexivity|]. econstructor; [reflexivity|]. constructor.
  - vm_compute. repeat split. do 2 eexists. split; reflexivity.
Qed.
