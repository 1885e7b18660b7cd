(** Prop_TsSave: C111, a TrainState kept in a file with flax.serialization and taken up by
    another process.  [to_dict] and [from_dict] are flax's [to_state_dict] and
    [from_state_dict] on the values of the fields. *)
From Coq Require Import Lia ZArith.
From Verif Require Import PyBase PyBaseFacts ValuesM Spec_Eq ValuesFacts FiltersM StateM ModuleM PureM TransformM GradFunM JitCacheM TrainLoopM
  Spec_Module Spec_Prog Spec_GradFun Spec_Functional Spec_TrainLoop
  Graph_facts Dfs_proofs Bisim_proofs Clone_proofs Transform_proofs Functional_proofs GradFun_proofs Prop_Transform Prop_GradFun TrainLoop_proofs Ex_Module Prop_TrainLoop
  PytreeM Spec_Pytree PtreeM TrainM Spec_Train Train_proofs TsLoopM Spec_TsLoop TsLoop_proofs Prop_TsLoop TsSaveM Spec_TsSave TsSave_proofs TsSave2_proofs Ex_Serial.
Local Open Scope string_scope.
Local Open Scope list_scope.

(** *** C111 *)
(** What comes back, for every Pytree class that is no dataclass.  The new object has the
    fields of the object that is restored into; those that are no nodes are unchanged. *)
Theorem C111_restore :
  forall to_dict from_dict h1 r1 o1 st h2 r2 o2,
  nth_error h1 r1 = Some o1 -> NoDup (keys (p_vars o1)) -> save to_dict h1 r1 = Ok st ->
  nth_error h2 r2 = Some o2 -> k_fields (p_class o2) = None -> wf_fields o2 -> sealed o2 -> same_nodes o1 o2 ->
  (forall n v0 f v s, node_at o2 n (FAttr (ARaw v0)) -> node_at o1 n f -> field_value f = Some v -> to_dict v = Ok s -> exists x, from_dict v0 s = Ok x) ->
  exists o, restore from_dict h2 r2 st = (h2 ++ [o], Ok tt) /\ p_class o = p_class o2 /\ keys (p_vars o) = keys (p_vars o2) /\
    (forall n f, dget n (p_vars o2) = Some f -> node_field f = false -> dget n (p_vars o) = Some f) /\
    (forall n f1 f2, node_at o1 n f1 -> node_at o2 n f2 -> exists f, dget n (p_vars o) = Some f /\ comes_back to_dict from_dict f1 f2 f).
Proof. exact restore_ok. Qed.
Print Assumptions C111_restore.

(** A file that lacks a node field of the object, or has a name the object has no node
    field for, is refused (with ValueError, unless flax itself raises first), and nothing
    has been made. *)
Theorem C111_mismatch :
  forall from_dict h r o st,
  nth_error h r = Some o -> NoDup (keys (p_vars o)) -> NoDup (keys st) ->
  ((exists n f, node_at o n f /\ ~ In n (keys st)) \/ (exists n, In n (keys st) /\ forall f, ~ node_at o n f)) ->
  exists e, restore from_dict h r st = (h, Err e) /\ ((forall v0 s, exists x, from_dict v0 s = Ok x) -> e = ValueError).
Proof. exact restore_mismatch. Qed.
Print Assumptions C111_mismatch.

(** The optimizer state, the step and the Params of a TrainState are in containers: what
    comes back there is what flax made of them when they were saved.  If that is another
    value (a dict instead of a tuple, say), the optimizer gets the wrong one. *)
Theorem C111_opt_state :
  forall to_dict from_dict h1 r1 o1 h2 r2 o2 m1 p1 t1 q1 n1 b1 m2 p2 t2 q2 n2 b2 sp sq sn sb b st,
  nth_error h1 r1 = Some o1 -> ts_obj o1 m1 p1 t1 q1 n1 b1 -> nth_error h2 r2 = Some o2 -> ts_obj o2 m2 p2 t2 q2 n2 b2 ->
  plain m1 -> plain t1 -> plain m2 -> plain t2 -> ~ plain b1 -> ~ plain b2 ->
  to_dict p1 = Ok sp -> to_dict q1 = Ok sq -> to_dict n1 = Ok sn -> to_dict b1 = Ok sb -> from_dict b2 sb = Ok b -> save to_dict h1 r1 = Ok st ->
  exists o, restore from_dict h2 r2 st = (h2 ++ [o], Ok tt) /\ ts_obj o m2 sp t2 sq sn b /\
    (sq <> q1 -> ~ holds o "opt_state" q1) /\
    forall tx_update apply_updates add_one g e, tx_update t2 g sq sp = Err e ->
      apply_gradients tx_update apply_updates add_one (h2 ++ [o]) (List.length h2) g [] = (h2 ++ [o], Err e).
Proof.
  intros to_dict from_dict h1 r1 o1 h2 r2 o2 m1 p1 t1 q1 n1 b1 m2 p2 t2 q2 n2 b2 sp sq sn sb b st O1 T1 O2 T2 A1 A2 A3 A4 A5 A6 E1 E2 E3 E4 E5 SV.
  destruct (ts_restore to_dict from_dict h1 r1 o1 h2 r2 o2 m1 p1 t1 q1 n1 b1 m2 p2 t2 q2 n2 b2 sp sq sn sb b st) as (o & R & T); auto.
  exists o. split; [exact R|]. split; [exact T|]. pose proof T as ((_ & _ & _ & _ & _ & MD & TX & HP & HO & HS) & _ & _). split.
  - intros NE [G|(c & G & CV)]; destruct HO as (c' & G' & _ & _ & CV'); congruence.
  - intros tx_update apply_updates add_one g e U. assert (O : nth_error (h2 ++ [o]) (List.length h2) = Some o) by (rewrite nth_error_app2 by lia; now rewrite Nat.sub_diag).
    unfold apply_gradients. cbn [existsb dmem dget orb]. rewrite (pread_raw _ _ o "tx" t2 O TX), (pread_node _ _ o "opt_state" sq O HO), (pread_node _ _ o "params" sp O HP).
    cbn [heval]. rewrite U. reflexivity.
Qed.
Print Assumptions C111_opt_state.

(** Interrupted training, with every value restored by flax from the value of the same
    field and put in with [replace]: in the second process (another world, other random
    Params, its own optimizer object) training ends as without interruption.  Flax is
    asked to give the optimizer state and the step back; States it leaves as they are. *)
Theorem C111_by_hand :
  forall tx_init tx_update apply_updates asarray add_one as_def as_state (of_state : state -> pyval) to_dict from_dict,
  (forall s, as_state (of_state s) = Some s) -> (forall s, ~ plain (of_state s)) ->
  (forall s, to_dict (of_state s) = Ok (of_state s)) -> (forall s0 s, from_dict (of_state s0) (of_state s) = Ok (of_state s)) ->
  forall (D : grad_op) r w tx opt l1 wm optm l2 wd optd params buffers d mdef step n nm nd h t v mdef2 params2 buffers2 tx2 opt2 step2 n2 h2 t2 sq sn,
  differentiates D -> wf_world w -> r < List.length (w_heap w) -> names_ok w r -> live w r -> In "jax.Array" (w_nodes w) ->
  module_partition w r [FType "Param"; FEllipsis] = Ok (mkPure (Many [params; buffers]) d) -> as_def mdef = Some d -> plain mdef -> plain tx ->
  tx_init tx (of_state params) = Ok opt -> asarray step = Ok n -> adds add_one (List.length l1) n nm -> adds add_one (List.length l2) nm nd ->
  optimized (tx_update tx) apply_updates of_state D r w opt l1 wm optm -> optimized (tx_update tx) apply_updates of_state D r wm optm l2 wd optd ->
  wf_world v -> w_nodes v = w_nodes w -> as_def mdef2 = Some d -> (forall g s p, tx_update tx2 g s p = tx_update tx g s p) ->
  tx_init tx2 (of_state params2) = Ok opt2 -> asarray step2 = Ok n2 ->
  to_dict optm = Ok sq -> from_dict opt2 sq = Ok optm -> to_dict nm = Ok sn -> from_dict n2 sn = Ok nm ->
  exists o os w1 q1 st o2 o3 os3 v' q' o' os4 w2 q4 o4 params' buffers',
    train_new tx_init asarray h mdef (of_state params) tx step [("buffers", ARaw (of_state buffers))] = (h ++ [o], Ok tt) /\
    ts_loop tx_update apply_updates add_one as_def as_state of_state t D (map user_fun l1) (h ++ [o]) w (List.length h) = (h ++ o :: os, w1, Ok q1) /\
    save to_dict (h ++ o :: os) q1 = Ok st /\
    train_new tx_init asarray h2 mdef2 (of_state params2) tx2 step2 [("buffers", ARaw (of_state buffers2))] = (h2 ++ [o2], Ok tt) /\
    reload from_dict (h2 ++ [o2]) (List.length h2) st = ((h2 ++ [o2]) ++ [o3], Ok tt) /\
    ts_loop tx_update apply_updates add_one as_def as_state of_state t2 D (map user_fun l2) ((h2 ++ [o2]) ++ [o3]) v (List.length (h2 ++ [o2])) =
      (((h2 ++ [o2]) ++ [o3]) ++ os3, v', Ok q') /\
    nth_error (((h2 ++ [o2]) ++ [o3]) ++ os3) q' = Some o' /\
    ts_loop tx_update apply_updates add_one as_def as_state of_state t D (map user_fun (l1 ++ l2)) (h ++ [o]) w (List.length h) = (h ++ o :: os4, w2, Ok q4) /\
    nth_error (h ++ o :: os4) q4 = Some o4 /\
    module_partition wd r [FType "Param"; FEllipsis] = Ok (mkPure (Many [params'; buffers']) d) /\
    ts_obj o' mdef2 (of_state params') tx2 optd nd (of_state buffers') /\ ts_obj o4 mdef (of_state params') tx optd nd (of_state buffers') /\
    all_unchanged v v' /\ w_trace v' = w_trace v.
Proof.
  intros tx_init tx_update apply_updates asarray add_one as_def as_state of_state to_dict from_dict AS NP TS FS D r w tx opt l1 wm optm l2 wd optd params buffers d mdef step n nm nd h t v mdef2 params2 buffers2 tx2 opt2 step2 n2 h2 t2 sq sn
    HD W V N L J Hp DF PM PT TI AA A1 A2 T1 T2 Wv Nv DF2 EX TI2 AA2 Q1 Q2 S1 S2.
  destruct (trains tx_init tx_update apply_updates asarray add_one as_def as_state of_state AS D r tx w opt l1 wm optm w params buffers (of_state params) d mdef step n nm h t)
    as (o & os & w1 & q1 & o1 & a1 & b1 & E1 & L1 & O1 & P1 & TO1 & Wm & Vm & Nm & Lm & Nwm); auto.
  pose proof (optimized_app _ _ _ _ _ _ _ _ _ _ T1 _ _ _ T2) as T12. assert (A12 : adds add_one (List.length (l1 ++ l2)) n nd) by (rewrite app_length; eapply adds_app; eauto).
  destruct (trains tx_init tx_update apply_updates asarray add_one as_def as_state of_state AS D r tx w opt (l1 ++ l2) wd optd w params buffers (of_state params) d mdef step n nd h t)
    as (oz & os4 & w2 & q4 & o4 & a4 & b4 & Ez & L4 & O4 & P4 & TO4 & _); auto.
  assert (oz = o). { rewrite E1 in Ez. injection Ez as Ez. now apply app_inv_head in Ez; injection Ez as <-. } subst oz.
  destruct (ts_save to_dict from_dict (h ++ o :: os) q1 o1 mdef (of_state a1) tx optm nm (of_state b1) _ _ _ _ O1 TO1 PM PT (TS a1) Q1 S1 (TS b1)) as (st & SV).
  destruct (train_new_ok tx_init asarray h2 mdef2 (of_state params2) tx2 step2 [("buffers", ARaw (of_state buffers2))] opt2 n2 TI2 AA2) as (o2 & E2 & TO2 & K2 & FV2).
  { repeat constructor. intros []. }
  { intros k a [[= <- <-]|[]]. split; [reflexivity|]. split; [exact Logic.I|]. cbn. intros H. repeat (destruct H as [H|H]; [discriminate|]). exact H. }
  assert (TS2 : ts_obj o2 mdef2 (of_state params2) tx2 opt2 n2 (of_state buffers2)) by (split; [exact TO2|]; split; [now apply FV2|exact K2]).
  assert (O2 : nth_error (h2 ++ [o2]) (List.length h2) = Some o2) by (rewrite nth_error_app2 by lia; now rewrite Nat.sub_diag).
  destruct (ts_reload to_dict from_dict _ _ _ _ _ _ _ _ _ _ _ _ _ _ _ _ _ _ _ _ _ _ _ _ _ _ _ O1 TO1 O2 TS2 PM PT (NP b1) (TS a1) Q1 S1 (TS b1) (FS params2 a1) Q2 S2 (FS buffers2 b1) SV) as (o3 & R3 & TO3).
  assert (O3 : nth_error ((h2 ++ [o2]) ++ [o3]) (List.length (h2 ++ [o2])) = Some o3) by (rewrite nth_error_app2 by lia; now rewrite Nat.sub_diag).
  assert (Jm : In "jax.Array" (w_nodes wm)) by now rewrite Nwm.
  destruct (goes_on tx_update apply_updates add_one as_def as_state of_state AS D r tx tx2 wm optm l2 wd optd v a1 b1 d mdef2 nm nd _ _ o3 t2 HD Wm Vm Nm Lm Jm Wv (eq_trans Nv (eq_sym Nwm)) P1 DF2 EX A2 T2 O3 TO3)
    as (os3 & v' & q' & o' & a' & b' & E3 & O' & P' & TO' & U & TR).
  assert (a' = a4 /\ b' = b4) as [-> ->] by (rewrite P' in P4; injection P4 as -> ->; auto).
  exists o, os, w1, q1, st, o2, o3, os3, v', q', o', os4, w2, q4, o4, a4, b4. auto 20.
Qed.
Print Assumptions C111_by_hand.

(** With [from_state_dict(ts, state)] itself the same holds if flax leaves the optimizer
    state and the step as they are when they are saved (not the case for the tuples of
    optax). *)
Theorem C111_resume_partial :
  forall tx_init tx_update apply_updates asarray add_one as_def as_state (of_state : state -> pyval) to_dict from_dict,
  (forall s, as_state (of_state s) = Some s) -> (forall s, ~ plain (of_state s)) ->
  (forall s, to_dict (of_state s) = Ok (of_state s)) -> (forall s0 s, from_dict (of_state s0) (of_state s) = Ok (of_state s)) ->
  forall (D : grad_op) r w tx opt l1 wm optm l2 wd optd params buffers d mdef step n nm nd h t v mdef2 params2 buffers2 tx2 opt2 step2 n2 h2 t2,
  differentiates D -> wf_world w -> r < List.length (w_heap w) -> names_ok w r -> live w r -> In "jax.Array" (w_nodes w) ->
  module_partition w r [FType "Param"; FEllipsis] = Ok (mkPure (Many [params; buffers]) d) -> as_def mdef = Some d -> plain mdef -> plain tx ->
  tx_init tx (of_state params) = Ok opt -> asarray step = Ok n -> adds add_one (List.length l1) n nm -> adds add_one (List.length l2) nm nd ->
  optimized (tx_update tx) apply_updates of_state D r w opt l1 wm optm -> optimized (tx_update tx) apply_updates of_state D r wm optm l2 wd optd ->
  wf_world v -> w_nodes v = w_nodes w -> as_def mdef2 = Some d -> plain mdef2 -> plain tx2 -> (forall g s p, tx_update tx2 g s p = tx_update tx g s p) ->
  tx_init tx2 (of_state params2) = Ok opt2 -> asarray step2 = Ok n2 ->
  to_dict optm = Ok optm -> to_dict nm = Ok nm ->
  exists o os w1 q1 st o2 o3 os3 v' q' o' params' buffers',
    train_new tx_init asarray h mdef (of_state params) tx step [("buffers", ARaw (of_state buffers))] = (h ++ [o], Ok tt) /\
    ts_loop tx_update apply_updates add_one as_def as_state of_state t D (map user_fun l1) (h ++ [o]) w (List.length h) = (h ++ o :: os, w1, Ok q1) /\
    save to_dict (h ++ o :: os) q1 = Ok st /\
    train_new tx_init asarray h2 mdef2 (of_state params2) tx2 step2 [("buffers", ARaw (of_state buffers2))] = (h2 ++ [o2], Ok tt) /\
    restore from_dict (h2 ++ [o2]) (List.length h2) st = ((h2 ++ [o2]) ++ [o3], Ok tt) /\
    ts_loop tx_update apply_updates add_one as_def as_state of_state t2 D (map user_fun l2) ((h2 ++ [o2]) ++ [o3]) v (List.length (h2 ++ [o2])) =
      (((h2 ++ [o2]) ++ [o3]) ++ os3, v', Ok q') /\
    nth_error (((h2 ++ [o2]) ++ [o3]) ++ os3) q' = Some o' /\
    module_partition wd r [FType "Param"; FEllipsis] = Ok (mkPure (Many [params'; buffers']) d) /\
    ts_obj o' mdef2 (of_state params') tx2 optd nd (of_state buffers') /\
    all_unchanged v v' /\ w_trace v' = w_trace v.
Proof.
  intros tx_init tx_update apply_updates asarray add_one as_def as_state of_state to_dict from_dict AS NP TS FS D r w tx opt l1 wm optm l2 wd optd params buffers d mdef step n nm nd h t v mdef2 params2 buffers2 tx2 opt2 step2 n2 h2 t2
    HD W V N L J Hp DF PM PT TI AA A1 A2 T1 T2 Wv Nv DF2 PM2 PT2 EX TI2 AA2 Q1 S1.
  destruct (trains tx_init tx_update apply_updates asarray add_one as_def as_state of_state AS D r tx w opt l1 wm optm w params buffers (of_state params) d mdef step n nm h t)
    as (o & os & w1 & q1 & o1 & a1 & b1 & E1 & L1 & O1 & P1 & TO1 & Wm & Vm & Nm & Lm & Nwm); auto.
  destruct (ts_save to_dict from_dict (h ++ o :: os) q1 o1 mdef (of_state a1) tx optm nm (of_state b1) _ _ _ _ O1 TO1 PM PT (TS a1) Q1 S1 (TS b1)) as (st & SV).
  destruct (train_new_ok tx_init asarray h2 mdef2 (of_state params2) tx2 step2 [("buffers", ARaw (of_state buffers2))] opt2 n2 TI2 AA2) as (o2 & E2 & TO2 & K2 & FV2).
  { repeat constructor. intros []. }
  { intros k a [[= <- <-]|[]]. split; [reflexivity|]. split; [exact Logic.I|]. cbn. intros H. repeat (destruct H as [H|H]; [discriminate|]). exact H. }
  assert (TS2 : ts_obj o2 mdef2 (of_state params2) tx2 opt2 n2 (of_state buffers2)) by (split; [exact TO2|]; split; [now apply FV2|exact K2]).
  assert (O2 : nth_error (h2 ++ [o2]) (List.length h2) = Some o2) by (rewrite nth_error_app2 by lia; now rewrite Nat.sub_diag).
  destruct (ts_restore to_dict from_dict _ _ _ _ _ _ _ _ _ _ _ _ _ _ _ _ _ _ _ _ _ _ _ _ O1 TO1 O2 TS2 PM PT PM2 PT2 (NP b1) (NP buffers2) (TS a1) Q1 S1 (TS b1) (FS buffers2 b1) SV) as (o3 & R3 & TO3).
  assert (O3 : nth_error ((h2 ++ [o2]) ++ [o3]) (List.length (h2 ++ [o2])) = Some o3) by (rewrite nth_error_app2 by lia; now rewrite Nat.sub_diag).
  assert (Jm : In "jax.Array" (w_nodes wm)) by now rewrite Nwm.
  destruct (goes_on tx_update apply_updates add_one as_def as_state of_state AS D r tx tx2 wm optm l2 wd optd v a1 b1 d mdef2 nm nd _ _ o3 t2 HD Wm Vm Nm Lm Jm Wv (eq_trans Nv (eq_sym Nwm)) P1 DF2 EX A2 T2 O3 TO3)
    as (os3 & v' & q' & o' & a' & b' & E3 & O' & P' & TO' & U & TR).
  exists o, os, w1, q1, st, o2, o3, os3, v', q', o', a', b'. auto 20.
Qed.
Print Assumptions C111_resume_partial.

(** *** Cases *)
(** flax: a tuple becomes a dict, written as an object of class dict with the words of its
    entries, and comes back from it; other values are left alone. *)
Definition fx_to (v : pyval) : result pyval := match v with PyTuple _ => Ok (PyObj ("dict" :: write v) 0) | _ => Ok v end.
Definition fx_from (target s : pyval) : result pyval :=
  match target, s with
  | PyTuple _, PyObj (_ :: l) _ => match read (List.length l) l with Some (x, _) => Ok x | None => Err ValueError end
  | PyTuple _, _ => Err ValueError
  | _, _ => Ok s
  end.
(** Momentum; the state of the optimizer is a tuple, as those of optax are. *)
Definition om_init (tx p : pyval) : result pyval :=
  match dec_state p with Some s => Ok (PyTuple [enc_state (map (fun ka => (fst ka, with_value (snd ka) (PyObj Array_cls 0))) s)]) | None => Err TypeError end.
Definition om_update (tx g s p : pyval) : result (pyval * pyval) :=
  match s with
  | PyTuple [m] => match dec_state g, dec_state m with Some g, Some m => Ok (enc_state (plus2 m g), PyTuple [enc_state (plus2 m g)]) | _, _ => Err TypeError end
  | _ => Err AttributeError
  end.
Definition om_apply (p u : pyval) : result pyval := match dec_state p, dec_state u with Some p, Some u => Ok (enc_state (plus2 p u)) | _, _ => Err TypeError end.
Definition tx1 : pyval := PyObj ["GradientTransformation"; "object"] 9.
Definition def1 : pyval := PyObj ["ModuleDef"; "object"] 8.

Lemma om_step w f w1 w2 diff us l w3 out u opt opt1 opt3 :
  ok_prog f -> module_filter w 0 (FType "Param") [] = Ok (One diff) -> run f w [0] = (w1, Ok out) ->
  forallb (fun ka => match snd ka with ACont _ => true | _ => false end) diff = true ->
  names_okb w1 = true -> get_module_def w1 0 = get_module_def w 0 ->
  module_filter w1 0 (FType "Param") [] = module_filter w 0 (FType "Param") [] ->
  (exists s s1, get_state w 0 = Ok s /\ get_state w1 0 = Ok s1 /\ Forall2 (fun x y => fst x = fst y /\ same_shape (snd x) (snd y)) s s1 /\
     forallb (fun ka => Bool.eqb (isinstance (snd ka) "Param") (negb (isinstance (snd ka) "jax.Array" || isinstance (snd ka) "numpy.ndarray"))) s1 = true) ->
  om_update tx0 (enc_state (derivatives (quotient (loss_with false f w 0) diff) diff)) opt (enc_state diff) = Ok (u, opt1) ->
  dec_state u = Some us -> in_place diff (plus2 diff us) ->
  update_state w1 0 (UStates (One (plus2 diff us))) = (w2, Ok tt) ->
  optimized (om_update tx0) om_apply enc_state quotient 0 w2 opt1 l w3 opt3 -> optimized (om_update tx0) om_apply enc_state quotient 0 w opt (f :: l) w3 opt3.
Proof.
  intros Hf Hd Hr Bd Hn Hdef Hpa (s & s1 & G & G1 & F & B) TU AU IP Hu T. eapply op_step; eauto.
  - intros k a Ha. apply dget_In in Ha. rewrite forallb_forall in Bd. specialize (Bd _ Ha). cbn in Bd. destruct a; [discriminate|eauto].
  - split; [now apply names_okb_ok|]. split; [exact Hdef|]. intros a b Ha Hb. congruence.
  - split; [exact Hpa|]. intros z k a Hz Ha. rewrite G1 in Hz. injection Hz as <-. rewrite forallb_forall in B. apply dget_In in Ha. specialize (B _ Ha). cbn in B. now apply Bool.eqb_prop in B.
  - unfold om_apply. now rewrite dec_enc_state, AU.
Qed.
Ltac om_step := eapply om_step;
  [apply ex_batch_ok|vm_compute; reflexivity|vm_compute; reflexivity|reflexivity|vm_compute; reflexivity|vm_compute; reflexivity|vm_compute; reflexivity
  |eexists _, _; split; [vm_compute; reflexivity|]; split; [vm_compute; reflexivity|]; split; [repeat constructor|vm_compute; reflexivity]
  |vm_compute; reflexivity|vm_compute; reflexivity|repeat constructor|vm_compute; reflexivity|].
Lemma enc_not_plain s : ~ plain (enc_state s).
Proof.
  unfold plain, is_node. intros H. assert (existsb (isinstance (ARaw (enc_state s))) default_node_types = true); [|congruence].
  apply existsb_exists. exists "State". split; [cbn; auto 6|reflexivity].
Qed.
Example C111_hyps :
  (forall s, dec_state (enc_state s) = Some s) /\ (forall s, ~ plain (enc_state s)) /\ (forall s, fx_to (enc_state s) = Ok (enc_state s)) /\ (forall s0 s, fx_from (enc_state s0) (enc_state s) = Ok (enc_state s)) /\
  plain def0 /\ plain tx0 /\ plain def1 /\ plain tx1 /\ (forall g s p, om_update tx1 g s p = om_update tx0 g s p) /\
  exists params buffers d opt wm optm wd optd opt2 sq,
    module_partition ex_mlp 0 [FType "Param"; FEllipsis] = Ok (mkPure (Many [params; buffers]) d) /\
    def_of ex_mlp [FType "Param"; FEllipsis] def0 = Some d /\ def_of ex_mlp [FType "Param"; FEllipsis] def1 = Some d /\
    om_init tx0 (enc_state params) = Ok opt /\ om_init tx1 (enc_state [("linear1/w", param 40); ("linear2/w", param 41)]) = Ok opt2 /\
    optimized (om_update tx0) om_apply enc_state quotient 0 ex_mlp opt [ex_batch 7] wm optm /\ optimized (om_update tx0) om_apply enc_state quotient 0 wm optm [ex_batch 9] wd optd /\
    fx_to optm = Ok sq /\ sq <> optm /\ fx_from opt2 sq = Ok optm /\ adds inc 1 (PyInt 0) (PyInt 1) /\ adds inc 1 (PyInt 1) (PyInt 2) /\ fx_to (PyInt 1) = Ok (PyInt 1) /\ fx_from (PyInt 0) (PyInt 1) = Ok (PyInt 1).
Proof.
  split; [exact dec_enc_state|]. split; [exact enc_not_plain|]. split; [reflexivity|]. split; [reflexivity|]. do 4 (split; [reflexivity|]). split; [reflexivity|].
  eexists _, _, _, _, _, _, _, _, _, _. do 5 (split; [vm_compute; reflexivity|]). split; [om_step; apply op_done|]. split; [om_step; apply op_done|].
  split; [vm_compute; reflexivity|]. split; [vm_compute; discriminate|]. split; [vm_compute; reflexivity|].
  split; [econstructor; [reflexivity|constructor]|]. split; [econstructor; [reflexivity|constructor]|]. split; reflexivity.
Qed.
(** One step, then saved.  The second process makes a TrainState for the model made again
    and loads the file. *)
Definition ex_ts1 : pheap := fst (train_new om_init Ok [] def0 (enc_state [("linear1/w", param 3); ("linear2/w", param 5)]) tx0 (PyInt 0) [("buffers", ARaw (enc_state [("count", arr 0)]))]).
Definition ex_ts2 : pheap := fst (train_new om_init Ok [] def1 (enc_state [("linear1/w", param 40); ("linear2/w", param 41)]) tx1 (PyInt 0) [("buffers", ARaw (enc_state [("count", arr 0)]))]).
Definition ex_run (l : list (prog pyval)) (h : pheap) (r : nat) : pheap * world * result nat :=
  ts_loop om_update om_apply inc (def_of ex_mlp [FType "Param"; FEllipsis]) dec_state enc_state (0, 1) quotient (map user_fun l) h ex_mlp r.
Definition ex_file : dict pyval := let '(h, _, _) := ex_run [ex_batch 7] ex_ts1 0 in match save fx_to h 1 with Ok st => st | Err _ => [] end.
Example C111_example :
  let '(h, _, res) := ex_run [ex_batch 7; ex_batch 9] ex_ts1 0 in
  let '(h', res1) := reload fx_from ex_ts2 0 ex_file in
  let '(h'', _, res2) := ex_run [ex_batch 9] h' 1 in
  res = Ok 2 /\ res1 = Ok tt /\ res2 = Ok 2 /\ keys ex_file = ["params"; "opt_state"; "step"; "buffers"] /\
  pread h 2 "params" = pread h'' 2 "params" /\ pread h'' 2 "params" = Ok (enc_state [("linear1/w", param 27); ("linear2/w", param 21)]) /\
  pread h 2 "opt_state" = pread h'' 2 "opt_state" /\ pread h 2 "step" = pread h'' 2 "step" /\ pread h'' 2 "step" = Ok (PyInt 2) /\ pread h'' 2 "buffers" = Ok (enc_state [("count", arr 2)]).
Proof. vm_compute. repeat split. Qed.
(** The claim is false of [from_state_dict(ts, state)]: the TrainState is restored without
    complaint, with a dict where the optimizer has left a tuple, and the next step raises. *)
Theorem C111_resume_refuted :
  exists st h' e, save fx_to (fst (fst (ex_run [ex_batch 7] ex_ts1 0))) 1 = Ok st /\ restore fx_from ex_ts2 0 st = (h', Ok tt) /\
    (forall opt, pread (fst (fst (ex_run [ex_batch 7] ex_ts1 0))) 1 "opt_state" = Ok opt -> fx_to opt <> Ok opt /\ pread h' 1 "opt_state" = fx_to opt) /\
    snd (ex_run [ex_batch 9] h' 1) = Err e /\ snd (ex_run [ex_batch 7; ex_batch 9] ex_ts1 0) = Ok 2.
Proof.
  eexists _, _, _. split; [vm_compute; reflexivity|]. split; [vm_compute; reflexivity|]. split; [intros opt H; vm_compute in H; injection H as <-; split; [vm_compute; discriminate|vm_compute; reflexivity]|].
  split; vm_compute; reflexivity.
Qed.
Print Assumptions C111_resume_refuted.
(** Without a tuple in it, the file is read back as it is (hypotheses of
    [C111_resume_partial]: momentum with a State as its state, Prop_TsLoop). *)
Example C111_restore_example :
  let ini := fun tx p => match dec_state p with Some s => Ok (enc_state (map (fun ka => (fst ka, with_value (snd ka) (PyObj Array_cls 0))) s)) | None => Err TypeError end in
  let upd := fun (tx g s p : pyval) => match dec_state g, dec_state s with Some g, Some m => Ok (enc_state (plus2 m g), enc_state (plus2 m g)) | _, _ => Err TypeError end in
  let run := fun l h r => ts_loop upd om_apply inc (def_of ex_mlp [FType "Param"; FEllipsis]) dec_state enc_state (0, 1) quotient (map user_fun l) h ex_mlp r in
  let h1 := fst (train_new ini Ok [] def0 (enc_state [("linear1/w", param 3); ("linear2/w", param 5)]) tx0 (PyInt 0) [("buffers", ARaw (enc_state [("count", arr 0)]))]) in
  let h2 := fst (train_new ini Ok [] def1 (enc_state [("linear1/w", param 40); ("linear2/w", param 41)]) tx1 (PyInt 0) [("buffers", ARaw (enc_state [("count", arr 0)]))]) in
  exists st, save fx_to (fst (fst (run [ex_batch 7] h1 0))) 1 = Ok st /\
    let '(h', res1) := restore fx_from h2 0 st in
    let '(h'', _, res2) := run [ex_batch 9] h' 1 in
    res1 = Ok tt /\ res2 = Ok 2 /\ pread h'' 2 "params" = Ok (enc_state [("linear1/w", param 27); ("linear2/w", param 21)]) /\ pread h'' 2 "step" = Ok (PyInt 2) /\
    pread h'' 2 "opt_state" = pread (fst (fst (run [ex_batch 7; ex_batch 9] h1 0))) 2 "opt_state".
Proof. cbv zeta. eexists. split; [vm_compute; reflexivity|]. vm_compute. repeat split. Qed.
Example C111_mismatch_example :
  restore (fun _ s => Ok s) ex_ts2 0 (ddel "step" ex_file) = (ex_ts2, Err ValueError) /\
  restore (fun _ s => Ok s) ex_ts2 0 (dset "ema" (PyInt 3) ex_file) = (ex_ts2, Err ValueError).
Proof. split; vm_compute; reflexivity. Qed.
