(** Prop_TsLoop: C97, the training steps of the examples that keep everything in a
    TrainState.  [as_state] and [of_state] are States as values of a field. *)
From Coq Require Import Lia ZArith.
From Verif Require Import PyBase PyBaseFacts ValuesM Spec_Eq ValuesFacts FiltersM StateM ModuleM PureM TransformM GradFunM JitCacheM TrainLoopM
  Spec_Module Spec_Prog Spec_GradFun Spec_Functional Spec_TrainLoop
  Graph_facts Dfs_proofs Bisim_proofs Clone_proofs Transform_proofs Functional_proofs GradFun_proofs Prop_Transform Prop_GradFun TrainLoop_proofs Ex_Module Prop_TrainLoop
  PytreeM Spec_Pytree PtreeM TrainM Spec_Train Train_proofs TsLoopM Spec_TsLoop TsLoop_proofs.
Local Open Scope string_scope.
Local Open Scope list_scope.

(** *** C97 *)
(** examples/03: make a TrainState from the Params and buffers of a model, then one
    [train_step] after the other.  The last TrainState holds the Params and buffers into
    which [partition(Param, ...)] splits the model trained directly with the optimizer,
    the optimizer's state and the number of steps; the TrainStates of all earlier steps
    and all Modules are unchanged. *)
Theorem C97_trainstate :
  forall tx_init tx_update apply_updates asarray add_one as_def as_state (of_state : state -> pyval),
  (forall s, as_state (of_state s) = Some s) ->
  forall (D : grad_op) r w tx opt losses wd optd params buffers d mdef step n nd h t,
  differentiates D -> wf_world w -> r < List.length (w_heap w) -> names_ok w r -> live w r -> In "jax.Array" (w_nodes w) ->
  module_partition w r [FType "Param"; FEllipsis] = Ok (mkPure (Many [params; buffers]) d) -> as_def mdef = Some d ->
  tx_init tx (of_state params) = Ok opt -> asarray step = Ok n -> adds add_one (List.length losses) n nd ->
  optimized (tx_update tx) apply_updates of_state D r w opt losses wd optd ->
  exists o os w' q o' params' buffers',
    train_new tx_init asarray h mdef (of_state params) tx step [("buffers", ARaw (of_state buffers))] = (h ++ [o], Ok tt) /\
    ts_loop tx_update apply_updates add_one as_def as_state of_state t D (map user_fun losses) (h ++ [o]) w (List.length h) = (h ++ o :: os, w', Ok q) /\
    List.length os = List.length losses /\ nth_error (h ++ o :: os) q = Some o' /\
    module_partition wd r [FType "Param"; FEllipsis] = Ok (mkPure (Many [params'; buffers']) d) /\
    train_obj o' mdef (of_state params') tx optd nd /\ holds o' "buffers" (of_state buffers') /\
    all_unchanged w w' /\ w_trace w' = w_trace w.
Proof.
  intros tx_init tx_update apply_updates asarray add_one as_def as_state of_state AS D r w tx opt losses wd optd params buffers d mdef step n nd h t HD W V N L J Hp DF TI AA AO T.
  destruct (train_new_ok tx_init asarray h mdef (of_state params) tx step [("buffers", ARaw (of_state buffers))] opt n TI AA) as (o & E & TO & K & FV).
  { repeat constructor. intros []. }
  { intros k a [[= <- <-]|[]]. split; [reflexivity|]. split; [exact Logic.I|]. cbn. intros H. repeat (destruct H as [H|H]; [discriminate|]). exact H. }
  assert (O : nth_error (h ++ [o]) (List.length h) = Some o) by (rewrite nth_error_app2 by lia; now rewrite Nat.sub_diag).
  destruct (ts_loop_ok tx_update apply_updates add_one as_def as_state of_state AS D r tx HD losses w opt wd optd w params buffers d t (h ++ [o]) (List.length h) o mdef n nd
     J T AO W V N L W eq_refl Hp O TO DF) as (os & w' & q & o' & a & b & E' & LO & O' & P & TO' & HB & _ & _ & U & _ & _ & TR & _).
  { left. now apply FV. }
  rewrite <- app_assoc in *. exists o, os, w', q, o', a, b. split; [exact E|]. split; [exact E'|]. auto 10.
Qed.
Print Assumptions C97_trainstate.

(** examples/05: the loss is taken from the result and from the nodes of class Loss that
    [apply] returns; it is the loss of the model itself.  But [train_step] drops the
    result of [apply_gradients]: however long it trains, with any optimizer, the
    TrainState at the end is the one at the start, and every step reports the loss of the
    untrained model with the key of step 0. *)
Theorem C97_vae_refuted :
  forall tx_update apply_updates add_one as_def as_state (of_state : state -> pyval),
  (forall s, as_state (of_state s) = Some s) ->
  forall (D : grad_op) total r w params d bodies h q o mdef tx opt step t h' w' q' losses,
  wf_world w -> r < List.length (w_heap w) -> names_ok w r -> live w r ->
  module_partition w r [FType "Param"] = Ok (mkPure (One params) d) -> as_def mdef = Some d ->
  nth_error h q = Some o -> train_obj o mdef (of_state params) tx opt step ->
  (forall body s, In body bodies -> ok_prog (body s)) ->
  vae_loop tx_update apply_updates add_one as_def as_state of_state total t D (map (fun (b : pyval -> prog pyval) s => user_fun (b s)) bodies) h w q = (h', w', Ok (q', losses)) ->
  q' = q /\ nth_error h' q = Some o /\ map Some losses = map (fun body => loss_and_nodes total (body step) w r) bodies.
Proof.
  intros tx_update apply_updates add_one as_def as_state of_state AS D total r w params d bodies h q o mdef tx opt step t h' w' q' losses W V N L Hp DF O TO Hf E.
  destruct (vae_loop_ok tx_update apply_updates add_one as_def as_state of_state AS D total r tx bodies w params d w t h q o mdef opt step h' w' q' losses Hf W V N L W eq_refl Hp O TO DF E) as (A & B & C & _). auto.
Qed.
Print Assumptions C97_vae_refuted.

(** *** Cases *)
(** States as values. *)
Definition enc_attr (a : attr) : pyval :=
  match a with
  | ARaw v => PyTuple [PyNone; v]
  | ACont c => PyTuple [PyTuple (map PyStr (c_cls c)); PyTuple (map (fun kv => PyTuple [PyStr (fst kv); snd kv]) (c_meta c)); c_val c]
  end.
Definition enc (s : state) : pyval := PyTuple (map (fun ka => PyTuple [PyStr (fst ka); enc_attr (snd ka)]) s).
Fixpoint dec_list {A} (f : pyval -> option A) (l : list pyval) : option (list A) :=
  match l with
  | [] => Some []
  | x :: l => match f x, dec_list f l with Some a, Some r => Some (a :: r) | _, _ => None end
  end.
Definition dec_str (v : pyval) : option string := match v with PyStr s => Some s | _ => None end.
Definition dec_pair (v : pyval) : option (string * pyval) := match v with PyTuple [PyStr k; v] => Some (k, v) | _ => None end.
Definition dec_attr (v : pyval) : option attr :=
  match v with
  | PyTuple [PyNone; v] => Some (ARaw v)
  | PyTuple [PyTuple c; PyTuple m; v] => match dec_list dec_str c, dec_list dec_pair m with Some c, Some m => Some (ACont (mkCont c m v)) | _, _ => None end
  | _ => None
  end.
Definition dec_entry (v : pyval) : option (string * attr) :=
  match v with PyTuple [PyStr k; v] => match dec_attr v with Some a => Some (k, a) | None => None end | _ => None end.
Definition dec (v : pyval) : option state := match v with PyTuple l => dec_list dec_entry l | _ => None end.
Lemma dec_list_map {A} (f : pyval -> option A) (g : A -> pyval) l : (forall x, f (g x) = Some x) -> dec_list f (map g l) = Some l.
Proof. intros H. induction l as [|x l IH]; [reflexivity|]. cbn. now rewrite H, IH. Qed.
Lemma dec_enc : forall s, dec (enc s) = Some s.
Proof.
  intros s. unfold dec, enc. apply dec_list_map. intros [k a]. cbn [fst snd dec_entry].
  assert (H : dec_attr (enc_attr a) = Some a).
  { destruct a as [v|[c m v]]; [reflexivity|]. cbn [enc_attr dec_attr c_cls c_meta c_val]. rewrite (dec_list_map dec_str PyStr) by reflexivity.
    rewrite (dec_list_map dec_pair (fun kv => PyTuple [PyStr (fst kv); snd kv])) by (intros [? ?]; reflexivity). reflexivity. }
  unfold dec_entry. now rewrite H.
Qed.
(** An optimizer with momentum 1: its state is the sum of the derivatives so far. *)
Definition plus2 (a b : state) : state :=
  map (fun ka => (fst ka, match dget (fst ka) b with Some y => with_value (snd ka) (ex_sgd (value (snd ka)) (value y)) | None => snd ka end)) a.
Definition mom_init (tx p : pyval) : result pyval := match dec p with Some s => Ok (enc (map (fun ka => (fst ka, with_value (snd ka) (PyObj Array_cls 0))) s)) | None => Err TypeError end.
Definition mom_update (tx g s p : pyval) : result (pyval * pyval) :=
  match dec g, dec s with Some g, Some s => Ok (enc (plus2 s g), enc (plus2 s g)) | _, _ => Err TypeError end.
Definition mom_apply (p u : pyval) : result pyval := match dec p, dec u with Some p, Some u => Ok (enc (plus2 p u)) | _, _ => Err TypeError end.
Definition inc (v : pyval) : result pyval := match v with PyInt z => Ok (PyInt (z + 1)) | _ => Err TypeError end.
Definition tx0 : pyval := PyObj ["GradientTransformation"; "object"] 2.
Definition def0 : pyval := PyObj ["ModuleDef"; "object"] 1.
Definition def_of (w : world) (filters : list filt) (v : pyval) : option mdef :=
  match module_partition w 0 filters with Ok p => Some (p_def p) | Err _ => None end.

Lemma opt_step w f w1 w2 diff us l w3 out u opt opt1 opt3 :
  ok_prog f -> module_filter w 0 (FType "Param") [] = Ok (One diff) -> run f w [0] = (w1, Ok out) ->
  forallb (fun ka => match snd ka with ACont _ => true | _ => false end) diff = true ->
  names_okb w1 = true -> get_module_def w1 0 = get_module_def w 0 ->
  module_filter w1 0 (FType "Param") [] = module_filter w 0 (FType "Param") [] ->
  (exists s s1, get_state w 0 = Ok s /\ get_state w1 0 = Ok s1 /\ Forall2 (fun x y => fst x = fst y /\ same_shape (snd x) (snd y)) s s1 /\
     forallb (fun ka => Bool.eqb (isinstance (snd ka) "Param") (negb (isinstance (snd ka) "jax.Array" || isinstance (snd ka) "numpy.ndarray"))) s1 = true) ->
  mom_update tx0 (enc (derivatives (quotient (loss_with false f w 0) diff) diff)) opt (enc diff) = Ok (u, opt1) ->
  dec u = Some us -> in_place diff (plus2 diff us) ->
  update_state w1 0 (UStates (One (plus2 diff us))) = (w2, Ok tt) ->
  optimized (mom_update tx0) mom_apply enc quotient 0 w2 opt1 l w3 opt3 -> optimized (mom_update tx0) mom_apply enc quotient 0 w opt (f :: l) w3 opt3.
Proof.
  intros Hf Hd Hr Bd Hn Hdef Hpa (s & s1 & G & G1 & F & B) TU AU IP Hu T. eapply op_step; eauto.
  - intros k a Ha. apply dget_In in Ha. rewrite forallb_forall in Bd. specialize (Bd _ Ha). cbn in Bd. destruct a; [discriminate|eauto].
  - split; [now apply names_okb_ok|]. split; [exact Hdef|]. intros a b Ha Hb. congruence.
  - split; [exact Hpa|]. intros z k a Hz Ha. rewrite G1 in Hz. injection Hz as <-. rewrite forallb_forall in B. apply dget_In in Ha. specialize (B _ Ha). cbn in B. now apply Bool.eqb_prop in B.
  - unfold mom_apply. now rewrite dec_enc, AU.
Qed.
Ltac opt_step := eapply opt_step;
  [apply ex_batch_ok|vm_compute; reflexivity|vm_compute; reflexivity|reflexivity|vm_compute; reflexivity|vm_compute; reflexivity|vm_compute; reflexivity
  |eexists _, _; split; [vm_compute; reflexivity|]; split; [vm_compute; reflexivity|]; split; [repeat constructor|vm_compute; reflexivity]
  |vm_compute; reflexivity|vm_compute; reflexivity|repeat constructor|vm_compute; reflexivity|].
Example C97_example_hyps :
  (forall s, dec (enc s) = Some s) /\ differentiates quotient /\ wf_world ex_mlp /\ names_ok ex_mlp 0 /\ live ex_mlp 0 /\ In "jax.Array" (w_nodes ex_mlp) /\
  exists params buffers d opt wd optd, module_partition ex_mlp 0 [FType "Param"; FEllipsis] = Ok (mkPure (Many [params; buffers]) d) /\ def_of ex_mlp [FType "Param"; FEllipsis] def0 = Some d /\
    mom_init tx0 (enc params) = Ok opt /\ adds inc 2 (PyInt 0) (PyInt 2) /\
    optimized (mom_update tx0) mom_apply enc quotient 0 ex_mlp opt [ex_batch 7; ex_batch 9] wd optd.
Proof.
  split; [exact dec_enc|]. split; [exact quotient_ok|]. split; [apply wf_worldb_ok; vm_compute; reflexivity|]. split; [apply names_okb_ok; vm_compute; reflexivity|].
  split; [apply liveb_ok; vm_compute; reflexivity|]. split; [vm_compute; auto|].
  eexists _, _, _, _, _, _. split; [vm_compute; reflexivity|]. split; [vm_compute; reflexivity|]. split; [vm_compute; reflexivity|].
  split; [econstructor; [reflexivity|]; econstructor; [reflexivity|]; constructor|].
  opt_step. opt_step. apply op_done.
Qed.
(** With momentum: from 3 and 5 by 7 and 3 to 10 and 8, then by 7+10 and 3+10. *)
Example C97_example :
  let s0 := [("buffers", ARaw (enc [("count", arr 0)]))] in
  let '(h, _) := train_new mom_init Ok [] def0 (enc [("linear1/w", param 3); ("linear2/w", param 5)]) tx0 (PyInt 0) s0 in
  let '(h', _, res) := ts_loop mom_update mom_apply inc (def_of ex_mlp [FType "Param"; FEllipsis]) dec enc (0, 1) quotient (map user_fun [ex_batch 7; ex_batch 9]) h ex_mlp 0 in
  res = Ok 2 /\ List.length h' = 3 /\
  pread h' 2 "params" = Ok (enc [("linear1/w", param 27); ("linear2/w", param 21)]) /\ pread h' 2 "buffers" = Ok (enc [("count", arr 2)]) /\
  pread h' 2 "step" = Ok (PyInt 2) /\ pread h' 0 "params" = Ok (enc [("linear1/w", param 3); ("linear2/w", param 5)]).
Proof. vm_compute. repeat split. Qed.

(** A model of Params whose encoder writes a Loss; the noise depends on the step. *)
Definition ex_vae : world := mkWorld
  [ mkMobj (Mod_cls "VAE") 1 false (0, 0) [("decoder", sub 2); ("encoder", sub 1)];
    mkMobj (Mod_cls "Encoder") 2 false (0, 0) [("w", param 3)];
    mkMobj (Mod_cls "Linear") 3 false (0, 0) [("w", param 5); ("tied", sub 1)] ]
  3 (0, 0) default_node_types.
Definition loss_node (n : nat) : attr := ACont (mkCont ["Loss"; "Variable"; "Node"; "NodeBase"; "Container"; "object"] [("sharding", PyNone)] (PyObj Array_cls n)).
Definition vae_body (x : nat) (step : pyval) : prog pyval :=
  Do (CGet 0 "encoder") (fun _ => Do (CGet 0 "decoder") (fun _ => Do (CGet 1 "w") (fun a => Do (CGet 2 "w") (fun b =>
  Do (CSet 1 "kl_loss" (loss_node (num a + match step with PyInt z => Z.to_nat z | _ => 0 end))) (fun _ =>
  Finish (Ok (PyObj Array_cls (num a * num b + x)))))))).
Definition vae_total (y : pyval) (losses : state) : pyval := fold_left (fun acc ka => ex_sgd acc (value (snd ka))) losses y.
Lemma vae_body_ok x s : ok_prog (vae_body x s).
Proof.
  unfold vae_body. repeat (apply ok_do; [exact Logic.I|intros ? _]). apply ok_do; [|intros ? _; constructor].
  split; [apply wf_containerb_ok; reflexivity|reflexivity].
Qed.
(** Its steps succeed (so the theorem says something), and the losses do not depend on
    how long it has trained: 3 * 5 + 7 + 3 twice.  The new TrainStates, with the Params
    moved, are made and forgotten. *)
Example C97_vae_example :
  wf_world ex_vae /\ names_ok ex_vae 0 /\ live ex_vae 0 /\ (forall x s, ok_prog (vae_body x s)) /\
  exists params d, module_partition ex_vae 0 [FType "Param"] = Ok (mkPure (One params) d) /\
  let '(h, _) := train_new mom_init Ok [] def0 (enc params) tx0 (PyInt 0) [] in
  let '(h', _, res) := vae_loop mom_update mom_apply inc (def_of ex_vae [FType "Param"]) dec enc vae_total (0, 1) quotient
     (map (fun (b : pyval -> prog pyval) s => user_fun (b s)) [vae_body 7; vae_body 7]) h ex_vae 0 in
  res = Ok (0, [PyObj Array_cls 25; PyObj Array_cls 25]) /\ loss_and_nodes vae_total (vae_body 7 (PyInt 0)) ex_vae 0 = Some (PyObj Array_cls 25) /\
  List.length h' = 3 /\ pread h' 0 "params" = Ok (enc [("decoder/tied/w", param 3); ("decoder/w", param 5)]) /\
  pread h' 2 "params" = Ok (enc [("decoder/tied/w", param 9); ("decoder/w", param 8)]).
Proof.
  split; [apply wf_worldb_ok; vm_compute; reflexivity|]. split; [apply names_okb_ok; vm_compute; reflexivity|].
  split; [apply liveb_ok; vm_compute; reflexivity|]. split; [exact vae_body_ok|].
  eexists _, _. split; [vm_compute; reflexivity|]. vm_compute. repeat split.
Qed.
