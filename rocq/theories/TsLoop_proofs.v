(** TsLoop_proofs: training with a TrainState is training the model with the optimizer. *)
From Coq Require Import Permutation Lia.
From Verif Require Import PyBase PyBaseFacts ValuesM Spec_Eq ValuesFacts FiltersM StateM Spec_State State_proofs ModuleM PureM Spec_Module Spec_Prog
  Graph_facts Dfs_proofs Build_proofs Bisim_proofs Skel_proofs RoundTrip_proofs Clone_proofs Update_proofs Write_proofs
  Laws_proofs Prog_proofs TransformM Transform_proofs History_proofs Leaf_proofs Scan_proofs Container_proofs ScanDeco_proofs Spec_Functional Functional_proofs
  GradFunM Spec_GradFun GradFun_proofs JitCacheM TrainLoopM Spec_TrainLoop TrainLoop_proofs
  PytreeM Spec_Pytree PtreeM TrainM Spec_Train Train_proofs TsLoopM Spec_TsLoop.
Local Open Scope string_scope.
Local Open Scope list_scope.

(** [moduledef.apply] with all the States, on the parts of a module *)
Lemma apply_ok (f : prog pyval) w r v p t w1 out : ok_prog f -> wf_world w -> valid w r -> names_ok w r -> live w r -> wf_world v -> w_nodes v = w_nodes w ->
  parts_of p w r -> run f w [r] = (w1, out) ->
  exists v' s1 d1, all_unchanged v v' /\ wf_world v' /\ w_nodes v' = w_nodes v /\ get_state w1 r = Ok s1 /\ wf_state s1 /\ get_module_def w1 r = Ok d1 /\
    mdef_apply (set_trace v t) (p_def p) (sts_list (p_states p)) (user_fun f) =
      (v', match out with Err e => Err e | Ok y => Ok (y, mkPure (One s1) d1) end).
Proof.
  intros Hf W V N L Wv Nv P E. assert (H : Functional_proofs.holds v w r v p). { constructor; auto. intros x o Ho; exact Ho. }
  destruct (run_parts f v w r v _ t Hf H) as (w1' & res & v1 & v2 & E1 & Hm & E2 & W2 & V2 & L2 & N2 & Wv2 & Nv2 & U & S2 & D2).
  rewrite E in E1. injection E1 as <- <-.
  destruct (get_state_total w1 r W2 V2) as (s1 & Gs1 & Ws1). destruct (get_module_def_total w1 r W2 V2) as (d1 & Gd1).
  exists v2, s1, d1. split; [exact U|]. split; [exact Wv2|]. split; [congruence|]. split; [exact Gs1|]. split; [exact Ws1|]. split; [exact Gd1|].
  unfold mdef_apply. unfold pure_merge in Hm. rewrite Hm. unfold user_fun. rewrite E2. destruct out as [y|e]; [|reflexivity].
  unfold module_partition. rewrite D2, S2, Gs1, Gd1. reflexivity.
Qed.

(** new Params in a model whose other nodes are arrays *)
Lemma assign_params w1 r s1 d new w2 : wf_world w1 -> valid w1 r -> names_ok w1 r -> live w1 r ->
  get_state w1 r = Ok s1 -> wf_state s1 -> get_module_def w1 r = Ok d -> variables (params_of s1) -> in_place (params_of s1) new ->
  update_state w1 r (UStates (One new)) = (w2, Ok tt) ->
  wf_world w2 /\ valid w2 r /\ names_ok w2 r /\ live w2 r /\ w_nodes w2 = w_nodes w1 /\
  module_partition w2 r [FType "Param"; FEllipsis] = Ok (mkPure (Many [new; others_of s1]) d).
Proof.
  intros W V N L Gs Ws Gd Vp A Hu. assert (ND := wf_NoDup _ Ws).
  assert (NDp : NoDup (keys (params_of s1))) by (apply wf_NoDup; exact (filter_state (fun _ x => isinstance x "Param") s1 Ws)).
  assert (K := alike_keys _ _ A).
  assert (F : fits w1 s1 new).
  { split; [now rewrite K|]. intros k b Hb. destruct (alike_back _ _ A k b Hb) as (a & Ha & Sh). destruct (Vp k a Ha) as [c ->]. destruct b as [x|c']; [destruct Sh|].
    apply (filter_get s1 (fun _ x => isinstance x "Param")) in Ha as [Ha _]; [|exact ND]. exists (ACont c). split; [exact Ha|]. split; [exact Sh|]. destruct Sh as [S1 S2].
    assert (P : plain_attr (ACont c)) by (apply (get_state_plain w1 r s1 W Gs k); now apply dget_In). destruct P as [P1 _].
    split. { split; [|reflexivity]. unfold wf_attr, wf_container in *. now rewrite S1, S2. }
    destruct (get_state_nodes w1 r s1 k _ W Gs Ha) as (ty & T1 & T2). exists ty. split; [exact T1|]. cbn in *. now rewrite S1. }
  destruct (adopt w1 r s1 new W V N L Gs F) as (w2' & E & A1 & A2 & A3 & A4 & A5 & A6 & A7 & A8 & A9 & A10). rewrite Hu in E. injection E as <-.
  do 4 (split; [assumption|]). split; [exact A8|].
  destruct (over_params w1 s1 new Ws F Vp K) as [O1 O2]. destruct (param_parts w2 r A1 A2) as (s2 & d2 & Gs2 & _ & Gd2 & Ep). rewrite Ep.
  rewrite A5 in Gs2. injection Gs2 as <-. rewrite O1, O2. congruence.
Qed.

Section TsLoop.
Variable tx_update : pyval -> pyval -> pyval -> pyval -> result (pyval * pyval).
Variable apply_updates : pyval -> pyval -> result pyval.
Variable add_one : pyval -> result pyval.
Variable as_def : pyval -> option mdef.
Variable as_state : pyval -> option state.
Variable of_state : state -> pyval.
Hypothesis as_of : forall s, as_state (of_state s) = Some s.

Lemma ts_apply h r o mdef params tx opt step d a b v t : nth_error h r = Some o -> train_obj o mdef params tx opt step -> as_def mdef = Some d -> holds o "buffers" (of_state b) ->
  forall body : loss_fun, train_apply as_def as_state h (set_trace v t) r [SState a; SName "buffers"] body = mdef_apply (set_trace v t) d [a; b] body.
Proof.
  intros O (_ & _ & _ & _ & _ & MD & _) AD HB body. unfold train_apply. rewrite (pread_raw h r o "moduledef" mdef O MD). cbn [rbind rmapM resolve].
  rewrite (pread_holds h r o "buffers" _ O HB). cbn [rbind]. rewrite as_of, AD. reflexivity.
Qed.

Lemma ts_step_ok D (f : prog pyval) w r diff w1 out u opt1 new w2 v a b d t h q o mdef tx opt step step' :
  differentiates D -> In "jax.Array" (w_nodes w) ->
  ok_prog f -> module_filter w r (FType "Param") [] = Ok (One diff) -> variables diff ->
  run f w [r] = (w1, Ok out) -> steady w w1 r -> params_alone r w w1 ->
  tx_update tx (of_state (derivatives (D (loss_with false f w r) diff) diff)) opt (of_state diff) = Ok (u, opt1) ->
  apply_updates (of_state diff) u = Ok (of_state new) -> in_place diff new ->
  update_state w1 r (UStates (One new)) = (w2, Ok tt) -> add_one step = Ok step' ->
  wf_world w -> valid w r -> names_ok w r -> live w r -> wf_world v -> w_nodes v = w_nodes w ->
  module_partition w r [FType "Param"; FEllipsis] = Ok (mkPure (Many [a; b]) d) ->
  nth_error h q = Some o -> train_obj o mdef (of_state a) tx opt step -> as_def mdef = Some d -> holds o "buffers" (of_state b) ->
  exists v' o' b', ts_step tx_update apply_updates add_one as_def as_state of_state t D (user_fun f) h v q = (h ++ [o'], v', Ok tt) /\
    module_partition w2 r [FType "Param"; FEllipsis] = Ok (mkPure (Many [new; b']) d) /\
    train_obj o' mdef (of_state new) tx opt1 step' /\ holds o' "buffers" (of_state b') /\ keys (p_vars o') = keys (p_vars o) /\
    (forall n, n <> "buffers" -> ~ In n ["params"; "opt_state"; "step"] -> dget n (p_vars o') = dget n (p_vars o)) /\
    wf_world w2 /\ valid w2 r /\ names_ok w2 r /\ live w2 r /\ w_nodes w2 = w_nodes w /\
    all_unchanged v v' /\ wf_world v' /\ w_nodes v' = w_nodes v /\ w_trace v' = w_trace v /\
    (dget "buffers" (p_vars o) = Some (FAttr (ARaw (of_state b))) -> dget "buffers" (p_vars o') = Some (FAttr (ARaw (of_state b')))).
Proof.
  intros HD J Hf Hdiff Vd Hrun Hst [Q1 Q2] TU AU IP Hup AO W V N L Wv Nv Hp O TO AD HB.
  destruct (run_live f w r w1 _ Hf W V N L Hrun) as (W1 & V1 & L1 & N1).
  destruct (param_parts w r W V) as (s & d' & Gs & Ws & Gd & Ep). rewrite Hp in Ep. injection Ep as -> -> <-.
  destruct (get_state_total w1 r W1 V1) as (s1 & Gs1 & Ws1).
  assert (Ediff : diff = params_of s). { unfold module_filter in Hdiff. rewrite Gs in Hdiff. cbn [rbind] in Hdiff. rewrite (filter_sub s (FType "Param") _ Ws eq_refl) in Hdiff. now injection Hdiff as <-. }
  assert (Epar : diff = params_of s1).
  { rewrite Hdiff in Q1. unfold module_filter in Q1. rewrite Gs1 in Q1. cbn [rbind] in Q1. rewrite (filter_sub s1 (FType "Param") _ Ws1 eq_refl) in Q1. now injection Q1 as ->. }
  assert (P1 : module_partition w r [FPred (fun _ x => isinstance x "Param"); FEllipsis] = Ok (mkPure (Many [params_of s; others_of s]) d)) by exact Hp.
  assert (PA := partition_parts _ w r _ W V P1). rewrite <- Ediff in *.
  assert (TA := fun x => ts_apply h q o mdef (of_state diff) tx opt step d x (others_of s) v t O TO AD HB).
  assert (EL : forall x, ts_loss_fn as_def as_state t (user_fun f) h q v x = loss_fn t (user_fun f) d (others_of s) v x).
  { intros x. unfold ts_loss_fn, loss_fn. rewrite TA. reflexivity. }
  destruct (loss_fn_ok f w r v diff (others_of s) d t w1 (Ok out) Hf W V N L Wv Nv PA Hrun) as (v' & U & Wv' & Nv' & Tv' & El).
  rewrite Gs1 in El. cbn [rbind] in El.
  set (nb := filter (fun ka : string * attr => isinstance (snd ka) "jax.Array" || isinstance (snd ka) "numpy.ndarray") s1) in *.
  assert (EG : forall k x, D (fun d0 => match snd (ts_loss_fn as_def as_state t (user_fun f) h q v d0) with Ok (y, _) => Some y | Err _ => None end) diff k x = D (loss_with false f w r) diff k x).
  { apply HD. intros d0 Pt. rewrite EL. destruct (point_update w r _ _ diff (others_of s) d0 W V N L J P1 eq_refl Pt) as (wp & Eu & Wp & Vp' & Np & Lp & Nwp & PAp). cbn [p_def] in PAp.
    unfold loss_with. rewrite Eu. destruct (run f wp [r]) as [wq res] eqn:Er.
    destruct (loss_fn_ok f wp r v d0 (others_of s) d t wq res Hf Wp Vp' Np Lp Wv (eq_trans Nv (eq_sym Nwp)) PAp Er) as (vz & _ & _ & _ & _ & Ez). rewrite Ez. cbn [snd].
    destruct res as [y|e]; [|reflexivity]. destruct (run_live f wp r wq _ Hf Wp Vp' Np Lp Er) as (Wq & Vq & _). destruct (get_state_total wq r Wq Vq) as (sq & Gq & _). rewrite Gq. reflexivity. }
  assert (HPm := TO). destruct HPm as (_ & _ & _ & _ & _ & _ & _ & HP & _).
  unfold ts_step, ts_params. rewrite (pread_node h q o "params" _ O HP). cbn [rbind]. rewrite as_of, EL, El. cbv zeta.
  rewrite (grad_tree_ext _ _ diff EG). change (grad_tree (D (loss_with false f w r) diff) diff) with (derivatives (D (loss_with false f w r) diff) diff).
  assert (PK : plain_kw o [("buffers", ARaw (of_state nb))]).
  { split; [repeat constructor; intros []|]. intros k x [[= <- <-]|[]]. split; [reflexivity|]. split; [cbn; intros H; repeat (destruct H as [H|H]; [discriminate|]); exact H|].
    split; [|eauto]. destruct HB as [G|(c & G & _)]; eapply dget_In_keys; exact G. }
  destruct (step_ok tx_update apply_updates add_one h q o mdef (of_state diff) tx opt step (of_state (derivatives (D (loss_with false f w r) diff) diff))
     [("buffers", ARaw (of_state nb))] u opt1 (of_state new) step' O TO (plain_good _ _ PK) TU AU AO) as (o' & E & T' & K' & FR & KV).
  rewrite E. destruct Hst as (Hn & Hd & Hs).
  assert (Vp1 : variables (params_of s1)) by (now rewrite <- Epar). assert (IP1 : in_place (params_of s1) new) by (now rewrite <- Epar).
  assert (Gd1 : get_module_def w1 r = Ok d) by congruence.
  destruct (assign_params w1 r s1 d new w2 W1 V1 Hn L1 Gs1 Ws1 Gd1 Vp1 IP1 Hup) as (W2 & V2 & NN2 & L2 & Nw & Ep2).
  assert (EB : nb = others_of s1).
  { apply filter_ext_in. intros [k x] Hx. cbn. rewrite (Q2 s1 k x Gs1); [now rewrite negb_involutive|]. apply In_dget; [now apply wf_NoDup|exact Hx]. }
  exists v', o', nb. split; [reflexivity|]. split; [rewrite Ep2, EB; reflexivity|]. split; [exact T'|]. split.
  { destruct (KV "buffers" _ eq_refl) as (old & nw & G1 & S & G2). exact (stores_holds o o' "buffers" old _ nw G1 S G2). }
  split; [exact K'|]. split; [intros n Hn1 Hn2; apply FR; [cbn; intros [H|[]]; congruence|exact Hn2]|].
  do 4 (split; [assumption|]). split; [congruence|]. do 4 (split; [assumption|]).
  intros G. destruct (KV "buffers" _ eq_refl) as (old & nw & G1 & S1 & G2). rewrite G in G1. injection G1 as <-. cbn [stores] in S1. now subst nw.
Qed.

Lemma ts_loop_ok D r tx : differentiates D -> forall losses w opt wd optd v a b d t h q o mdef step stepd,
  In "jax.Array" (w_nodes w) -> optimized (tx_update tx) apply_updates of_state D r w opt losses wd optd -> adds add_one (List.length losses) step stepd ->
  wf_world w -> valid w r -> names_ok w r -> live w r -> wf_world v -> w_nodes v = w_nodes w ->
  module_partition w r [FType "Param"; FEllipsis] = Ok (mkPure (Many [a; b]) d) ->
  nth_error h q = Some o -> train_obj o mdef (of_state a) tx opt step -> as_def mdef = Some d -> holds o "buffers" (of_state b) ->
  exists os v' q' o' a' b', ts_loop tx_update apply_updates add_one as_def as_state of_state t D (map user_fun losses) h v q = (h ++ os, v', Ok q') /\
    List.length os = List.length losses /\ nth_error (h ++ os) q' = Some o' /\
    module_partition wd r [FType "Param"; FEllipsis] = Ok (mkPure (Many [a'; b']) d) /\
    train_obj o' mdef (of_state a') tx optd stepd /\ holds o' "buffers" (of_state b') /\ keys (p_vars o') = keys (p_vars o) /\
    (forall n, n <> "buffers" -> ~ In n ["params"; "opt_state"; "step"] -> dget n (p_vars o') = dget n (p_vars o)) /\
    all_unchanged v v' /\ wf_world v' /\ w_nodes v' = w_nodes v /\ w_trace v' = w_trace v /\
    (dget "buffers" (p_vars o) = Some (FAttr (ARaw (of_state b))) -> dget "buffers" (p_vars o') = Some (FAttr (ARaw (of_state b')))) /\
    wf_world wd /\ valid wd r /\ names_ok wd r /\ live wd r /\ w_nodes wd = w_nodes w.
Proof.
  intros HD. induction losses as [|f losses IH]; intros w opt wd optd v a b d t h q o mdef step stepd J T AD W V N L Wv Nv Hp O TO DF HB.
  - inversion T; subst. inversion AD; subst. exists [], v, q, o, a, b. rewrite app_nil_r. split; [reflexivity|]. split; [reflexivity|].
    do 4 (split; [assumption|]). split; [reflexivity|]. split; [reflexivity|]. split; [intros x y Hx; exact Hx|]. auto 12.
  - inversion T as [|w' opt' f' diff w1 out u opt1 new w2 l w3 opt3 Hf Hd Vd Hr Hst Q TU AU IP Hu T']; subst. cbn [List.length] in AD. inversion AD as [|n x y z A1 A2]; subst.
    destruct (ts_step_ok D f w r diff w1 out u opt1 new w2 v a b d t h q o mdef tx opt step y HD J Hf Hd Vd Hr Hst Q TU AU IP Hu A1 W V N L Wv Nv Hp O TO DF HB)
      as (v' & o' & b' & E & P & TO' & HB' & K & FR & W2 & V2 & N2 & L2 & Nw & U & Wv' & Nv' & Tv' & RB).
    assert (O' : nth_error (h ++ [o']) (List.length h) = Some o') by (rewrite nth_error_app2 by lia; now rewrite Nat.sub_diag).
    destruct (IH w2 opt1 wd optd v' new b' d t (h ++ [o']) (List.length h) o' mdef y stepd) as (os & v'' & q' & o'' & a'' & b'' & E2 & LO & O2 & P2 & TO2 & HB2 & K2 & FR2 & U2 & Wv2 & Nv2 & Tv2 & RB2 & X1 & X2 & X3 & X4 & X5); auto; try congruence.
    exists (o' :: os), v'', q', o'', a'', b''. rewrite <- app_assoc in *. cbn [app] in *. split. { cbn [map ts_loop]. rewrite E. exact E2. }
    split; [cbn; congruence|]. do 4 (split; [assumption|]). split; [congruence|]. split; [intros n H1 H2; rewrite FR2 by assumption; auto|].
    split; [intros x ob Hx; auto|]. split; [assumption|]. split; [congruence|]. split; [congruence|]. split; [auto|]. do 4 (split; [assumption|]). congruence.
Qed.

Lemma vae_step_ok D total (body : pyval -> prog pyval) w r params d v t h q o mdef tx opt step h' v' q' loss :
  (forall s, ok_prog (body s)) -> wf_world w -> valid w r -> names_ok w r -> live w r -> wf_world v -> w_nodes v = w_nodes w ->
  module_partition w r [FType "Param"] = Ok (mkPure (One params) d) ->
  nth_error h q = Some o -> train_obj o mdef (of_state params) tx opt step -> as_def mdef = Some d ->
  vae_step tx_update apply_updates add_one as_def as_state of_state total t D (fun s => user_fun (body s)) h v q = (h', v', Ok (q', loss)) ->
  q' = q /\ nth_error h' q = Some o /\ loss_and_nodes total (body step) w r = Some loss /\
  all_unchanged v v' /\ wf_world v' /\ w_nodes v' = w_nodes v /\ w_trace v' = w_trace v.
Proof.
  intros Hf W V N L Wv Nv Hp O TO DF. assert (HTO := TO). destruct HTO as (_ & _ & _ & _ & _ & MD & TX & HP & HO & HS).
  unfold vae_step, ts_params. rewrite (pread_node h q o "params" _ O HP), (pread_node h q o "step" _ O HS). cbn [rbind]. rewrite as_of. cbn [rbind].
  unfold vae_loss_fn at 1. unfold train_apply at 1. rewrite (pread_raw h q o "moduledef" mdef O MD). cbn [rbind rmapM resolve]. rewrite DF.
  destruct (run (body step) w [r]) as [w1 out] eqn:Er. assert (PA := partition_parts _ w r _ W V Hp).
  destruct (apply_ok (body step) w r v _ t w1 out (Hf step) W V N L Wv Nv PA Er) as (v1 & s1 & d1 & U & Wv1 & Nv1 & Gs & Ws & Gd & E). cbn [p_def p_states sts_list] in E. rewrite E.
  destruct out as [y|e]; [|discriminate]. cbn [p_states one_state rbind].
  unfold loss_and_nodes. rewrite Er. unfold module_filter. rewrite Gs. cbn [rbind].
  destruct (state_filter s1 (FType "Loss") []) as [[losses|]|e]; cbn [rbind one_state]; try discriminate.
  destruct (apply_gradients _ _ _ _ _ _ _) as [h1 [[]|e]] eqn:EA; [|discriminate]. intros [= <- <- <- <-].
  split; [reflexivity|]. split.
  { assert (EA' := EA). unfold apply_gradients in EA. cbn [existsb dmem dget orb] in EA.
    rewrite (pread_raw h q o "tx" tx O TX), (pread_node h q o "opt_state" opt O HO), (pread_node h q o "params" _ O HP) in EA. cbn [heval] in EA.
    destruct (tx_update tx _ opt (of_state params)) as [[u opt1]|] eqn:TU; cbn [heval fst snd] in EA; [|discriminate].
    destruct (apply_updates (of_state params) u) as [p1|] eqn:AU; cbn [heval] in EA; [|discriminate].
    rewrite (pread_node h q o "step" _ O HS) in EA. cbn [heval] in EA. destruct (add_one step) as [st1|] eqn:AO; cbn [heval] in EA; [|discriminate].
    assert (GK : good_kw o []) by (split; [constructor|intros ? ? []]).
    destruct (step_ok tx_update apply_updates add_one h q o mdef (of_state params) tx opt step _ [] u opt1 p1 st1 O TO GK TU AU AO) as (o' & E' & _).
    rewrite EA' in E'. injection E' as ->. rewrite nth_error_app1; [exact O|]. apply nth_error_Some. congruence. }
  split; [reflexivity|]. split; [exact U|]. split; [now apply set_trace_wf|]. split; [exact Nv1|reflexivity].
Qed.

Lemma vae_loop_ok D total r tx : forall bodies w params d v t h q o mdef opt step h' v' q' losses,
  (forall body s, In body bodies -> ok_prog (body s)) -> wf_world w -> valid w r -> names_ok w r -> live w r -> wf_world v -> w_nodes v = w_nodes w ->
  module_partition w r [FType "Param"] = Ok (mkPure (One params) d) ->
  nth_error h q = Some o -> train_obj o mdef (of_state params) tx opt step -> as_def mdef = Some d ->
  vae_loop tx_update apply_updates add_one as_def as_state of_state total t D (map (fun (b : pyval -> prog pyval) s => user_fun (b s)) bodies) h v q = (h', v', Ok (q', losses)) ->
  q' = q /\ nth_error h' q = Some o /\ map Some losses = map (fun b => loss_and_nodes total (b step) w r) bodies /\ all_unchanged v v' /\ w_trace v' = w_trace v.
Proof.
  induction bodies as [|b bodies IH]; intros w params d v t h q o mdef opt step h' v' q' losses Hf W V N L Wv Nv Hp O TO DF.
  - cbn. intros [= <- <- <- <-]. split; [reflexivity|]. split; [exact O|]. split; [reflexivity|]. split; [intros x y Hx; exact Hx|reflexivity].
  - cbn [map vae_loop]. destruct (vae_step _ _ _ _ _ _ _ _ _ _ _ _ _) as [[h1 v1] [[q1 loss]|e]] eqn:E; [|discriminate].
    destruct (vae_step_ok D total b w r params d v t h q o mdef tx opt step h1 v1 q1 loss (fun s => Hf b s (or_introl eq_refl)) W V N L Wv Nv Hp O TO DF E) as (-> & O1 & EL & U & Wv1 & Nv1 & Tv1).
    destruct (vae_loop _ _ _ _ _ _ _ _ _ _ _ _ _) as [[h2 v2] [[q2 ls]|e]] eqn:E2; [|discriminate]. intros [= <- <- <- <-].
    destruct (IH w params d v1 t h1 q o mdef opt step h2 v2 q2 ls) as (-> & O2 & EL2 & U2 & Tv2); auto; [intros; apply Hf; now right|congruence|].
    split; [reflexivity|]. split; [exact O2|]. split; [cbn; now rewrite EL, EL2|]. split; [intros x y Hx; auto|congruence].
Qed.
End TsLoop.
