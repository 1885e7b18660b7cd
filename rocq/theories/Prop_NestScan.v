(** Property C102: scans of functions that use transforms, transforms of functions that scan. *)
From Coq Require Import ZArith Lia.
From Verif Require Import PyBase PyBaseFacts ValuesM Spec_Eq ValuesFacts FiltersM StateM ModuleM ContextM JitArgsM SpmdM ScanM RematArgsM TransformM GradFunM NestM
  Spec_Module Spec_Prog Spec_JitArgs Spec_RematArgs Spec_GradFun Spec_Mixed Spec_Scan Spec_ScanCalls Spec_Nest
  Graph_facts Dfs_proofs Build_proofs Bisim_proofs Skel_proofs RoundTrip_proofs Write_proofs Clone_proofs Update_proofs Prog_proofs Transform_proofs History_proofs Leaf_proofs
  JitArgs_proofs RematArgs_proofs Mixed_proofs ScanPair_proofs Nest_proofs Ex_Module Prop_Transform Prop_Mixed Prop_GradFun Prop_TrainLoop Prop_Nest.
Local Open Scope string_scope.
Local Open Scope nat_scope.
Local Open Scope list_scope.

(** *** C102 *)
(** Scanning a function that calls jit, remat, grad or scan on the modules it gets, to any
    depth: the scan returns, or raises, what the scan of the function without these
    transforms does, the module looks the same afterwards, and no other module changes.
    The function may return or raise; it respects the conditions of the transforms in
    every call that is made.  If the scan is given a Context, the function gets one in each
    step. *)
Theorem C102_scan_of_transforms :
  forall blake J o t body w r c xs ctx ss, arrays_ok J ->
  (forall c xs, (forall v, In v (c :: xs) -> jax_arg (GVal v)) -> ok_nprog (body c xs)) ->
  wf_world w -> r < List.length (w_heap w) -> live w r -> In "jax.Array" (w_nodes w) ->
  let with_them := scan_body (fun pc c xs => in_frame (nrun blake (body c xs)) pc) in
  let without := scan_body (fun pc c xs => in_frame (plain blake (body c xs)) pc) in
  scan_calls J o t without (fun pc c xs v m => (forall x, In x (c :: xs) -> jax_arg (GVal x)) -> fits_in (fits blake (body c xs)) pc v m) w r c xs ctx ss ->
  exists w' wd res ss', scan_apply J o t with_them w r c xs ctx ss = (w', ss', res) /\ scan_apply J o t without w r c xs ctx ss = (wd, ss', res) /\
    (forall q, look w' r q = look wd r q) /\
    (forall q q', follow w' r q = follow w' r q' <-> follow wd r q = follow wd r q') /\
    get_state w' r = get_state wd r /\ get_module_def w' r = get_module_def wd r /\
    w_trace w' = w_trace w /\
    (forall x ob, get_obj w x = Some ob -> ~ reaches w r x -> get_obj w' x = Some ob).
Proof.
  intros blake J o t body w r c xs ctx ss HJ Hb W V L Ja with_them without Hc.
  set (R := fun x y => x = y /\ exists r0, In r0 [r] /\ reaches w r0 x).
  assert (P : pair w w R). { apply pair_start; [exact W|]. intros x [<-|[]]. auto. }
  assert (Hr : R r r). { split; [reflexivity|]. exists r. split; [now left|]. destruct (get_obj_ex _ _ V) as [ob Ho]. eapply reaches_refl; exact Ho. }
  destruct (apply_both J o with_them without _ (fun c => jax_arg (GVal c)) (w_nodes w) HJ (scanned_both blake body (w_nodes w) Ja Hb (fun c xs H => nest_pair blake _ (Hb c xs H)))
    w w R r r P Hr eq_refl t c xs ctx ctx ss) as (w' & wd & res & ss' & E1 & E2 & M & _); auto.
  { revert Hc. apply scan_calls_impl. intros pc c0 xs0 v m H Ha. apply H. now apply arrays_only_iff. }
  exists w', wd, res, ss'. split; [exact E1|]. split; [exact E2|]. pose proof (mv_pair _ _ _ _ _ _ M) as P2. destruct P2 as [B Wf Wf' N Li Li'].
  split; [intros q; eapply bisim_look; eauto|]. split.
  { intros q q'. pose proof (bisim_follow_iff _ _ _ q B _ _ Hr) as G. pose proof (bisim_follow_iff _ _ _ q' B _ _ Hr) as G'.
    destruct (follow w' r q) as [a|], (follow wd r q) as [b|]; try contradiction; destruct (follow w' r q') as [a'|], (follow wd r q') as [b'|]; try contradiction;
      try (split; discriminate); try (split; reflexivity).
    split; intros [= <-]; f_equal; [eapply (bi_fun _ _ _ B); eauto|eapply (bi_inj _ _ _ B); eauto]. }
  split; [eapply bisim_get_state; eauto|]. split; [eapply bisim_module_def; eauto|].
  split; [apply (mv_tr _ _ _ _ _ _ M)|].
  intros x ob Ho Hn. rewrite (mv_fr _ _ _ _ _ _ M); [exact Ho|eapply get_obj_lt; exact Ho|].
  intros y [_ (r0 & [<-|[]] & Hx)]. exact (Hn Hx).
Qed.
Print Assumptions C102_scan_of_transforms.

(** A function under stateful jit, or under remat, that scans the module it gets: the call
    returns what the scan returns, and leaves the module as the scan leaves it; if the scan
    raises, the call raises the same and the module is as before. *)
Definition returned (x : result (pyval * list pyval)) : result pyval := rmap (fun cy => PyTuple [fst cy; PyTuple (snd cy)]) x.
Definition scanning (J : ScanM.arrays) (o : scan_opts) (t : trace_state) (c : pyval) (xs : list pyval) (ctx : option nat) (body : pyval -> list pyval -> nprog) : nprog :=
  NScan J o t 0 c xs ctx body (fun x => NFin (returned x)).
Theorem C102_transform_of_scan :
  forall blake J o t body w r c xs f outer, arrays_ok J ->
  (forall c xs, (forall v, In v (c :: xs) -> jax_arg (GVal v)) -> ok_nprog (body c xs)) ->
  wf_world w -> r < List.length (w_heap w) -> live w r -> names_ok w r -> jax_module w r -> In "jax.Array" (w_nodes w) -> frame_ok w f ->
  let without := scan_body (fun pc c xs => in_frame (plain blake (body c xs)) pc) in
  scan_calls J o t without (fun pc c xs v m => (forall x, In x (c :: xs) -> jax_arg (GVal x)) -> fits_in (fits blake (body c xs)) pc v m) w r c xs None [] ->
  (exists t', outer = NJit true t' 0) \/ (exists a t', nums_ok a 0 /\ outer = NRemat a t' 0 None) ->
  forall wd res, scan_apply J o t without w r c xs None [] = (wd, [], res) ->
  (forall out, res = Ok out -> nodes_only w wd r /\ names_ok wd r /\ jax_module wd r /\ jax_arg (GVal (PyTuple [fst out; PyTuple (snd out)]))) ->
  exists w', nrun blake (outer (scanning J o t c xs None body) NFin) w [r] f = (w', returned res) /\
    (let left := match res with Ok _ => wd | Err _ => w end in
     (forall q, look w' r q = look left r q) /\
     (forall q q', follow w' r q = follow w' r q' <-> follow left r q = follow left r q') /\
     get_state w' r = get_state left r /\ get_module_def w' r = get_module_def left r) /\
    w_trace w' = w_trace w /\
    (forall x ob, get_obj w x = Some ob -> ~ reaches w r x -> get_obj w' x = Some ob).
Proof.
  intros blake J o t body w r c xs f outer HJ Hb W V L Nm Jm Ja Hfr without Hc Ho wd res E Hok.
  assert (Hsc : ok_nprog (scanning J o t c xs None body)) by (constructor; auto; intros; constructor).
  assert (Fs : fits_in (fits blake (scanning J o t c xs None body)) None w r).
  { intros f0 [= <-]. cbn [fits scanning nth_error]. exists r, None. split; [reflexivity|]. split; [reflexivity|]. fold without. cbn [cw_streams cstart]. split.
    - revert Hc. apply scan_calls_impl. intros pc c0 xs0 v m H Ha. apply H. now apply arrays_only_iff.
    - rewrite E. exact Logic.I. }
  assert (Ep : in_frame (plain blake (scanning J o t c xs None body)) None w r = (wd, returned res)).
  { unfold in_frame. cbn [frame_of plain scanning nth_error held cw_streams cstart]. fold without. rewrite E. reflexivity. }
  assert (En : next true w wd (returned res) = match res with Ok _ => wd | Err _ => w end) by (destruct res; reflexivity).
  assert (Kp : kept true w wd r (returned res)). { intros out Hout _. destruct res as [cy|e]; [|discriminate]. destruct (Hok cy eq_refl) as (A1 & A2 & _). auto. }
  assert (Cr : crosses true wd r (rmap GVal (returned res))).
  { intros out Hout. destruct res as [cy|e]; [|discriminate]. destruct (Hok cy eq_refl) as (_ & _ & A3 & A4). injection Hout as <-. auto. }
  set (p := outer (scanning J o t c xs None body) NFin).
  assert (Hp : ok_nprog p). { unfold p. destruct Ho as [(t' & ->)|(a & t' & _ & ->)]; constructor; auto; intros; constructor. }
  assert (Fp : fits blake p w [r] f).
  { unfold p. destruct Ho as [(t' & ->)|(a & t' & Na & ->)]; cbn [fits nth_error].
    - exists r. rewrite Ep. repeat (split; [now auto|]). exact Logic.I.
    - exists r, None. cbn [held forked]. rewrite Ep. repeat (split; [now auto|]). exact Logic.I. }
  assert (Pp : plain blake p w [r] f = (match res with Ok _ => wd | Err _ => w end, returned res)).
  { unfold p. destruct Ho as [(t' & ->)|(a & t' & _ & ->)]; cbn [plain nth_error held forked]; rewrite Ep, En; reflexivity. }
  destruct (C98_nested blake p w [r] f Hp W) as (w' & wd' & res' & E1 & E2 & A1 & A2 & A3 & A4 & A5); auto.
  { intros x [<-|[]]. auto. }
  rewrite Pp in E2. injection E2 as <- <-. exists w'. split; [exact E1|]. cbn zeta.
  split; [split; [intros q; apply A1; now left|split; [intros q q'; apply A2; now left|apply A3; now left]]|]. split; [exact A4|].
  intros x ob Hx Hn. apply A5; [exact Hx|]. intros r0 [<-|[]]. exact Hn.
Qed.
Print Assumptions C102_transform_of_scan.

(** *** A case
    Arrays of length two are numbers of two digits.  A stack of two layers is scanned under
    jit; each layer runs under remat, counts the calls in the carried state, and changes its
    weight. *)
Definition digits : ScanM.arrays :=
  mkArrays (fun _ v => match v with PyObj _ n => Ok [PyObj Array_cls (n / 10); PyObj Array_cls (n mod 10)] | _ => Err TypeError end)
           (fun _ l => PyObj Array_cls (fold_left (fun a v => 10 * a + numof v) l 0)).
Lemma digits_ok : arrays_ok digits.
Proof. constructor; [|intros; exact Logic.I]. intros ax v l x H I. cbn in H. destruct v; try discriminate. injection H as <-. destruct I as [<-|[<-|[]]]; exact Logic.I. Qed.
Definition wparam (n : nat) : attr := ACont (mkCont Param_cls [("sharding", PyNone)] (PyObj Array_cls n)).
Definition ex_stack : world := mkWorld
  [ mkMobj (Mod_cls "Block") 1 false (0, 0) [("inner", sub 1); ("calls", arr 0)];
    mkMobj (Mod_cls "Dense") 2 false (0, 0) [("w", wparam 23)];
    mkMobj (Mod_cls "Other") 3 false (0, 0) [("peer", sub 1)] ]
  3 (0, 0) default_node_types.
Definition ex_sopts : scan_opts := mkScan [(FType "Param", 0%Z)] FNone FEllipsis (RStr "dropout") 0%Z 0%Z None false None.
(** inside remat: m.calls += 1; w = m.inner.w; m.inner.w = w + x; return c + w *)
Definition ex_sbody (c : pyval) (xs : list pyval) : nprog :=
  NRemat (NumTuple []) (9, 9) 0 None
    (NDo (CGet 0 "calls") (fun n => NDo (CSet 0 "calls" (arr (S (num n)))) (fun _ => NDo (CGet 0 "inner") (fun _ =>
     NDo (CGet 1 "w") (fun a => NDo (CSet 1 "w" (arr (num a + numof (nth 0 xs PyNone)))) (fun _ => NFin (Ok (PyObj Array_cls (numof c + num a)))))))))
    (fun x => match x with Ok v => NFin (Ok (PyTuple [v; c])) | Err e => NFin (Err e) end).
Definition ex_swithout : scanned := scan_body (fun pc c xs => in_frame (plain no_hash (ex_sbody c xs)) pc).
Definition ex_sin : list pyval := [PyObj Array_cls 41].
Lemma ex_sbody_ok c xs : (forall v, In v (c :: xs) -> jax_arg (GVal v)) -> ok_nprog (ex_sbody c xs).
Proof.
  intros _. apply on_remat.
  - repeat (apply on_do; [first [exact Logic.I|split; [exact Logic.I|reflexivity]]|intros ? _]). constructor.
  - intros [v|e] _; constructor.
Qed.
Definition ex_sdone : world := match scan_apply digits ex_sopts (8, 8) ex_swithout ex_stack 0 (PyObj Array_cls 1) ex_sin None [] with (w, _, _) => w end.
(** the result: carry 1 + 2 + 3; outputs 1 and 3 *)
Example C102_ex_result : scan_apply digits ex_sopts (8, 8) ex_swithout ex_stack 0 (PyObj Array_cls 1) ex_sin None [] =
  (ex_sdone, [], Ok (PyObj Array_cls 6, [PyObj Array_cls 13])).
Proof. vm_compute. reflexivity. Qed.
Example C102_ex_state : get_state ex_sdone 0 = Ok [("calls", arr 2); ("inner/w", wparam 64)].
Proof. vm_compute. reflexivity. Qed.
Example C102_ex_module : wf_world ex_stack /\ live ex_stack 0 /\ names_ok ex_stack 0 /\ jax_module ex_stack 0.
Proof.
  split; [apply wf_worldb_ok; vm_compute; reflexivity|]. split; [apply liveb_ok; vm_compute; reflexivity|]. split; [apply names_okb_ok; vm_compute; reflexivity|jaxv_tac].
Qed.
(** the conditions, in every call *)
Ltac nodesn_tac :=
  split; [reflexivity|]; intros x0 [p0 Hx]; apply follow_valid in Hx as [ob Ho]; pose proof (get_obj_lt _ _ _ Ho) as Hlt;
  assert (Hnode : forall w x n a o, get_obj w x = Some o -> dget n (m_vars o) = Some a -> is_submodule a = false ->
     is_node (w_nodes w) a = true -> node_attr w x n a) by (intros; apply Dfs_proofs.node_attr_iff; eauto);
  vm_compute in Hlt; clear Ho;
  do 12 try (destruct x0 as [|x0]; [eexists _, _; split; [vm_compute; reflexivity|]; split; [vm_compute; reflexivity|];
    split; [reflexivity|]; split; [reflexivity|]; intros n; cbn [m_vars dget];
    repeat match goal with |- context [String.eqb n ?k] => destruct (String.eqb_spec n k) as [->|?]; [try (left; reflexivity)|] end;
    try exact Logic.I|]); try lia;
  right; (split; [eapply Hnode; vm_compute; reflexivity|]); (split; [eapply Hnode; vm_compute; reflexivity|]); repeat split; apply ValuesFacts.same_meta_refl.
Ltac call_tac :=
  intros _; intros f0 Ef0; cbn in Ef0; injection Ef0 as <-; cbn [fits ex_sbody nth_error];
  match goal with |- exists r0 x0, _ /\ _ /\ names_ok ?w _ /\ _ => set (W := w) end;
  match goal with |- exists r0 x0, Some ?m = Some r0 /\ _ => exists m, None end;
  split; [reflexivity|]; split; [reflexivity|]; split; [apply names_okb_ok; vm_compute; reflexivity|]; split; [jaxv_tac|]; split; [intros z0 []|]; cbn [forked]; split; [intros f1 Ef1; cbn in Ef1; injection Ef1 as <-; vm_compute; exact Logic.I|];
  match goal with |- context [in_frame (plain no_hash ?p) ?pc ?w ?m] => let v := eval vm_compute in (fst (in_frame (plain no_hash p) pc w m)) in let u := eval vm_compute in (snd (in_frame (plain no_hash p) pc w m)) in
    set (W2 := v); replace (in_frame (plain no_hash p) pc w m) with (W2, u) by (vm_compute; reflexivity) end;
  split; [intros out _ _; split; [nodesn_tac|apply names_okb_ok; vm_compute; reflexivity]|];
  split; [intros out [= <-]; split; [apply arr_jax|intros _; jaxv_tac]|exact Logic.I].
Ltac step_tac :=
  let axs1 := fresh "axs1" in let m1 := fresh "m1" in let v1 := fresh "v1" in let E1 := fresh "E1" in let E2 := fresh "E2" in
  intros axs1 m1 v1 E1 E2; vm_compute in E1; injection E1 as <-; vm_compute in E2; injection E2 as <- <-; cbn [fst snd]; call_tac.
Example C102_ex_calls : scan_calls digits ex_sopts (8, 8) ex_swithout
  (fun pc c xs v m => (forall x, In x (c :: xs) -> jax_arg (GVal x)) -> fits_in (fits no_hash (ex_sbody c xs)) pc v m) ex_stack 0 (PyObj Array_cls 1) ex_sin None [].
Proof.
  intros q axs b cs sl lens at_step n pc ss' E1 E2 E3 E4 E5 E6. vm_compute in E1. injection E1 as <-. cbn [p_states p_def sts_list] in *.
  destruct axs as [|a1 [|a2 axs]]; cbn [app] in E2; try discriminate; [|apply (f_equal (@List.length _)) in E2; cbn in E2; rewrite app_length in E2; cbn in E2; lia]. injection E2 as <- <- <-.
  vm_compute in E3. injection E3 as <-. cbn in E4. injection E4 as <- <-. vm_compute in E5. injection E5 as <-. cbn in E6. injection E6 as <- <-.
  unfold run_calls. cbn [scan_input seq map].
  split; [step_tac|]. intros w1 carry1 y E. vm_compute in E. injection E as <- <- <-. cbn [out_cs_new fst snd]. unfold in_order. cbn [o_reverse ex_sopts step_calls].
  split; [step_tac|]. intros w1 carry1 y E _. vm_compute in E. injection E as <- <- <-.
  split; [step_tac|]. intros w1 carry1 y E _. exact Logic.I.
Qed.
Example C102_ex_kept : nodes_only ex_stack ex_sdone 0 /\ names_ok ex_sdone 0 /\ jax_module ex_sdone 0 /\
  jax_arg (GVal (PyTuple [PyObj Array_cls 6; PyTuple [PyObj Array_cls 13]])).
Proof.
  split; [nodesn_tac|]. split; [apply names_okb_ok; vm_compute; reflexivity|]. split; [jaxv_tac|]. apply jax_arg_iff. vm_compute. reflexivity.
Qed.
Example C102_ex_run :
  snd (nrun no_hash (NJit true (7, 7) 0 (scanning digits ex_sopts (8, 8) (PyObj Array_cls 1) ex_sin None ex_sbody) NFin) ex_stack [0] no_ctx) =
    Ok (PyTuple [PyObj Array_cls 6; PyTuple [PyObj Array_cls 13]]) /\
  get_state (fst (nrun no_hash (NJit true (7, 7) 0 (scanning digits ex_sopts (8, 8) (PyObj Array_cls 1) ex_sin None ex_sbody) NFin) ex_stack [0] no_ctx)) 2 = Ok [("peer/w", wparam 64)].
Proof. vm_compute. split; reflexivity. Qed.
