(** Prop_Early: C112, going back to a State that was read before. *)
From Coq Require Import Lia.
From Verif Require Import PyBase PyBaseFacts ValuesM Spec_Eq ValuesFacts FiltersM StateM ModuleM PureM TransformM GradFunM JitCacheM TrainLoopM EarlyM
  Spec_Module Spec_Prog Spec_GradFun Spec_TrainLoop Spec_Early
  Graph_facts Dfs_proofs Prop_GradFun Prop_TrainLoop Early_proofs Rollback_proofs Undo_proofs Ex_Module.
Local Open Scope string_scope.
Local Open Scope list_scope.

(** *** C112 *)
(** Whatever values the code writes into the model, and whether or where it raises, the
    State read before brings the model back.  What the code did to other objects stays. *)
Theorem C112_rollback_partial :
  forall A (f : prog A) w r w1 res,
  wf_world w -> r < List.length (w_heap w) -> names_ok w r -> live w r -> ok_prog f -> run f w [r] = (w1, res) -> steady w w1 r ->
  exists w2, tried f w r = (w2, Ok tt) /\ as_in w r w2 /\ rest_as_in w1 r w2.
Proof. intros A f w r w1 res W V N L Hf E S. exact (tried_ok f w r w1 res W V N L Hf E S). Qed.
Print Assumptions C112_rollback_partial.

(** A run that keeps the State of the best epoch ends with the model of the first epoch
    that no other one beats, also if a later epoch raises half way; the exception is
    that of the epoch. *)
Theorem C112_best_partial :
  forall better r w epochs log wz res,
  ranks better -> wf_world w -> r < List.length (w_heap w) -> names_ok w r -> live w r -> history steady r w epochs log wz res ->
  (log = [] -> fit better epochs w r = (wz, res)) /\
  (log <> [] -> exists i score wb w', first_best better log i score wb /\ fit better epochs w r = (w', res) /\ as_in wb r w' /\ rest_as_in wz r w').
Proof. intros better r w epochs log wz res R W V N L H. exact (fit_ok better r w epochs log wz res R H W V N L). Qed.
Print Assumptions C112_best_partial.

(** The code may also add node attributes (a cache, statistics, ...): then whatever the model
    had is back at every path, and what was added stays. *)
Theorem C112_adding_partial :
  forall A (f : prog A) w r w1 res,
  wf_world w -> r < List.length (w_heap w) -> names_ok w r -> live w r -> ok_prog f -> run f w [r] = (w1, res) -> adding w w1 r ->
  exists w2, tried f w r = (w2, Ok tt) /\ reads_back w w1 r w2 /\ rest_as_in w1 r w2.
Proof. intros A f w r w1 res W V N L Hf E HV. exact (tried_more f w r w1 res W V N L Hf E HV). Qed.
Print Assumptions C112_adding_partial.
Theorem C112_best_adding_partial :
  forall better r w epochs log wz res,
  ranks better -> wf_world w -> r < List.length (w_heap w) -> names_ok w r -> live w r -> history adding r w epochs log wz res ->
  (log = [] -> fit better epochs w r = (wz, res)) /\
  (log <> [] -> exists i score wb w', first_best better log i score wb /\ fit better epochs w r = (w', res) /\ reads_back wb wz r w' /\ rest_as_in wz r w').
Proof. intros better r w epochs log wz res R W V N L H. exact (fit_more better r w epochs log wz res R H W V N L). Qed.
Print Assumptions C112_best_adding_partial.

(** The code may write, add and delete any attributes but submodules: the node attributes
    the model had are back, deleted or overwritten ones too; everything else - static
    attributes, what was added - is as the code left it. *)
Theorem C112_attributes_partial :
  forall A (f : prog A) w r w1 res,
  wf_world w -> r < List.length (w_heap w) -> names_ok w r -> live w r -> ok_prog f -> run f w [r] = (w1, res) -> relinked w w1 r -> takes w w1 r ->
  exists w2, tried f w r = (w2, Ok tt) /\ nodes_back w w1 r w2 /\ rest_as_in w1 r w2.
Proof. intros A f w r w1 res W V N L Hf E HL HT. exact (tried_any f w r w1 res W V N L Hf E HL HT). Qed.
Print Assumptions C112_attributes_partial.
Theorem C112_best_attributes_partial :
  forall better r w epochs log wz res,
  ranks better -> wf_world w -> r < List.length (w_heap w) -> names_ok w r -> live w r -> history relinked r w epochs log wz res ->
  Forall (fun x => takes (snd x) wz r) log ->
  (log = [] -> fit better epochs w r = (wz, res)) /\
  (log <> [] -> exists i score wb w', first_best better log i score wb /\ fit better epochs w r = (w', res) /\ nodes_back wb wz r w' /\ rest_as_in wz r w').
Proof. intros better r w epochs log wz res R W V N L H T. exact (fit_any better r w epochs log wz res R H W V N L T). Qed.
Print Assumptions C112_best_attributes_partial.

(** *** Cases *)
(** [count += 1], then [linear1.w += k], then maybe an exception, then [linear2.w += k];
    the score is [x]. *)
Definition ex_epoch (k : nat) (raises : bool) (x : nat) : prog pyval :=
  Do (CGet 0 "count") (fun n => Do (CSet 0 "count" (arr (S (num n)))) (fun _ =>
  Do (CGet 0 "linear1") (fun _ => Do (CGet 0 "linear2") (fun _ =>
  Do (CGet 1 "w") (fun a => Do (CSet 1 "w" (param (num a + k))) (fun _ =>
  if raises then Finish (Err UserError) else
  Do (CGet 2 "w") (fun b => Do (CSet 2 "w" (param (num b + k))) (fun _ =>
  Finish (Ok (PyObj Array_cls x)))))))))).
Lemma ex_epoch_ok k raises x : ok_prog (ex_epoch k raises x).
Proof.
  unfold ex_epoch. destruct raises;
  repeat (apply ok_do; [first [exact Logic.I | split; [exact Logic.I|reflexivity] | split; [apply wf_containerb_ok; reflexivity|reflexivity]]|intros ? _]); constructor.
Qed.
Definition score_of (v : pyval) : nat := match v with PyObj _ n => n | _ => 0 end.
Definition larger (a b : pyval) : bool := Nat.ltb (score_of b) (score_of a).
Lemma larger_ranks : ranks larger.
Proof. split; unfold larger; intros *; rewrite ?Nat.ltb_lt, ?Nat.ltb_ge; lia. Qed.
Lemma steady_ex w w1 : names_okb w1 = true -> get_module_def w1 0 = get_module_def w 0 ->
  (exists s s1, get_state w 0 = Ok s /\ get_state w1 0 = Ok s1 /\ Forall2 (fun x y => fst x = fst y /\ same_shape (snd x) (snd y)) s s1) -> steady w w1 0.
Proof. intros N D (s & s1 & G & G1 & F). split; [now apply names_okb_ok|]. split; [exact D|]. intros a b Ha Hb. congruence. Qed.
Ltac steady := apply steady_ex; [vm_compute; reflexivity|vm_compute; reflexivity|eexists _, _; split; [vm_compute; reflexivity|]; split; [vm_compute; reflexivity|repeat constructor]].
(** Scores 3, 8, 8, 5, then an exception half way. *)
Definition ex_epochs : list (prog pyval) := [ex_epoch 1 false 3; ex_epoch 10 false 8; ex_epoch 100 false 8; ex_epoch 1 false 5; ex_epoch 1000 true 9; ex_epoch 1 false 20].
Example C112_hyps :
  ranks larger /\ wf_world ex_mlp /\ 0 < List.length (w_heap ex_mlp) /\ names_ok ex_mlp 0 /\ live ex_mlp 0 /\
  (exists w1, run (ex_epoch 5 true 0) ex_mlp [0] = (w1, Err UserError) /\ steady ex_mlp w1 0 /\ get_state w1 0 = Ok [("count", arr 1); ("linear1/w", param 8); ("linear2/w", param 5)]) /\
  exists log wz, history steady 0 ex_mlp ex_epochs log wz (Err UserError) /\ List.length log = 4.
Proof.
  split; [exact larger_ranks|]. split; [apply wf_worldb_ok; vm_compute; reflexivity|]. split; [vm_compute; lia|]. split; [apply names_okb_ok; vm_compute; reflexivity|].
  split; [apply liveb_ok; vm_compute; reflexivity|]. split.
  - eexists. split; [vm_compute; reflexivity|]. split; [steady|vm_compute; reflexivity].
  - eexists _, _. split.
    + do 4 (eapply hi_epoch; [apply ex_epoch_ok|vm_compute; reflexivity|steady|]). eapply hi_raised; [apply ex_epoch_ok|vm_compute; reflexivity|steady].
    + reflexivity.
Qed.
(** The second epoch is the best: its values come back, and the exception goes through. *)
Example C112_example :
  get_state ex_mlp 0 = Ok [("count", arr 0); ("linear1/w", param 3); ("linear2/w", param 5)] /\
  (let (w', res) := fit larger ex_epochs ex_mlp 0 in
   res = Err UserError /\ get_state w' 0 = Ok [("count", arr 2); ("linear1/w", param 14); ("linear2/w", param 16)]) /\
  (let (w1, _) := run (ex_epoch 5 true 0) ex_mlp [0] in let (w2, res) := tried (ex_epoch 5 true 0) ex_mlp 0 in
   w1 <> ex_mlp /\ w2 = ex_mlp /\ res = Ok tt).
Proof. split; [vm_compute; reflexivity|]. split; [vm_compute; split; reflexivity|]. vm_compute. split; [discriminate|]. split; reflexivity. Qed.

(** Epochs that also keep a new attribute "h<k>" in [linear1]. *)
Definition ex_grow (k : nat) (name : string) (x : nat) : prog pyval :=
  Do (CGet 0 "linear1") (fun _ => Do (CGet 1 "w") (fun a => Do (CSet 1 "w" (param (num a + k))) (fun _ =>
  Do (CSet 1 name (arr k)) (fun _ => Finish (Ok (PyObj Array_cls x)))))).
Lemma ex_grow_ok k name x : ok_prog (ex_grow k name x).
Proof.
  unfold ex_grow. repeat (apply ok_do; [first [exact Logic.I | split; [exact Logic.I|reflexivity] | split; [apply wf_containerb_ok; reflexivity|reflexivity]]|intros ? _]); constructor.
Qed.
Ltac adding := split; [split; [reflexivity|]; intros x [p Hx]; apply follow_valid in Hx as [o Ho]; pose proof (get_obj_lt _ _ _ Ho) as Hlt; vm_compute in Hlt;
  do 4 (destruct x as [|x]; [eexists _, _; split; [vm_compute; reflexivity|]; split; [vm_compute; reflexivity|]; split; [reflexivity|]; split; [reflexivity|];
    intros n; cbn [m_vars dget];
    repeat match goal with |- context [String.eqb n ?k] => destruct (String.eqb_spec n k) as [->|?]; [try (left; reflexivity)|] end;
    try exact Logic.I; try (right; split; [|split; [|repeat split]]); apply node_attr_iff; eexists; repeat split; vm_compute; reflexivity|]); exfalso; lia
  |apply names_okb_ok; vm_compute; reflexivity].
Definition ex_growing : list (prog pyval) := [ex_grow 1 "h1" 3; ex_grow 10 "h2" 8; ex_grow 100 "h3" 5].
(** The second epoch is the best: [w] and "h2" are as they were after it; "h3" stays. *)
Example C112_adding_example :
  (exists log wz, history adding 0 ex_mlp ex_growing log wz (Ok tt) /\ List.length log = 3 /\
     get_state wz 0 = Ok [("count", arr 0); ("linear1/h1", arr 1); ("linear1/h2", arr 10); ("linear1/h3", arr 100); ("linear1/w", param 114); ("linear2/w", param 5)]) /\
  (exists w', fit larger ex_growing ex_mlp 0 = (w', Ok tt) /\
     get_state w' 0 = Ok [("count", arr 0); ("linear1/h1", arr 1); ("linear1/h2", arr 10); ("linear1/h3", arr 100); ("linear1/w", param 14); ("linear2/w", param 5)]).
Proof.
  split.
  - eexists _, _. split.
    + do 3 (eapply hi_epoch; [apply ex_grow_ok|vm_compute; reflexivity|adding|]). constructor.
    + split; [reflexivity|vm_compute; reflexivity].
  - eexists. split; vm_compute; reflexivity.
Qed.

(** Epochs that delete, overwrite and add: the Variable of [linear1] is deleted, [count] is
    overwritten with a string, the static attribute [phase] with an array. *)
Definition ex_tidy (x : nat) : prog pyval :=
  Do (CGet 0 "linear1") (fun _ => Do (CDel 1 "w") (fun _ => Do (CSet 0 "count" (ARaw (PyStr "none"))) (fun _ =>
  Do (CSet 0 "phase" (arr 7)) (fun _ => Finish (Ok (PyObj Array_cls x)))))).
Lemma ex_tidy_ok x : ok_prog (ex_tidy x).
Proof. unfold ex_tidy. repeat (apply ok_do; [first [exact Logic.I | split; [exact Logic.I|reflexivity]]|intros ? _]); constructor. Qed.
Ltac relinked := split; [split; [reflexivity|]; intros x [p Hx]; apply follow_valid in Hx as [o Ho]; pose proof (get_obj_lt _ _ _ Ho) as Hlt; vm_compute in Hlt;
  do 4 (destruct x as [|x]; [eexists _, _; split; [vm_compute; reflexivity|]; split; [vm_compute; reflexivity|];
    intros n y; cbn [m_vars dget];
    repeat match goal with |- context [String.eqb n ?k] => destruct (String.eqb_spec n k) as [->|?]; [cbn; split; intros H; solve [exact H|discriminate H]|] end; cbn; split; intros H; solve [exact H|discriminate H]|]); exfalso; lia
  |apply names_okb_ok; vm_compute; reflexivity].
Ltac takes := intros x n a o1 c [p Hx] Ha Ho1 Hd; apply follow_valid in Hx as [o Ho]; pose proof (get_obj_lt _ _ _ Ho) as Hlt; vm_compute in Hlt;
  apply node_attr_iff in Ha as (o' & Ho' & Ha & _);
  do 4 (destruct x as [|x]; [vm_compute in Ho'; injection Ho' as <-; vm_compute in Ho1; injection Ho1 as <-; cbn [m_vars dget] in Ha, Hd;
    repeat match goal with H : context [String.eqb n ?k] |- _ => destruct (String.eqb_spec n k) as [->|?]; cbn in Ha, Hd; try discriminate Ha; try discriminate Hd; try (injection Ha as <-; injection Hd as <-; split; reflexivity) end|]); exfalso; lia.
Definition ex_tidying : list (prog pyval) := [ex_epoch 1 false 3; ex_epoch 10 false 8; ex_tidy 5].
(** The second epoch is the best: its values come back, also where the third had deleted
    or overwritten them; [phase] is what the third made of it. *)
Example C112_attributes_example :
  (exists log wz, history relinked 0 ex_mlp ex_tidying log wz (Ok tt) /\ List.length log = 3 /\ Forall (fun x => takes (snd x) wz 0) log /\
     get_state wz 0 = Ok [("linear2/w", param 16); ("phase", arr 7)]) /\
  (exists w', fit larger ex_tidying ex_mlp 0 = (w', Ok tt) /\
     get_state w' 0 = Ok [("count", arr 2); ("linear1/w", param 14); ("linear2/w", param 16); ("phase", arr 7)]).
Proof.
  split.
  - eexists _, _. split.
    + do 2 (eapply hi_epoch; [apply ex_epoch_ok|vm_compute; reflexivity|relinked|]). eapply hi_epoch; [apply ex_tidy_ok|vm_compute; reflexivity|relinked|]. constructor.
    + split; [reflexivity|]. split; [|vm_compute; reflexivity]. repeat constructor; cbn [snd]; takes.
  - eexists. split; vm_compute; reflexivity.
Qed.
(** Where the code has put a Variable of another class, going back raises. *)
Theorem C112_kind_refuted :
  exists (f : prog unit) w1 w2, ok_prog f /\ run f ex_mlp [0] = (w1, Ok tt) /\ relinked ex_mlp w1 0 /\ tried f ex_mlp 0 = (w2, Err ValueError) /\
    look w2 0 ["linear1"; "w"] = SValue (stat 4).
Proof.
  exists (Do (CGet 0 "linear1") (fun _ => Do (CDel 1 "w") (fun _ => Do (CSet 1 "w" (stat 4)) (fun _ => Finish (Ok tt))))). eexists _, _.
  split; [repeat (apply ok_do; [first [exact Logic.I|split; [apply wf_containerb_ok; reflexivity|reflexivity]]|intros ? _]); constructor|].
  split; [vm_compute; reflexivity|]. split; [relinked|]. split; vm_compute; reflexivity.
Qed.
Print Assumptions C112_kind_refuted.

(** False in general: what the code adds to the model stays, and so does a static
    attribute it changed, without any error. *)
Theorem C112_added_refuted :
  exists (f : prog unit) w2, ok_prog f /\ tried f ex_mlp 0 = (w2, Ok tt) /\
    exists s s2, get_state ex_mlp 0 = Ok s /\ get_state w2 0 = Ok s2 /\ s2 <> s /\ dget "seen" s = None /\ dget "seen" s2 = Some (arr 4).
Proof.
  exists (Do (CSet 0 "seen" (arr 4)) (fun _ => Finish (Ok tt))). eexists. split; [repeat constructor|]. split; [vm_compute; reflexivity|].
  eexists _, _. split; [vm_compute; reflexivity|]. split; [vm_compute; reflexivity|]. split; [discriminate|]. split; reflexivity.
Qed.
Print Assumptions C112_added_refuted.
Theorem C112_static_refuted :
  exists (f : prog unit) w2, ok_prog f /\ tried f ex_mlp 0 = (w2, Ok tt) /\ get_state w2 0 = get_state ex_mlp 0 /\
    look w2 0 ["phase"] <> look ex_mlp 0 ["phase"] /\ get_module_def w2 0 <> get_module_def ex_mlp 0.
Proof.
  exists (Do (CSet 0 "phase" (ARaw (PyStr "warm"))) (fun _ => Finish (Ok tt))). eexists. split; [repeat constructor|]. split; [vm_compute; reflexivity|].
  split; [vm_compute; reflexivity|]. split; vm_compute; discriminate.
Qed.
Print Assumptions C112_static_refuted.
(** A submodule put in the place of another gets the values, but the one that was there is
    not put back: a second name of it is now a path of its own. *)
Theorem C112_replaced_refuted :
  exists (f : prog unit) w2 old new, ok_prog f /\ tried f ex_mlp 0 = (w2, Ok tt) /\ follow ex_mlp 0 ["linear1"] = Some old /\ follow w2 0 ["linear1"] = Some new /\ old <> new /\
    get_state w2 0 <> get_state ex_mlp 0.
Proof.
  exists (Do (CNew (Mod_cls "Linear")) (fun _ => Do (CSet 1 "w" (param 77)) (fun _ => Do (CLink 0 "linear1" 1) (fun _ => Finish (Ok tt))))).
  eexists _, _, _. split; [repeat (apply ok_do; [first [exact Logic.I|right; left; reflexivity|split; [apply wf_containerb_ok; reflexivity|reflexivity]]|intros ? _]); constructor|].
  split; [vm_compute; reflexivity|]. split; [vm_compute; reflexivity|]. split; [vm_compute; reflexivity|]. split; [discriminate|]. vm_compute. discriminate.
Qed.
Print Assumptions C112_replaced_refuted.
