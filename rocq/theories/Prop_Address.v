(** Prop_Address: C115, the keys of a State given to update_state may be any paths. *)
From Coq Require Import Lia.
From Verif Require Import PyBase PyBaseFacts ValuesM Spec_Eq ValuesFacts FiltersM StateM ModuleM
  Spec_Module Spec_Prog Spec_GradFun Spec_TrainLoop Spec_Address Graph_facts Dfs_proofs Address_proofs Ex_Module Prop_TrainLoop.
Local Open Scope string_scope.
Local Open Scope list_scope.

(** *** C115 *)
(** Whatever paths the keys are - not only those that get_state lists - exactly the
    attributes they name are assigned, and new ones are made. *)
Theorem C115_any_path :
  forall w r s, wf_world w -> r < List.length (w_heap w) -> names_ok w r -> live w r -> fits w r s ->
  exists w', update_state w r (UStates (One s)) = (w', Ok tt) /\ assigned w r s w'.
Proof. exact update_assigns. Qed.
Print Assumptions C115_any_path.
(** A State for a part can be given to the part or, with the path in front, to the whole,
    by any path to the part. *)
Theorem C115_part :
  forall w r p c s, wf_world w -> r < List.length (w_heap w) -> names_ok w r -> live w r -> p <> [] -> follow w r p = Some c -> fits w c s ->
  exists w1 w2, update_state w r (UStates (One (below p s))) = (w1, Ok tt) /\ update_state w c (UStates (One s)) = (w2, Ok tt) /\ same_everywhere w1 w2 /\ w_trace w1 = w_trace w2.
Proof. exact update_part. Qed.
Print Assumptions C115_part.
(** Two States that have the same values for the same attributes have the same effect. *)
Theorem C115_names :
  forall w r s s', wf_world w -> r < List.length (w_heap w) -> names_ok w r -> live w r -> fits w r s -> fits w r s' ->
  (forall x n a, (exists k, dget k s = Some a /\ named w r k x n) <-> (exists k, dget k s' = Some a /\ named w r k x n)) ->
  exists w1 w2, update_state w r (UStates (One s)) = (w1, Ok tt) /\ update_state w r (UStates (One s')) = (w2, Ok tt) /\ same_everywhere w1 w2 /\ w_trace w1 = w_trace w2.
Proof. exact update_renamed. Qed.
Print Assumptions C115_names.
(** Transfer learning: the State of a model [b] goes into the part at [p], which has the
    same entries.  The part then has the State of [b] and its own definition. *)
Theorem C115_transfer :
  forall w r p c b sb sc, wf_world w -> r < List.length (w_heap w) -> names_ok w r -> live w r -> b < List.length (w_heap w) -> names_ok w b -> p <> [] -> follow w r p = Some c ->
  get_state w b = Ok sb -> get_state w c = Ok sc -> Forall2 (fun x y => fst x = fst y /\ same_shape (snd x) (snd y)) sc sb ->
  exists w1, update_state w r (UStates (One (below p sb))) = (w1, Ok tt) /\ assigned w r (below p sb) w1 /\ get_state w1 c = Ok sb /\ get_module_def w1 c = get_module_def w c.
Proof. exact transfer. Qed.
Print Assumptions C115_transfer.
(** A key that names nothing is never ignored: the call raises. *)
Theorem C115_refused :
  forall w r s k w' res, wf_world w -> r < List.length (w_heap w) -> names_ok w r -> NoDup (keys s) -> (forall j a, dget j s = Some a -> is_submodule a = false) ->
  In k (keys s) -> (forall x n, ~ named w r k x n) -> update_state w r (UStates (One s)) = (w', res) -> exists e, res = Err e.
Proof.
  intros w r s k w' res W V N ND Hp Hk Hn U. destruct res as [[]|e]; [|now exists e]. exfalso. destruct (update_named w r s w' W V N ND Hp U k Hk) as (x & n & H). exact (Hn x n H).
Qed.
Print Assumptions C115_refused.

(** *** Cases *)
(** By second names, around the cycle, over a static attribute, and a new attribute. *)
Definition ex_odd : state := [("inp/norm/parent/inp/w", param 51); ("out/extra", arr 6); ("out/norm/mean", stat 50); ("scale", arr 5)].
Ltac fits := try unfold ex_odd; split; [apply nodupb_ok; vm_compute; reflexivity|]; split;
  [intros k a H; cbn [dget] in H;
   repeat match type of H with context [String.eqb k ?j] => destruct (String.eqb_spec k j) as [->|?]; [injection H as <-; split; [first [exact Logic.I|apply wf_containerb_ok; vm_compute; reflexivity]|]; split; [reflexivity|];
     eexists _, _, _; split; [apply named_target; vm_compute; reflexivity|]; eexists; split; [reflexivity|]; split; [discriminate|]; cbn; first [reflexivity|split; [reflexivity|]; first [reflexivity|split; [reflexivity|]; split; [apply same_meta_refl|reflexivity]]]|] end; discriminate
  |intros k k' x n Hk Hk' Hn Hn'; apply named_target in Hn, Hn'; cbn in Hk, Hk';
   repeat match type of Hk with _ \/ _ => destruct Hk as [<-|Hk] end; try (now destruct Hk);
   repeat match type of Hk' with _ \/ _ => destruct Hk' as [<-|Hk'] end; try (now destruct Hk'); try reflexivity; exfalso; vm_compute in Hn, Hn'; congruence].
Example C115_hyps : fits ex_cyc 0 ex_odd /\ get_state ex_cyc 0 = Ok [("inp/norm/mean", stat 14); ("inp/w", param 11); ("out/buf", arr 13); ("out/w", param 12); ("w", param 10)].
Proof. split; [fits|vm_compute; reflexivity]. Qed.
Example C115_example :
  exists w', update_state ex_cyc 0 (UStates (One ex_odd)) = (w', Ok tt) /\
    get_state w' 0 = Ok [("inp/norm/mean", stat 50); ("inp/w", param 51); ("out/buf", arr 13); ("out/extra", arr 6); ("out/w", param 12); ("scale", arr 5); ("w", param 10)].
Proof. eexists. split; vm_compute; reflexivity. Qed.
(** Layer 2 is a part; its norm is listed under the other layer. *)
Example C115_part_hyps : follow ex_cyc 0 ["out"] = Some 2 /\ fits ex_cyc 2 [("norm/mean", stat 7); ("w", param 8)] /\
  below ["out"] [("norm/mean", stat 7); ("w", param 8)] = [("out/norm/mean", stat 7); ("out/w", param 8)].
Proof. split; [reflexivity|]. split; [fits|reflexivity]. Qed.
(** A pretrained layer (4) goes into a layer of a model, by the second name of that layer. *)
Definition ex_pre : world := mkWorld (w_heap ex_mlp ++ [mkMobj (Mod_cls "Linear") 5 false (0, 0) [("w", param 77); ("name", ARaw (PyStr "pre"))]]) 5 (0, 0) default_node_types.
Example C115_transfer_hyps : wf_world ex_pre /\ 4 < List.length (w_heap ex_pre) /\ names_ok ex_pre 0 /\ live ex_pre 0 /\ names_ok ex_pre 4 /\ follow ex_pre 0 ["linear2"; "tied"] = Some 1 /\
  get_state ex_pre 4 = Ok [("w", param 77)] /\ get_state ex_pre 1 = Ok [("w", param 3)] /\ Forall2 (fun x y => fst x = fst y /\ same_shape (snd x) (snd y)) [("w", param 3)] [("w", param 77)].
Proof.
  split; [apply wf_worldb_ok; vm_compute; reflexivity|]. split; [vm_compute; lia|]. split; [apply names_okb_ok; vm_compute; reflexivity|].
  split; [apply liveb_ok; vm_compute; reflexivity|]. split; [apply names_okb_ok; vm_compute; reflexivity|]. do 3 (split; [vm_compute; reflexivity|]). repeat constructor.
Qed.
Example C115_transfer_example :
  exists w1, update_state ex_pre 0 (UStates (One (below ["linear2"; "tied"] [("w", param 77)]))) = (w1, Ok tt) /\ look w1 0 ["linear1"; "name"] = SValue (ARaw (PyStr "l1")) /\
    get_state w1 0 = Ok [("count", arr 0); ("linear1/w", param 77); ("linear2/w", param 5)] /\ get_state w1 4 = Ok [("w", param 77)].
Proof. eexists. repeat split; vm_compute; reflexivity. Qed.
Example C115_refused_example : (forall x n, ~ named ex_cyc 0 "inp/conv/w" x n) /\ exists w', update_state ex_cyc 0 (UStates (One [("inp/conv/w", param 1)])) = (w', Err KeyError).
Proof. split; [intros x n H; apply named_target in H; vm_compute in H; discriminate|]. eexists. vm_compute. reflexivity. Qed.

(** With two names of one attribute in a State, the later entry need not win: the name that
    get_state lists is assigned first, wherever it stands. *)
Theorem C115_order_refuted :
  exists w r s k1 k2 x n w', wf_world w /\ names_ok w r /\ live w r /\ s = [(k1, param 1); (k2, param 2)] /\ named w r k1 x n /\ named w r k2 x n /\
    update_state w r (UStates (One s)) = (w', Ok tt) /\ look w' x [n] = SValue (param 1).
Proof.
  destruct ex_cyc_ok as (A & B & C & _). exists ex_cyc, 0, [("inp/norm/parent/inp/w", param 1); ("inp/w", param 2)], "inp/norm/parent/inp/w", "inp/w", 1, "w". eexists.
  do 3 (split; [assumption|]). split; [reflexivity|]. split; [apply named_target; vm_compute; reflexivity|]. split; [apply named_target; vm_compute; reflexivity|]. split; vm_compute; reflexivity.
Qed.
Print Assumptions C115_order_refuted.
