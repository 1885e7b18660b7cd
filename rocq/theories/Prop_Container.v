(** Prop_Container: C36 and C37.  [wf_container] holds of everything a constructor
    returns (C37_constructed). *)
From Verif Require Import PyBase PyBaseFacts ValuesM Spec_Eq ValuesFacts Spec_Container Container_proofs.
Local Open Scope string_scope.
Local Open Scope list_scope.

(** *** C36: replace and copy *)
Theorem C36_replace :
  forall (c : container) (value : option attr) (kw : dict pyval),
  wf_container c -> (forall d, value = Some (ACont d) -> wf_container d) -> NoDup (keys kw) ->
  replace_ok c value kw ->
  exists d, container_replace c value kw = Ok d /\ wf_container d /\
    c_cls d = c_cls c /\ keys (c_meta d) = keys (c_meta c) /\
    (forall k, dget k (c_meta d) = match dget k kw with Some v => Some v | None => dget k (c_meta c) end) /\
    c_val d = match value with None => c_val c | Some (ARaw v) => v | Some (ACont e) => c_val e end.
Proof. exact replace_spec. Qed.
Print Assumptions C36_replace.
Theorem C36_replace_error :
  forall (c : container) (value : option attr) (kw : dict pyval),
  wf_container c -> (forall d, value = Some (ACont d) -> wf_container d) ->
  ~ replace_ok c value kw -> container_replace c value kw = Err ValueError.
Proof. intros c value kw W WD. exact (proj2 (replace_eq c value kw W WD)). Qed.
Print Assumptions C36_replace_error.
Theorem C36_identity :
  forall c, wf_container c ->
  container_replace c None [] = Ok c /\ container_replace c (Some (ARaw (c_val c))) [] = Ok c /\
  container_replace c (Some (ACont c)) [] = Ok c /\ container_copy c = Ok c.
Proof. exact replace_same. Qed.
Print Assumptions C36_identity.
(** A second replace wins: one replace with the first's keywords updated by the second's. *)
Theorem C36_replace_twice :
  forall (c : container) v1 kw1 d (v2 : option pyval) kw2,
  wf_container c -> (forall e, v1 = Some (ACont e) -> wf_container e) -> NoDup (keys kw1) -> NoDup (keys kw2) ->
  container_replace c v1 kw1 = Ok d ->
  container_replace d (option_map ARaw v2) kw2 =
  container_replace c (match v2 with Some v => Some (ARaw v) | None => Some (ARaw (c_val d)) end) (dupdate kw1 kw2).
Proof. exact replace_twice. Qed.
Print Assumptions C36_replace_twice.
Theorem C36_equality :
  forall c d, wf_container c -> wf_container d -> (cont_eqb c d = true <-> same_container c d).
Proof. exact cont_eqb_spec. Qed.
Print Assumptions C36_equality.
Theorem C36_is_equivalent :
  forall c d, wf_container c -> wf_container d ->
  (is_equivalent c d = true <-> c_cls c = c_cls d /\ same_meta (c_meta c) (c_meta d)).
Proof. exact is_equivalent_spec. Qed.
Print Assumptions C36_is_equivalent.

Definition ex_c : container :=
  mkCont Param_cls [("sharding", PyTuple [PyStr "in"; PyNone]); ("mesh", PyStr "m")] (PyObj Array_cls 4).
Definition ex_d : container :=
  mkCont Param_cls [("sharding", PyTuple [PyStr "in"; PyNone]); ("mesh", PyStr "m")] (PyObj Array_cls 5).
Lemma ex_c_wf : wf_container ex_c /\ wf_container ex_d.
Proof.
  assert (H : forall v, wf_container (mkCont Param_cls [("sharding", PyTuple [PyStr "in"; PyNone]); ("mesh", PyStr "m")] v)).
  { intros v. split; [repeat constructor; cbn; intuition discriminate|]. split; [cbn; intuition discriminate|].
    split; [cbn; tauto|]. split; [cbn; discriminate|]. intros _ _. do 2 eexists. reflexivity. }
  split; apply H.
Qed.
Example C36_example :
  wf_container ex_c /\ wf_container ex_d /\ replace_ok ex_c (Some (ACont ex_d)) [("mesh", PyStr "n")] /\
  ~ replace_ok ex_c None [("other", PyNone)].
Proof.
  destruct ex_c_wf as [A B]. split; [exact A|]. split; [exact B|]. split.
  - split; [cbn; intros k [<-|[]]; tauto|]. intros d [= <-]. split; [reflexivity|apply same_meta_refl].
  - intros [H _]. specialize (H "other" (or_introl eq_refl)). cbn in H. intuition discriminate.
Qed.

(** *** C37: construction from a container *)
Theorem C37_accepted :
  forall (x : container) (c : cls) (md : dict pyval),
  wf_container x -> NoDup (keys md) -> smem "Static" c = false ->
  ((c_cls x = c /\ forall k, opt_eq (full_meta c md k) (dget k (c_meta x))) ->
     exists obj, container_call c (CCont x) md = Ok obj /\ cont_eqb obj x = true /\
       c_cls obj = c /\ c_val obj = c_val x /\ (forall k, dget k (c_meta obj) = full_meta c md k)) /\
  (~ (c_cls x = c /\ forall k, opt_eq (full_meta c md k) (dget k (c_meta x))) -> container_call c (CCont x) md = Err ValueError).
Proof. exact construct_from_container. Qed.
Print Assumptions C37_accepted.
Theorem C37_static :
  forall (x : container) (c : cls) (md : dict pyval),
  wf_container x -> smem "Static" c = true ->
  container_call c (CCont x) md =
    match md with
    | [] => if cls_eqb (c_cls x) c then Ok (mkCont c [] (c_val x)) else Err ValueError
    | _ => Err TypeError
    end.
Proof. exact construct_static. Qed.
Print Assumptions C37_static.
Theorem C37_constructed :
  forall (c : cls) (arg : ctor_arg) (md : dict pyval) (obj : container),
  In "Container" c -> NoDup (keys md) -> ~ In "value" (keys md) ->
  (forall v extra, arg = CMeta v extra -> smem "Static" c = false) ->
  container_call c arg md = Ok obj -> wf_container obj.
Proof. exact construct_wf. Qed.
Print Assumptions C37_constructed.
(** The excluded case: a Static made by a [with_metadata] initializer cannot be copied. *)
Theorem C37_static_metadata_refuted :
  exists obj, container_call Static_cls (CMeta (PyStr "x") [("a", PyNone)]) [] = Ok obj /\
    container_copy obj = Err TypeError.
Proof. eexists. split; reflexivity. Qed.
Print Assumptions C37_static_metadata_refuted.
Example C37_example :
  smem "Static" Param_cls = false /\
  (exists obj, container_call Param_cls (CCont ex_c) [("mesh", PyStr "m"); ("sharding", PyTuple [PyStr "in"; PyNone])] = Ok obj) /\
  container_call Param_cls (CCont ex_c) [] = Err ValueError /\
  container_call BatchStat_cls (CCont ex_c) (c_meta ex_c) = Err ValueError.
Proof. split; [reflexivity|]. split; [eexists; vm_compute; reflexivity|]. split; vm_compute; reflexivity. Qed.
