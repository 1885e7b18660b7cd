(** Prop_Hash: C87, equality and hashes of the objects of nnx. *)
From Coq Require Import ZArith.
From Verif Require Import PyBase PyBaseFacts ValuesM Spec_Eq ValuesFacts FiltersM StateM ModuleM Spec_Module Mdef_proofs JitArgsM Spec_JitArgs
  StateMapM Spec_StateMap StateMap_proofs HashM Spec_Hash Hash_proofs PtreeM Spec_Ptree Ptree_proofs.
Local Open Scope string_scope.
Local Open Scope nat_scope.
Local Open Scope list_scope.

(** [==] is what [equal] says ... *)
Theorem C87_equal :
  forall a b, wf_obj a -> wf_obj b -> (obj_eqb a b = true <-> equal a b).
Proof. exact obj_eqb_spec. Qed.
Print Assumptions C87_equal.
(** ... and an equivalence relation. *)
Theorem C87_equivalence :
  forall a b c, wf_obj a -> wf_obj b -> wf_obj c ->
  obj_eqb a a = true /\ obj_eqb a b = obj_eqb b a /\ (obj_eqb a b = true -> obj_eqb b c = true -> obj_eqb a c = true).
Proof.
  intros a b c Wa Wb Wc. split; [apply obj_eqb_spec, equal_refl; assumption|]. split.
  - apply Bool.eq_iff_eq_true. rewrite !obj_eqb_spec by assumption. split; apply equal_sym.
  - rewrite !obj_eqb_spec by assumption. apply equal_trans.
Qed.
Print Assumptions C87_equivalence.
(** Equal objects have the same hash, or none of them has one; whatever the hashes of
    numbers, strings, classes and other objects are, and however tuples are hashed. *)
Theorem C87_hash :
  forall h_none h_num h_str h_cls h_obj mix w a b, obj_eqb a b = true ->
  obj_hash h_none h_num h_str h_cls h_obj mix w a = obj_hash h_none h_num h_str h_cls h_obj mix w b.
Proof. exact obj_hash_eq. Qed.
Print Assumptions C87_hash.
(** Which objects have a hash; the others raise TypeError. *)
Theorem C87_hashable :
  forall h_none h_num h_str h_cls h_obj mix w a, obj_live w a ->
  ((exists h, obj_hash h_none h_num h_str h_cls h_obj mix w a = Ok h) <-> has_hash_obj a) /\
  (~ has_hash_obj a -> obj_hash h_none h_num h_str h_cls h_obj mix w a = Err TypeError).
Proof.
  intros h_none h_num h_str h_cls h_obj mix w a L. destruct (obj_hashes h_none h_num h_str h_cls h_obj mix w a L) as (H1 & H2 & H3).
  split; [|exact H2]. split; [|exact H1]. intros [h E]. destruct H3 as [P|N]; [exact P|]. rewrite (H2 N) in E. discriminate.
Qed.
Print Assumptions C87_hashable.
(** A dict keyed by such objects: what was stored under a key is found under every equal
    key, and storing it changes nothing under the other keys. *)
Theorem C87_dict_keys :
  forall h_none h_num h_str h_cls h_obj mix w (V : Type) (t t' : table V) k v,
  Forall (fun e => wf_obj (snd (fst e))) t -> wf_obj k ->
  table_set h_none h_num h_str h_cls h_obj mix w t k v = Ok t' ->
  Forall (fun e => wf_obj (snd (fst e))) t' /\
  (forall k', wf_obj k' -> equal k k' -> table_get h_none h_num h_str h_cls h_obj mix w t' k' = Ok (Some v)) /\
  (forall k', wf_obj k' -> ~ equal k k' ->
     table_get h_none h_num h_str h_cls h_obj mix w t' k' = table_get h_none h_num h_str h_cls h_obj mix w t k').
Proof. intros h_none h_num h_str h_cls h_obj mix w V t t' k v W Wk E. exact (table_laws h_none h_num h_str h_cls h_obj mix w t k v t' W Wk E). Qed.
Print Assumptions C87_dict_keys.
(** A Static in a tree has no leaves, its value is part of the structure, and unflattening
    gives it back.  Of a subclass of Static it is a leaf. *)
Theorem C87_static_tree :
  forall c m x, In "Static" c -> is_box x = false ->
  (c = Static_cls -> forall ls, flatten (TBox c m x) = Ok ([], DStatic x) /\ unflatten (DStatic x) ls = Ok (TBox c [] x, ls)) /\
  (c <> Static_cls -> ~ In "NodeBase" c -> flatten (TBox c m x) = Ok ([TBox c m x], DLeaf)).
Proof.
  intros c m x I B. split.
  - intros -> ls. split; [reflexivity|]. destruct x; [reflexivity|reflexivity|discriminate|reflexivity|reflexivity].
  - intros N NN. apply leaf_flatten. constructor; [|exact N]. unfold registered. destruct (smem "NodeBase" (tl c)) eqn:E; [|reflexivity].
    apply smem_In in E. destruct NN. destruct c; [destruct E|now right].
Qed.
Print Assumptions C87_static_tree.
(** A Static can be assigned to, which changes its hash: in a dict it is then found neither
    under itself nor under its old value. *)
Theorem C87_changed_static_refuted :
  exists (h_num : Z -> nat) (st st' : container), c_cls st = Static_cls /\ st' = mkCont (c_cls st) (c_meta st) (PyInt 2%Z) /\
  forall h_none h_str h_cls h_obj mix w,
  table_set h_none h_num h_str h_cls h_obj mix w [] (OBox st) 7 = Ok [(1, OBox st, 7)] /\
  (* the key in the dict is the object that was changed *)
  table_get h_none h_num h_str h_cls h_obj mix w [(1, OBox st', 7)] (OBox st') = Ok None /\
  table_get h_none h_num h_str h_cls h_obj mix w [(1, OBox st', 7)] (OBox st) = Ok None.
Proof.
  exists Z.to_nat, (mkCont Static_cls [] (PyInt 1%Z)). eexists. split; [reflexivity|]. split; [reflexivity|].
  intros. split; [reflexivity|]. split; reflexivity.
Qed.
Print Assumptions C87_changed_static_refuted.

(** examples: a definition with a Static field has a hash; with a list none; True and 1 *)
Definition ex_def (a : attr) (i : nat) : mdef :=
  MDef ["Net"; "Module"; "object"] i [("sub", MDef ["L"; "Module"; "object"] (S i) [("up", MRef 0)] [("n", a)] false)] [("k", ARaw (PyStr "k"))] true.
Definition st (v : pyval) : attr := ACont (mkCont Static_cls [] v).
Lemma wf_st v : wf_container (mkCont Static_cls [] v).
Proof. split; [constructor|]. split; [intros []|]. split; [vm_compute; auto|]. split; [reflexivity|discriminate]. Qed.
Lemma ex_def_wf v i : wf_obj (ODef (ex_def (st v) i)).
Proof. constructor; [|repeat constructor]. constructor; [|constructor]. constructor; [repeat constructor|]. constructor; [apply wf_st|constructor]. Qed.
Example C87_nonvacuous :
  let h := obj_hash 0 Z.to_nat String.length (@List.length string) (fun _ i => i) (fun l => list_sum l) (mkWorld [] 0 (0, 0) []) in
  wf_obj (ODef (ex_def (st (PyInt 1%Z)) 0)) /\ wf_obj (ODef (ex_def (st (PyBool true)) 5)) /\
  obj_eqb (ODef (ex_def (st (PyInt 1%Z)) 0)) (ODef (ex_def (st (PyBool true)) 5)) = true /\
  (exists n, h (ODef (ex_def (st (PyInt 1%Z)) 0)) = Ok n /\ h (ODef (ex_def (st (PyBool true)) 5)) = Ok n) /\
  h (ODef (ex_def (st (PyObj ["list"; "object"] 3)) 0)) = Err TypeError /\
  h (ODef (ex_def (ACont (mkCont ["Box"; "Container"; "object"] [] PyNone)) 0)) = Err TypeError /\
  h (OState []) = Err TypeError /\ obj_eqb (OMap []) (OState []) = true /\
  obj_eqb (OVal (PyInt 1%Z)) (OBox (mkCont Static_cls [] (PyInt 1%Z))) = false.
Proof.
  cbv zeta. split; [apply ex_def_wf|]. split; [apply ex_def_wf|]. split; [vm_compute; reflexivity|]. split; [eexists; split; vm_compute; reflexivity|].
  repeat split; vm_compute; reflexivity.
Qed.
