(** Deciding the hypotheses of the module theorems on concrete heaps, and the
    heaps used by the examples. *)
From Verif Require Import PyBase PyBaseFacts ValuesM Spec_Eq ValuesFacts StateM ModuleM Spec_Module Spec_History Graph_facts Dfs_proofs.
Local Open Scope string_scope.
Local Open Scope list_scope.

Fixpoint nodupb (l : list string) : bool :=
  match l with [] => true | x :: t => negb (smem x t) && nodupb t end.
Lemma nodupb_ok l : nodupb l = true -> NoDup l.
Proof.
  induction l as [|x l IH]; intros H; [constructor|]. cbn [nodupb] in H. apply andb_prop in H as [H1 H2]. constructor; [|auto].
  apply negb_true_iff, smem_false in H1. exact H1.
Qed.
Definition wf_containerb (c : container) : bool :=
  nodupb (keys (c_meta c)) && negb (smem "value" (keys (c_meta c))) && smem "Container" (c_cls c) &&
  (if smem "Static" (c_cls c) then match c_meta c with [] => true | _ => false end
   else if smem "Variable" (c_cls c) then match c_meta c with (k, _) :: _ => String.eqb k "sharding" | _ => false end else true).
Lemma wf_containerb_ok c : wf_containerb c = true -> wf_container c.
Proof.
  unfold wf_containerb, wf_container. intros H. apply andb_prop in H as [H H4]. apply andb_prop in H as [H H3]. apply andb_prop in H as [H1 H2].
  split; [now apply nodupb_ok|]. split; [now apply negb_true_iff, smem_false in H2|]. split; [now apply smem_In|]. split.
  - intros E. rewrite E in H4. destruct (c_meta c); [reflexivity|discriminate].
  - intros E1 E2. rewrite E1, E2 in H4. destruct (c_meta c) as [|[k s] t]; [discriminate|]. apply String.eqb_eq in H4 as ->. eauto.
Qed.
Definition attr_okb (n : nat) (a : attr) : bool :=
  match a with ARaw (PyMod r) => Nat.ltb r n | ARaw _ => true | ACont c => wf_containerb c end.
Definition wf_objb (n uuid : nat) (o : mobj) : bool :=
  Nat.leb (m_id o) uuid && nodupb (keys (m_vars o)) && negb (smem "_module__state" (keys (m_vars o))) &&
  forallb (fun na => attr_okb n (snd na)) (m_vars o).
Fixpoint nodupnb (l : list nat) : bool := match l with [] => true | x :: t => negb (nmem x t) && nodupnb t end.
Lemma nodupnb_ok l : nodupnb l = true -> NoDup l.
Proof.
  induction l as [|x l IH]; intros H; [constructor|]. cbn [nodupnb] in H. apply andb_prop in H as [H1 H2]. constructor; [|auto].
  now apply negb_true_iff, nmem_false in H1.
Qed.
Definition wf_worldb (w : world) : bool :=
  nodupnb (map m_id (w_heap w)) && forallb (wf_objb (List.length (w_heap w)) (w_uuid w)) (w_heap w).
Lemma wf_worldb_ok w : wf_worldb w = true -> wf_world w.
Proof.
  unfold wf_worldb. intros H. apply andb_prop in H as [H1 H2]. constructor; [now apply nodupnb_ok|]. intros r o Ho.
  rewrite forallb_forall in H2. specialize (H2 o (nth_error_In _ _ Ho)). unfold wf_objb in H2.
  apply andb_prop in H2 as [H2 H6]. apply andb_prop in H2 as [H2 H5]. apply andb_prop in H2 as [H3 H4]. rewrite forallb_forall in H6.
  constructor.
  - now apply Nat.leb_le.
  - now apply nodupb_ok.
  - now apply negb_true_iff, smem_false in H5.
  - intros n x Hx. apply dget_In in Hx. specialize (H6 _ Hx). cbn in H6. now apply Nat.ltb_lt.
  - intros n a Hx. apply dget_In in Hx. specialize (H6 _ Hx). cbn in H6. destruct a as [v|c]; [exact I|]. now apply wf_containerb_ok.
Qed.

(** names without ["/"] and without the reserved prefix, everywhere *)
Definition names_okb (w : world) : bool :=
  forallb (fun o => forallb (fun na => negb (has_char "/" (fst na)) && negb (starts_with "_module__" (fst na))) (m_vars o)) (w_heap w).
Lemma names_okb_ok w r : names_okb w = true -> names_ok w r.
Proof.
  intros H x o n a _ Ho Hd. unfold names_okb in H. rewrite forallb_forall in H. specialize (H o (nth_error_In _ _ Ho)).
  rewrite forallb_forall in H. specialize (H _ (dget_In _ _ _ Hd)). cbn [fst] in H. apply andb_prop in H as [H1 H2].
  apply negb_true_iff in H1, H2. auto.
Qed.
Definition liveb (w : world) : bool := forallb (fun o => trace_valid w (m_trace o)) (w_heap w).
Lemma liveb_ok w r : liveb w = true -> live w r.
Proof. intros H x o _ Ho. unfold liveb in H. rewrite forallb_forall in H. specialize (H o (nth_error_In _ _ Ho)). now apply trace_valid_iff. Qed.

(** acyclic: every submodule reference goes to a larger address *)
Definition forwardb (w : world) : bool :=
  forallb (fun i => match get_obj w i with
                    | Some o => forallb (fun na => match snd na with ARaw (PyMod r) => Nat.ltb i r | _ => true end) (m_vars o)
                    | None => true end) (seq 0 (List.length (w_heap w))).
Lemma forwardb_ok w r : forwardb w = true -> acyclic w r.
Proof.
  intros H. assert (G : forall p x y, follow w x p = Some y -> x <= y /\ (p <> [] -> x < y)).
  { induction p as [|n p IH]; intros x y Hf.
    - cbn in Hf. destruct (get_obj w x); [|discriminate]. injection Hf as ->. split; [lia|congruence].
    - apply follow_cons_child in Hf as (z & (o & Ho & Hd) & Hf). destruct (IH _ _ Hf) as [A _].
      unfold forwardb in H. rewrite forallb_forall in H. specialize (H x). rewrite Ho in H.
      assert (Hx : In x (seq 0 (List.length (w_heap w)))) by (apply in_seq; apply get_obj_lt in Ho; lia).
      specialize (H Hx). rewrite forallb_forall in H. specialize (H _ (dget_In _ _ _ Hd)). cbn in H. apply Nat.ltb_lt in H. split; [lia|]. intros _. lia. }
  intros x p _ Hp Hf. destruct (G _ _ _ Hf) as [_ K]. specialize (K Hp). lia.
Qed.

Definition param (i : nat) : attr := ACont (mkCont Param_cls [("sharding", PyNone)] (PyObj Array_cls i)).
Definition stat (i : nat) : attr := ACont (mkCont BatchStat_cls [("sharding", PyNone)] (PyObj Array_cls i)).
Definition arr (i : nat) : attr := ARaw (PyObj Array_cls i).
Definition Mod_cls (n : string) : cls := [n; "Module"; "object"].
Definition sub (r : nat) : attr := ARaw (PyMod r).

(** A root with two layers that share a norm module; the norm refers back to the
    root (a cycle).  Attribute order is not alphabetical. *)
Definition ex_cyc : world := mkWorld
  [ mkMobj (Mod_cls "Net") 1 false (0, 0) [("out", sub 2); ("inp", sub 1); ("scale", ARaw (PyInt (BinInt.Z.of_nat 3))); ("w", param 10)];
    mkMobj (Mod_cls "Layer") 2 false (0, 0) [("w", param 11); ("norm", sub 3); ("name", ARaw (PyStr "l1"))];
    mkMobj (Mod_cls "Layer") 3 false (0, 0) [("w", param 12); ("norm", sub 3); ("buf", arr 13)];
    mkMobj (Mod_cls "Norm") 4 false (0, 0) [("mean", stat 14); ("parent", sub 0)];
    mkMobj (Mod_cls "Other") 7 false (0, 0) [("w", param 20); ("peer", sub 3)] ]
  7 (0, 0) default_node_types.
(** the same without the back reference *)
Definition ex_dag : world := mkWorld
  [ mkMobj (Mod_cls "Net") 1 false (0, 0) [("out", sub 2); ("inp", sub 1); ("scale", ARaw (PyInt (BinInt.Z.of_nat 3))); ("w", param 10)];
    mkMobj (Mod_cls "Layer") 2 false (0, 0) [("w", param 11); ("norm", sub 3); ("name", ARaw (PyStr "l1"))];
    mkMobj (Mod_cls "Layer") 3 false (0, 0) [("w", param 12); ("norm", sub 3); ("buf", arr 13)];
    mkMobj (Mod_cls "Norm") 4 false (0, 0) [("mean", stat 14)];
    mkMobj (Mod_cls "Other") 7 false (0, 0) [("w", param 20)] ]
  7 (0, 0) default_node_types.

Lemma ex_cyc_ok : wf_world ex_cyc /\ names_ok ex_cyc 0 /\ live ex_cyc 0 /\ 0 < List.length (w_heap ex_cyc).
Proof. split; [apply wf_worldb_ok; vm_compute; reflexivity|]. split; [apply names_okb_ok; vm_compute; reflexivity|]. split; [apply liveb_ok; vm_compute; reflexivity|]. cbn. lia. Qed.
Lemma ex_dag_ok : wf_world ex_dag /\ names_ok ex_dag 0 /\ live ex_dag 0 /\ acyclic ex_dag 0 /\ 0 < List.length (w_heap ex_dag).
Proof.
  split; [apply wf_worldb_ok; vm_compute; reflexivity|]. split; [apply names_okb_ok; vm_compute; reflexivity|].
  split; [apply liveb_ok; vm_compute; reflexivity|]. split; [apply forwardb_ok; vm_compute; reflexivity|]. cbn. lia.
Qed.
