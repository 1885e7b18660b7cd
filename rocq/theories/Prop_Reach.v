(** C20 for histories with transforms: the invariants of Modules survive jit, grad, remat,
    scan, apply, init, constructors and deepcopy, nested in any way, whether they return
    or raise. *)
From Coq Require Import ZArith Lia.
From Verif Require Import PyBase PyBaseFacts ValuesM Spec_Eq FiltersM StateM ModuleM ContextM TransformM JitArgsM RematArgsM GradArgsM SpmdM ScanM ScanInitM ScanClassM HelpersM DataclassM CopyM.
From Verif Require Import Spec_Module Spec_Prog Spec_History Spec_Scan Spec_Dataclass Spec_Copy Spec_Reach.
From Verif Require Import Graph_facts Dfs_proofs Ex_Module Prop_JitArgs Reach_proofs History_proofs.
Local Open Scope string_scope.
Local Open Scope list_scope.

(** modules are well-formed, are Modules, keep their ids, and after the call the
    interpreter is at the trace level it was at before the call *)
Theorem C20_transforms :
  forall (t : trace_state) (nt : list string) (w : world), history (start t nt) w -> wf_world w /\ all_modules w /\ w_trace w = t.
Proof.
  intros t nt w H. destruct (history_safe _ _ H (start_wf t nt)) as [G T]. split; [apply G|]. split; [apply G|]. now rewrite T.
Qed.
Print Assumptions C20_transforms.
Theorem C20_transforms_persist :
  forall (t : trace_state) (nt : list string) (w w' : world), history (start t nt) w -> history w w' -> persists w w'.
Proof.
  intros t nt w w' H H'. apply (history_safe _ _ H'). destruct (C20_transforms t nt w H) as (A & B & _). split; assumption.
Qed.
Print Assumptions C20_transforms_persist.
Theorem C20_transforms_distinct :
  forall (t : trace_state) (nt : list string) (w : world), history (start t nt) w ->
  forall x y o o', get_obj w x = Some o -> get_obj w y = Some o' -> m_id o = m_id o' -> x = y.
Proof.
  intros t nt w H x y o o' Hx Hy E. destruct (C20_transforms t nt w H) as [A _].
  apply (idof_inj w x y A (get_obj_lt _ _ _ Hx) (get_obj_lt _ _ _ Hy)). now rewrite (idof_get _ _ _ Hx), (idof_get _ _ _ Hy).
Qed.
Print Assumptions C20_transforms_distinct.

(** every user program is such a history, so [runs] holds of all of them *)
Theorem C20_programs :
  forall (A : Type) (p : prog A), ok_prog p -> runs history (user_fun p).
Proof. intros A p P w r S V. apply run_history; auto. Qed.
Print Assumptions C20_programs.

(** Example: a module with a submodule is made, given to jit with a function that itself
    calls jit on the submodule, which writes a variable; then deep-copied. *)
Definition ex_inner : prog arg := Do (CSet 0 "w" (arr 5)) (fun _ => Finish (Ok (GVal PyNone))).
Definition ex_outer : list arg -> dict arg -> world -> nat -> world * result arg := fun _ _ w r =>
  match get_obj w r with
  | Some o => match dget "c" (m_vars o) with
              | Some (ARaw (PyMod x)) => let '(w1, _, res) := jit_call_args [] true (2, 2) (fun _ _ => user_fun ex_inner) w (ARaw (PyMod x)) [] [] [] in (w1, res)
              | _ => (w, Err AttributeError)
              end
  | None => (w, Err AttributeError)
  end.
Lemma ex_outer_runs a k : runs history (ex_outer a k).
Proof.
  intros w r S V. unfold ex_outer. destruct (get_obj w r) as [o|]; [|apply h_none]. destruct (dget "c" (m_vars o)) as [[[]|]|]; try apply h_none.
  pose proof (h_jit [] true (2, 2) (fun _ _ => user_fun ex_inner) w (ARaw (PyMod r0)) [] [] []) as H.
  destruct (jit_call_args _ _ _ _ w _ _ _ _) as [[w1 ss] res]. apply H. intros _ _. apply C20_programs.
  apply ok_do; [split; [exact Logic.I|reflexivity]|intros; constructor].
Qed.
Definition ex_made : world := Eval vm_compute in
  match setattr (snd (new_module (snd (new_module (start (0, 0) default_node_types) (Mod_cls "A"))) (Mod_cls "B"))) 1 "w" (arr 1) with
  | Ok w => match setattr w 0 "c" (sub 1) with Ok w' => w' | Err _ => w end
  | Err _ => start (0, 0) []
  end.
Example C20_transforms_example : exists w out,
  history (start (0, 0) default_node_types) w /\ jit_call_args [] true (1, 1) ex_outer ex_made (ARaw (PyMod 0)) [] [] [] = (w, [], Ok out) /\
  look ex_made 0 ["c"; "w"] = SValue (arr 1) /\ look w 0 ["c"; "w"] = SValue (arr 5).
Proof.
  do 2 eexists. split; [|split; [vm_compute; reflexivity|vm_compute; auto]].
  assert (M : history (start (0, 0) default_node_types) ex_made).
  { eapply h_then; [apply h_step; [apply (st_new _ (Mod_cls "A")); cbn; auto|reflexivity]|].
    eapply h_then; [apply h_step; [apply (st_new _ (Mod_cls "B")); cbn; auto|reflexivity]|].
    eapply h_then; [apply h_step; [eapply (st_setattr _ 1 "w" (arr 1)); [split; [exact Logic.I|discriminate]|vm_compute; reflexivity]|reflexivity]|].
    apply h_step; [eapply (st_setattr _ 0 "c" (sub 1)); [split; [exact Logic.I|intros x [= <-]; cbn; lia]|vm_compute; reflexivity]|reflexivity]. }
  eapply h_then; [exact M|]. exact (h_jit [] true (1, 1) ex_outer ex_made (ARaw (PyMod 0)) [] [] [] ex_outer_runs).
Qed.
