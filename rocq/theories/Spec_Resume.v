(** Spec_Resume: processes that make the same model. *)
From Verif Require Import PyBase ValuesM FiltersM StateM ModuleM TransformM GradFunM TrainLoopM ResumeM Spec_Module Spec_Prog Spec_GradFun Spec_Checkpoint.
Local Open Scope string_scope.
Local Open Scope list_scope.

(** [m] in [v] was made by a run of the constructor [p] of class [c] in another process:
    the arrays (the random key), the trace and the objects that existed may differ.
    [nt] are the registered node types. *)
Definition made_again (nt : list string) (c : cls) (p : prog unit) (v : world) (m : nat) : Prop :=
  exists w0 p', wf_world w0 /\ w_nodes w0 = nt /\ ok_prog p' /\ same_steps nt p p' /\ construct w0 c p' = (v, m, Ok tt) /\ names_ok v m.
(** the losses of the processes, as programs on the model *)
Definition does (p : process) (l : list (prog pyval)) : Prop := pr_losses p = map user_fun l.
