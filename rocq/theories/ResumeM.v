(** ResumeM: training that is interrupted: the State is saved with
    [model.get_state()] (module.py:559), the process ends, another process makes the
    model again and loads the State with [model.update_state(saved)]
    (module.py:637-649), and the loop of examples/02_lifted_transforms.py:78-79 goes on.
    The file in which the State is kept is not modelled: what is loaded is what was
    saved. *)
From Verif Require Import PyBase ValuesM FiltersM StateM ModuleM TransformM GradFunM TrainLoopM.
Local Open Scope string_scope.
Local Open Scope list_scope.

(** A process: its world when the model has been made, the model, and the losses of the
    steps it gets to do. (examples/02_lifted_transforms.py:68-79) *)
Record process := mkProcess { pr_world : world; pr_model : nat; pr_losses : list loss_fun }.

(** Load, train, save (module.py:637-649, examples/02_lifted_transforms.py:78-79,
    module.py:559): the saved State. *)
Definition go_on (wrt : filt) (t1 t2 : trace_state) (D : grad_op) (sgd : pyval -> pyval -> pyval) (saved : state) (p : process) : result state :=
  match update_state (pr_world p) (pr_model p) (UStates (One saved)) with
  | (_, Err e) => Err e
  | (v, Ok _) =>
      match lifted_loop wrt t1 t2 D sgd (pr_losses p) v (pr_model p) with
      | (_, Err e) => Err e
      | (v', Ok _) => get_state v' (pr_model p)
      end
  end.
(** One process after the other. (module.py:559, 637-649, examples/02_lifted_transforms.py:78-79) *)
Fixpoint resume_all (wrt : filt) (t1 t2 : trace_state) (D : grad_op) (sgd : pyval -> pyval -> pyval) (saved : state) (ps : list process) : result state :=
  match ps with
  | [] => Ok saved
  | p :: rest => do s <- go_on wrt t1 t2 D sgd saved p; resume_all wrt t1 t2 D sgd s rest
  end.
