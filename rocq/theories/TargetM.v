(** TargetM: a target network (a slowly moving average of a model), as user code on the API:

      target = model.clone()
      for epoch in epochs:
        epoch(model)
        target.update_state(jax.tree_map(mix, target.get_state(), model.get_state()))

    [clone] is module.py:520-521, [get_state] module.py:559-567, [update_state]
    module.py:637-649; [jax.tree_map] on two States as in TrainLoopM. *)
From Verif Require Import PyBase ValuesM StateM ModuleM TrainLoopM Spec_Prog.
Local Open Scope string_scope.
Local Open Scope list_scope.

(** [target.update_state(jax.tree_map(mix, target.get_state(), model.get_state()))]: user code
    over module.py:559-567 and 637-649. *)
Definition soft_update (mix : pyval -> pyval -> pyval) (w : world) (r t : nat) : world * result unit :=
  match (do s <- get_state w t; do u <- get_state w r; tree_map2 mix s u) with
  | Err e => (w, Err e)
  | Ok new => update_state w t (UStates (One new))
  end.
(** The [for] loop (user code over module.py:559-567, 637-649). *)
Fixpoint track (mix : pyval -> pyval -> pyval) (epochs : list (prog pyval)) (w : world) (r t : nat) : world * result unit :=
  match epochs with
  | [] => (w, Ok tt)
  | f :: rest =>
      match run f w [r] with
      | (w1, Err e) => (w1, Err e)
      | (w1, Ok _) =>
          match soft_update mix w1 r t with
          | (w2, Err e) => (w2, Err e)
          | (w2, Ok _) => track mix rest w2 r t
          end
      end
  end.
