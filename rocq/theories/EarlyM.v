(** EarlyM: keeping the best State of a training run, as user code on the API:

      best = None
      try:
        for epoch in epochs:
          score = epoch(model)
          if best is None or better(score, best[0]):
            best = (score, model.get_state())
      finally:
        if best is not None:
          model.update_state(best[1])

    [get_state] is module.py:559-567, [update_state] module.py:637-649. *)
From Verif Require Import PyBase ValuesM StateM ModuleM Spec_Prog.
Local Open Scope string_scope.
Local Open Scope list_scope.

Section Fit.
(** [better(score, best)], user code over module.py:559-567 *)
Variable better : pyval -> pyval -> bool.
(** The [for] loop (user code; [get_state] is module.py:559-567): the world, what is kept,
    and how it ended. *)
Fixpoint keep_best (epochs : list (prog pyval)) (best : option (pyval * state)) (w : world) (r : nat) : world * option (pyval * state) * result unit :=
  match epochs with
  | [] => (w, best, Ok tt)
  | f :: rest =>
      match run f w [r] with
      | (w1, Err e) => (w1, best, Err e)
      | (w1, Ok score) =>
          if match best with None => true | Some (b, _) => better score b end
          then match get_state w1 r with
               | Err e => (w1, best, Err e)
               | Ok s => keep_best rest (Some (score, s)) w1 r
               end
          else keep_best rest best w1 r
      end
  end.
(** The whole, with [finally] (user code; [update_state] is module.py:637-649): an
    exception raised there replaces the one of the loop. *)
Definition fit (epochs : list (prog pyval)) (w : world) (r : nat) : world * result unit :=
  let '(w1, best, res) := keep_best epochs None w r in
  match best with
  | None => (w1, res)
  | Some (_, s) =>
      match update_state w1 r (UStates (One s)) with
      | (w2, Err e) => (w2, Err e)
      | (w2, Ok _) => (w2, res)
      end
  end.
End Fit.

(** [saved = model.get_state()], some code, [model.update_state(saved)] whether the code
    raises or not (module.py:559-567, 637-649). *)
Definition tried {A} (f : prog A) (w : world) (r : nat) : world * result unit :=
  match get_state w r with
  | Err e => (w, Err e)
  | Ok s => let (w1, _) := run f w [r] in update_state w1 r (UStates (One s))
  end.
