(** JitLoopM: calls of one jitted function (transforms.py:35-75) in the course of a
    program, with the compilation cache (JitCacheM).  A cache entry holds the argument
    with which the function was traced and the world in which the python code ran. *)
From Verif Require Import PyBase ValuesM FiltersM StateM ModuleM TransformM JitCacheM.
Local Open Scope list_scope.

(** [jax.jit]'s cache at transforms.py:59-74 *)
Definition jit_cache : Type := list (world * pure).

(** transforms.py:63-75 [JitTransform.__call__], with the contract of [jax.jit] given in
    JitCacheM.  On a hit no python code runs: the outcome is that of the function as it
    was traced, in the world of that time, on the argument rebuilt from the old treedef
    and the new leaves; the world of the call changes only by the final
    [update_state].  On a miss this is [jit_call], and the entry is stored unless
    tracing raised. *)
Definition jit_loop_call {A} (same_aval : pyval -> pyval -> bool) (stateful : bool) (t : trace_state)
    (fn : world -> nat -> world * result A) (cache : jit_cache) (w : world) (r : nat) : jit_cache * world * result A :=
  match module_partition w r [] with
  | Err e => (cache, w, Err e)
  | Ok p =>
      let '(cache', (w3, outcome)) :=
        match find (fun c => pure_key_eqb same_aval (snd c) p) cache with
        | Some (w0, p0) => (cache, (w, snd (jitted_fn stateful t fn w0 (rebuild p0 p))))
        | None => match jitted_fn stateful t fn w p with
                  | (w3, Ok x) => ((w, p) :: cache, (w3, Ok x))
                  | (w3, Err e) => (cache, (w3, Err e))
                  end
        end in
      match outcome with
      | Err e => (cache', w3, Err e)
      | Ok (None, out) => (cache', w3, Ok out)
      | Ok (Some updates, out) =>
          match update_state w3 r (UStates (One updates)) with
          | (w4, Ok _) => (cache', w4, Ok out)
          | (w4, Err e) => (cache', w4, Err e)
          end
      end
  end.
