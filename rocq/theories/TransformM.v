(** TransformM: models nnx/transforms.py, JitTransform (35-80) and GradTransform
    (136-203).

    [jax.jit] and [jax.grad] themselves are not modelled.  [jax.jit(g)] is taken
    by its contract, a function with the results of [g]; the python function
    runs under other traces than the caller's, which is modelled ([t]).  What
    crosses the boundary (the PureModule, the updates) is passed as it is.
    [jax.grad(g)(diff, ...)] is taken to return a tree with the structure of
    [diff], whose leaves are some function [leaf_grad] of key and attribute. *)
From Verif Require Import PyBase ValuesM FiltersM StateM ModuleM.
Local Open Scope string_scope.
Local Open Scope list_scope.

(** tracers.py:61-68 [nnx_trace] and the jax trace of the transform: make [t]
    current. *)
Definition set_trace (w : world) (t : trace_state) : world :=
  mkWorld (w_heap w) (w_uuid w) t (w_nodes w).

(** transforms.py:43-58 [jitted_fn] (without a ctx argument): merge the module
    under the inner trace, run the function, read the state.  The trace is
    restored in any case. *)
Definition jitted_fn {A} (stateful : bool) (t : trace_state) (fn : world -> nat -> world * result A)
    (w : world) (p : pure) : world * result (option state * A) :=
  match pure_merge (set_trace w t) p with
  | Err e => (w, Err e)
  | Ok (m, w1) =>
      match fn w1 m with
      | (w2, Err e) => (set_trace w2 (w_trace w), Err e)
      | (w2, Ok out) =>
          let w3 := set_trace w2 (w_trace w) in
          if stateful then
            match get_state w3 m with
            | Ok s => (w3, Ok (Some s, out))
            | Err e => (w3, Err e)
            end
          else (w3, Ok (None, out))
      end
  end.

(** transforms.py:63-75 [JitTransform.__call__] on a Module (anything else is a
    TypeError, see [jit_call_any]). *)
Definition jit_call {A} (stateful : bool) (t : trace_state) (fn : world -> nat -> world * result A)
    (w : world) (r : nat) : world * result A :=
  match module_partition w r [] with
  | Err e => (w, Err e)
  | Ok p =>
      match jitted_fn stateful t fn w p with
      | (w3, Err e) => (w3, Err e)
      | (w3, Ok (None, out)) => (w3, Ok out)
      | (w3, Ok (Some updates, out)) =>
          match update_state w3 r (UStates (One updates)) with
          | (w4, Ok _) => (w4, Ok out)
          | (w4, Err e) => (w4, Err e)
          end
      end
  end.

(** transforms.py:64-65 *)
Definition jit_call_any {A} (stateful : bool) (t : trace_state) (fn : world -> nat -> world * result A)
    (w : world) (a : attr) : world * result A :=
  match a with
  | ARaw (PyMod r) => jit_call stateful t fn w r
  | _ => (w, Err TypeError)
  end.

(** The result of a function with an auxiliary value.  stateful: transforms.py:166
    [loss, aux = out], then [jax.grad] refuses a loss that is a string.  Otherwise
    [jax.grad] itself asks for a pair. *)
Definition unpack2 (stateful : bool) (v : pyval) : result (pyval * pyval) :=
  match v with
  | PyTuple [a; b] => Ok (a, b)
  | PyTuple _ => if stateful then Err ValueError else Err TypeError
  | PyStr s => if stateful && negb (Nat.eqb (String.length s) 2) then Err ValueError else Err TypeError
  | _ => Err TypeError
  end.

(** the contract of [jax.grad] on its first argument. ([jax.grad] as called at transforms.py:156-200) *)
Definition with_value (a : attr) (v : pyval) : attr :=
  match a with
  | ARaw _ => ARaw v
  | ACont c => ACont (mkCont (c_cls c) (c_meta c) v)
  end.
(** [jax.grad] as called at transforms.py:156-200 *)
Definition grad_tree (leaf_grad : string -> attr -> pyval) (diff : state) : state :=
  map (fun ka => (fst ka, with_value (snd ka) (leaf_grad (fst ka) (snd ka)))) diff.

(** What [grad(f)(m)] returns: gradients, and the auxiliary value if has_aux. (transforms.py:181-200) *)
Definition grad_result : Type := (state * option pyval)%type.

(** transforms.py:243 (the filter becomes a predicate when [grad] is called, so
    that [...] is accepted), 154-171 [grad_fn] and 178-198
    [GradTransform.__call__]. *)
Definition grad_call (stateful has_aux : bool) (wrt : filt) (t : trace_state)
    (leaf_grad : string -> attr -> pyval) (fn : world -> nat -> world * result pyval)
    (w : world) (r : nat) : world * result grad_result :=
  match (do pred <- to_predicate wrt; module_partition w r [FPred pred; FEllipsis]) with
  | Err e => (w, Err e)
  | Ok p =>
      match p_states p with
      | Many [diff; nondiff] =>
          match merge (set_trace w t) (p_def p) [diff; nondiff] with
          | Err e => (w, Err e)
          | Ok (m, w1) =>
              match fn w1 m with
              | (w2, Err e) => (set_trace w2 (w_trace w), Err e)
              | (w2, Ok out) =>
                  let w3 := set_trace w2 (w_trace w) in
                  match (if has_aux then rmap (fun la => Some (snd la)) (unpack2 stateful out) else Ok None) with
                  | Err e => (w3, Err e)
                  | Ok aux =>
                      let grads := grad_tree leaf_grad diff in
                      if stateful then
                        match get_state w3 m with
                        | Err e => (w3, Err e)
                        | Ok updates =>
                            match update_state w3 r (UStates (One updates)) with
                            | (w4, Ok _) => (w4, Ok (grads, aux))
                            | (w4, Err e) => (w4, Err e)
                            end
                        end
                      else (w3, Ok (grads, aux))
                  end
              end
          end
      | _ => (w, Err OutOfModel)
      end
  end.
