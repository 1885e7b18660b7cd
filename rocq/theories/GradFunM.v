(** GradFunM: [nnx.grad] (nnx/transforms.py:136-260) together with the function it
    hands to [jax.grad].  [TransformM.grad_call] takes the derivatives as given; here
    they are what an operator makes of that function. *)
From Verif Require Import PyBase ValuesM FiltersM StateM ModuleM TransformM.
Local Open Scope string_scope.
Local Open Scope list_scope.

(** [jax.grad] as called at transforms.py:147-154 (argnums=0): from a loss, a function
    of the first argument that may raise ([None]), and a point, a value for every entry
    of the point.  What it computes is left open. *)
Definition grad_op : Type := (state -> option pyval) -> state -> string -> attr -> pyval.

(** transforms.py:155-174 [grad_fn] as a function of [diff], with the other arguments
    fixed: the loss it returns. *)
Definition grad_fn (stateful has_aux : bool) (t : trace_state) (fn : world -> nat -> world * result pyval)
    (w : world) (nondiff : state) (d : mdef) (diff : state) : option pyval :=
  match merge (set_trace w t) d [diff; nondiff] with
  | Err _ => None
  | Ok (m, w1) =>
      match fn w1 m with
      | (_, Err _) => None
      | (w2, Ok out) =>
          match (if stateful then rmap (fun _ => tt) (get_state (set_trace w2 (w_trace w)) m) else Ok tt) with
          | Err _ => None
          | Ok _ => if has_aux then match unpack2 stateful out with Ok (loss, _) => Some loss | Err _ => None end else Some out
          end
      end
  end.

(** transforms.py:181-200 [GradTransform.__call__]: the derivatives are those of
    [grad_fn] at [diff]. *)
Definition grad_call_fn (stateful has_aux : bool) (wrt : filt) (t : trace_state) (D : grad_op)
    (fn : world -> nat -> world * result pyval) (w : world) (r : nat) : world * result grad_result :=
  match (do pred <- to_predicate wrt; module_partition w r [FPred pred; FEllipsis]) with
  | Err e => (w, Err e)
  | Ok p =>
      match p_states p with
      | Many [diff; nondiff] =>
          grad_call stateful has_aux wrt t (D (grad_fn stateful has_aux t fn w nondiff (p_def p)) diff) fn w r
      | _ => (w, Err OutOfModel)
      end
  end.
