(** GradArgsM: models the arguments and the result of a differentiated function
    (nnx/transforms.py:136-260 GradTransform and grad).  [TransformM.grad_call]
    has the part that deals with the module.

    [jax.grad(g, argnums=0)] is taken by its contract.  The leaves of the first
    argument must be arrays or numbers, real or complex; with [holomorphic] they
    must be complex, with [allow_int] they may be integers (TypeError).  Every
    other argument is passed as it is, whatever it is.  With [has_aux], [g]
    returns a tuple or list of two (TypeError).  The first result must be a real
    number or an array of shape () with a real floating type (complex, with
    [holomorphic]; TypeError); the second, the auxiliary value, may be anything. *)
From Coq Require Import ZArith.
From Verif Require Import PyBase ValuesM FiltersM StateM ModuleM ContextM TransformM JitArgsM.
Local Open Scope string_scope.
Local Open Scope list_scope.

(** The type of the elements of an array. (jax's checks in [jax.grad] as called at transforms.py:156-179) *)
Inductive dkind : Type := KInteger | KReal | KComplex.
(** What is known about arrays: the kind of their elements and whether their
    shape is ().  They are opaque objects in the model of values. (jax's checks in [jax.grad] as called at transforms.py:156-179) *)
Record array_info : Type := mkInfo { ai_kind : pyval -> dkind; ai_scalar : pyval -> bool }.

(** bools and ints are numbers of integer kind; floats are real; keys are arrays
    of two integers. (jax's checks in [jax.grad] as called at transforms.py:156-179) *)
Definition leaf_kind (ai : array_info) (l : leaf) : dkind :=
  match l with LVal (PyObj c i) => if smem "float" c then KReal else if smem "complex" c then KComplex else ai_kind ai (PyObj c i) | _ => KInteger end.
(** jax's checks in [jax.grad] as called at transforms.py:156-179 *)
Definition leaf_scalar (ai : array_info) (l : leaf) : bool :=
  match l with
  | LVal (PyObj c i) => smem "float" c || smem "complex" c || ai_scalar ai (PyObj c i)
  | LVal _ => true
  | _ => false
  end.

(** jax.grad: the check of the first argument. (jax's checks in [jax.grad] as called at transforms.py:156-179) *)
Definition diff_ok (holomorphic allow_int : bool) (ai : array_info) (l : leaf) : bool :=
  leaf_ok l &&
  match leaf_kind ai l with
  | KComplex => true
  | KReal => negb holomorphic
  | KInteger => negb holomorphic && allow_int
  end.
(** jax.grad: the check of the value that is differentiated; tuples, lists, dicts
    and None are not arrays. (jax's checks in [jax.grad] as called at transforms.py:156-179) *)
Definition loss_ok (holomorphic : bool) (ai : array_info) (x : arg) : bool :=
  match x with
  | GVal v => leaf_ok (LVal v) && leaf_scalar ai (LVal v) &&
              match leaf_kind ai (LVal v) with KInteger => false | KReal => negb holomorphic | KComplex => holomorphic end
  | _ => false
  end.

(** transforms.py:166 [loss, aux = out] when the transform is stateful; the check
    of jax.grad otherwise.  Simplifications: an array that is not a scalar is not
    unpacked along its first axis (OutOfModel); a key is a pair of integers and a
    PureContext a pair of a dict and a ContextDef, so that the first component is
    refused by the check of the loss, here at once. *)
Definition unpack_arg (stateful : bool) (ai : array_info) (x : arg) : result (arg * arg) :=
  match x with
  | GTuple [a; b] | GList [a; b] => Ok (a, b)
  | GVal (PyTuple [a; b]) => Ok (GVal a, GVal b)
  | GTuple _ | GList _ | GVal (PyTuple _) => Err (if stateful then ValueError else TypeError)
  | GDict [(k, _); (k', _)] => if stateful then Ok (GVal (PyStr k), GVal (PyStr k')) else Err TypeError
  | GDict _ => Err (if stateful then ValueError else TypeError)
  | GVal (PyStr s) =>
      if stateful then match list_ascii_of_string s with
                       | [c; d] => Ok (GVal (PyStr (String c "")), GVal (PyStr (String d "")))
                       | _ => Err ValueError
                       end
      else Err TypeError
  | GVal v => if stateful && leaf_ok (LVal v) && negb (leaf_scalar ai (LVal v)) then Err OutOfModel else Err TypeError
  | GKey _ | GPure _ | GCtx _ => Err TypeError
  end.

(** The user function: positional arguments, world, module.  There are no keyword
    arguments, and a Context is an argument like any other. (transforms.py:138-179) *)
Definition gradded : Type := list arg -> world -> nat -> world * result arg.

(** the loss and the auxiliary value. (transforms.py:156-174) *)
Definition split_out (stateful has_aux : bool) (ai : array_info) (out : arg) : result (arg * option arg) :=
  if has_aux then rmap (fun la => (fst la, Some (snd la))) (unpack_arg stateful ai out) else Ok (out, None).

(** transforms.py:230-260 (the filter becomes a predicate), 181-200
    [GradTransform.__call__] and 156-174 [grad_fn] under [jax.grad].  [leaf_grad]
    is what jax computes for each entry. *)
Definition grad_args (stateful has_aux holomorphic allow_int : bool) (ai : array_info) (wrt : filt) (t : trace_state)
    (leaf_grad : string -> attr -> pyval) (fn : gradded) (w : world) (m : attr) (args : list arg)
  : world * result (state * option arg) :=
  match to_predicate wrt with
  | Err e => (w, Err e)
  | Ok pred =>
      match m with
      | ARaw (PyMod r) =>
          match module_partition w r [FPred pred; FEllipsis] with
          | Err e => (w, Err e)
          | Ok p =>
              match p_states p with
              | Many [diff; nondiff] =>
                  if negb (forallb (diff_ok holomorphic allow_int ai) (state_leaves diff)) then (w, Err TypeError)
                  else match merge (set_trace w t) (p_def p) [diff; nondiff] with
                       | Err e => (w, Err e)
                       | Ok (m, w1) =>
                           match fn args w1 m with
                           | (w2, Err e) => (set_trace w2 (w_trace w), Err e)
                           | (w2, Ok out) =>
                               let w3 := set_trace w2 (w_trace w) in
                               match (if stateful then rmap Some (get_state w3 m) else Ok None) with
                               | Err e => (w3, Err e)
                               | Ok updates =>
                                   match split_out stateful has_aux ai out with
                                   | Err e => (w3, Err e)
                                   | Ok (loss, aux) =>
                                       if negb (loss_ok holomorphic ai loss) then (w3, Err TypeError)
                                       else let res := (grad_tree leaf_grad diff, aux) in
                                            match updates with
                                            | None => (w3, Ok res)
                                            | Some u => match update_state w3 r (UStates (One u)) with
                                                        | (w4, Ok _) => (w4, Ok res)
                                                        | (w4, Err e) => (w4, Err e)
                                                        end
                                            end
                                   end
                               end
                           end
                       end
              | _ => (w, Err OutOfModel)
              end
          end
      | _ => (w, Err TypeError)
      end
  end.
