(** DecorM: models the decorators nnx.jit, nnx.grad, nnx.remat and nnx.scan applied
    to functions that are themselves decorated (nnx/transforms.py:59-75, 86-133,
    176-200, 233-255, 693-750, 893-923).

    All four end with [functools.wraps(fun)], which copies the name of [fun] and
    then does [wrapper.__dict__.update(fun.__dict__)].  The objects returned by jit
    and grad keep what they need in their [__dict__]: [jitted_fn], [stateful], and
    [grad_fn], [predicate], [has_aux], [stateful].  An entry of the same name in
    [fun.__dict__] replaces the object's own.

    What one transform does to the function it is given is a parameter here
    ([behaviours]); [nnx_layers] instantiates it with the models of jit and grad. *)
From Coq Require Import ZArith.
From Verif Require Import PyBase ValuesM FiltersM StateM ModuleM ContextM TransformM JitArgsM GradArgsM.
Local Open Scope string_scope.
Local Open Scope list_scope.

(** [F]: what calling a function does.  [JO], [GO], [RO], [SO]: the options of the
    decorators other than [stateful]; those of grad include [predicate] and
    [has_aux]. (transforms.py:35-80, 136-203, 492-690, 850-891 as parameters) *)
Record behaviours (F JO GO RO SO : Type) : Type := mkBeh {
  (** JitTransform.__call__ (62-74) with [self.stateful], calling a [jitted_fn]
      (39-57) made by an object whose [stateful] is the first flag *)
  b_jit : JO -> bool -> bool -> F -> F;
  (** GradTransform.__call__ (181-200), the same for [grad_fn] (148-171) *)
  b_grad : GO -> bool -> bool -> F -> F;
  b_remat : RO -> F -> F;
  b_scan : SO -> F -> F
}.
Arguments b_jit {F JO GO RO SO}. Arguments b_grad {F JO GO RO SO}.
Arguments b_remat {F JO GO RO SO}. Arguments b_scan {F JO GO RO SO}.

Section Decor.
Context {F JO GO RO SO : Type} (B : behaviours F JO GO RO SO).

(** [obj.__dict__]: the entries that matter.  [v_jitted] is the closure [jitted_fn]:
    its options, the function it traces and the object [self] it belongs to, of
    which only [stateful] is used; [v_grad_fn] with [predicate] and [has_aux], which
    are always written together.  [stateful] of [self] is read when the closure
    runs, which is after [wraps]. (transforms.py:37-60, 138-179) *)
Record vars : Type := mkFvars {
  v_stateful : option bool;
  v_jitted : option (JO * F * bool);
  v_grad_fn : option (GO * F * bool)
}.
(** a function object with its [__dict__], see transforms.py:37-60 *)
Record pyfun : Type := mkPyfun { call_of : F; vars_of : vars }.

(** [a.update(b)]. ([functools.update_wrapper] / [functools.wraps], transforms.py:35-80, 136-203, 693-749, 894-923) *)
Definition over {A} (a b : option A) : option A := match b with Some _ => b | None => a end.
(** [functools.update_wrapper] / [functools.wraps], transforms.py:35-80, 136-203, 693-749, 894-923 *)
Definition vars_update (a b : vars) : vars :=
  mkFvars (over (v_stateful a) (v_stateful b)) (over (v_jitted a) (v_jitted b)) (over (v_grad_fn a) (v_grad_fn b)).

(** A function as python makes it.  [a] is the attribute [stateful] of the
    function, if somebody has set it. (transforms.py:36, 137) *)
Definition plain_fun (a : option bool) (f : F) : pyfun := mkPyfun f (mkFvars a None None).

(** transforms.py:126-133 [jit]: the object is made, then [wraps] updates its
    [__dict__]. *)
Definition nnx_jit (o : JO) (stateful : bool) (f : pyfun) : pyfun :=
  let self_stateful := match v_stateful (vars_of f) with Some b => b | None => stateful end in
  let v := vars_update (mkFvars (Some stateful) (Some (o, call_of f, self_stateful)) None) (vars_of f) in
  mkPyfun (match v_jitted v, v_stateful v with
           | Some (o', g, inner), Some b => b_jit B o' inner b g
           | _, _ => call_of f   (* does not happen: both entries have been written *)
           end) v.
(** transforms.py:243-255 [grad] *)
Definition nnx_grad (o : GO) (stateful : bool) (f : pyfun) : pyfun :=
  let self_stateful := match v_stateful (vars_of f) with Some b => b | None => stateful end in
  let v := vars_update (mkFvars (Some stateful) None (Some (o, call_of f, self_stateful))) (vars_of f) in
  mkPyfun (match v_grad_fn v, v_stateful v with
           | Some (o', g, inner), Some b => b_grad B o' inner b g
           | _, _ => call_of f   (* does not happen *)
           end) v.
(** transforms.py:914-923 [remat], 739-750 [scan] (not [is_init]): a new python
    function *)
Definition nnx_remat (o : RO) (f : pyfun) : pyfun :=
  mkPyfun (b_remat B o (call_of f)) (vars_update (mkFvars None None None) (vars_of f)).
(** transforms.py:738-749 *)
Definition nnx_scan (o : SO) (f : pyfun) : pyfun :=
  mkPyfun (b_scan B o (call_of f)) (vars_update (mkFvars None None None) (vars_of f)).

(** A stack of decorators, the outermost first. (user code applying transforms.py:86-133, 233-255, 693-749, 894-923) *)
Inductive decorator : Type :=
| DJit (o : JO) (stateful : bool)
| DGrad (o : GO) (stateful : bool)
| DRemat (o : RO)
| DScan (o : SO).
(** user code applying transforms.py:86-133, 233-255, 693-749, 894-923 *)
Definition decorate (d : decorator) : pyfun -> pyfun :=
  match d with
  | DJit o st => nnx_jit o st
  | DGrad o st => nnx_grad o st
  | DRemat o => nnx_remat o
  | DScan o => nnx_scan o
  end.
(** user code applying transforms.py:86-133, 233-255, 693-749, 894-923 *)
Definition decorated (ds : list decorator) (f : pyfun) : pyfun := fold_right decorate f ds.
End Decor.

(** ** The behaviours of nnx *)

(** The function of a module and arguments.  Simplifications: no Contexts, so that
    no streams are threaded; the result of grad is given as a dict of the values of
    the State, or a pair of that and the auxiliary value. (the function decorated at transforms.py:86-133, 233-255) *)
Definition nnx_function : Type := list arg -> dict arg -> world -> nat -> world * result arg.
(** options: static names and trace; filter, has_aux and trace. (transforms.py:37-74) *)
Definition jit_layer (o : list string * trace_state) (inner outer : bool) (f : nnx_function) : nnx_function :=
  fun args kwargs w r =>
    if Bool.eqb inner outer then
      match jit_call_args (fst o) outer (snd o) f w (ARaw (PyMod r)) args kwargs [] with
      | (w', _, res) => (w', res)
      end
    else (w, Err OutOfModel).
(** the result of transforms.py:181-200 as an argument of the next decorator *)
Definition grads_arg (ga : state * option arg) : arg :=
  let g := GDict (map (fun ka => (fst ka, GVal (match snd ka with ARaw v => v | ACont c => c_val c end))) (fst ga)) in
  match snd ga with None => g | Some aux => GTuple [g; aux] end.
(** transforms.py:181: there are no keyword arguments *)
Definition grad_layer (ai : array_info) (leaf_grad : string -> attr -> pyval) (o : filt * bool * trace_state) (inner outer : bool) (f : nnx_function) : nnx_function :=
  fun args kwargs w r =>
    match kwargs with
    | _ :: _ => (w, Err TypeError)
    | [] => if Bool.eqb inner outer then
              let '(wrt, has_aux, t) := o in
              let (w', res) := grad_args outer has_aux false false ai wrt t leaf_grad (fun a => f a []) w (ARaw (PyMod r)) args in
              (w', rmap grads_arg res)
            else (w, Err OutOfModel)
    end.
(** jit and grad only. (transforms.py:35-203) *)
Definition nnx_layers (ai : array_info) (leaf_grad : string -> attr -> pyval)
  : behaviours nnx_function (list string * trace_state) (filt * bool * trace_state) False False :=
  mkBeh _ _ _ _ _ jit_layer (grad_layer ai leaf_grad) (fun (o : False) _ => match o with end) (fun (o : False) _ => match o with end).
