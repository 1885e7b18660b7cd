(** Histories of calls on a module, each made directly or through a transform. *)
From Coq Require Import ZArith.
From Verif Require Import PyBase ValuesM Spec_Eq FiltersM StateM ModuleM ContextM TransformM JitArgsM SpmdM ScanM RematArgsM Spec_Module Spec_Prog Spec_JitArgs Spec_RematArgs.
Local Open Scope string_scope.
Local Open Scope list_scope.

(** a call: function, positional and keyword arguments, context *)
Record call := mkCall {
  k_fun : list arg -> dict arg -> option pctx -> prog arg;
  k_args : list arg;
  k_kwargs : dict arg;
  k_ctx : option context
}.
(** what the function does in the call, given the partition of the context *)
Definition body (k : call) (pc : option pctx) : prog arg := k_fun k (k_args k) (k_kwargs k) pc.

Inductive step : Type :=
| Direct (k : call)                                                       (** f(m, ...) *)
| ByJit (static : list string) (stateful : bool) (t : trace_state) (k : call)   (** nnx.jit(f)(m, ...) *)
| ByRemat (a : argnums) (t : trace_state) (k : call)                        (** nnx.remat(f)(m, ...) *)
| ByGrad (stateful has_aux : bool) (wrt : filt) (t : trace_state) (leaf_grad : string -> attr -> pyval) (f : prog pyval).  (** nnx.grad(f)(m) *)

Inductive outcome : Type :=
| Returned (x : result arg)
| Gradient (x : result grad_result).

(** ** The program as it is written *)
Definition do_step (r : nat) (s : step) (w : world) (ss : list stream) : world * list stream * outcome :=
  match s with
  | Direct k =>
      match (match k_ctx k with
             | None => (Ok None, ss)
             | Some x => match context_partition (w_trace w) x ss with
                         | (Err e, ss') => (Err e, ss')
                         | (Ok pc, ss') => (Ok (Some pc), ss')
                         end
             end) with
      | (Err e, ss') => (w, ss', Returned (Err e))
      | (Ok pc, ss') => let (w', res) := user_fun (body k pc) w r in (w', ss', Returned res)
      end
  | ByJit static stateful t k =>
      match jit_call_args static stateful t (fun a kw => user_fun (k_fun k a kw None)) w (ARaw (PyMod r)) (k_args k) (k_kwargs k) ss with
      | (w', ss', res) => (w', ss', Returned res)
      end
  | ByRemat a t k =>
      match remat_args (remat_options a) t (fun x c => user_fun (k_fun k x [] c)) w r (k_args k) (k_ctx k) ss with
      | (w', ss', res) => (w', ss', Returned res)
      end
  | ByGrad stateful has_aux wrt t leaf_grad f =>
      let (w', res) := grad_call stateful has_aux wrt t leaf_grad (user_fun f) w r in (w', ss, Gradient res)
  end.
Fixpoint do_steps (r : nat) (l : list step) (w : world) (ss : list stream) : world * list stream * list outcome :=
  match l with
  | [] => (w, ss, [])
  | s :: l' => match do_step r s w ss with
               | (w1, ss1, x) => match do_steps r l' w1 ss1 with (w2, ss2, xs) => (w2, ss2, x :: xs) end
               end
  end.

(** ** The same without transforms
    A direct call does what the function does.  A call through a transform does
    that too, unless the function raises or the transform is not stateful: then
    the module stays as it was.  The premises say what may be passed to a
    transform and what a function may do in it. *)
Definition next {A} (stateful : bool) (w w1 : world) (res : result A) : world :=
  match res with Ok _ => if stateful then w1 else w | Err _ => w end.
Definition kept (stateful : bool) (w w1 : world) (r : nat) {A} (res : result A) : Prop :=
  forall out, res = Ok out -> stateful = true -> nodes_only w w1 r /\ names_ok w1 r.
Definition crosses (stateful : bool) (w1 : world) (r : nat) (res : result arg) : Prop :=
  forall out, res = Ok out -> jax_arg out /\ (stateful = true -> jax_module w1 r).
(** what nnx.grad returns if the function returned [out] *)
Definition grad_of (has_aux : bool) (g : string -> attr -> pyval) (diff : state) (res : result pyval) (x : result grad_result) : Prop :=
  match res with
  | Err e => x = Err e
  | Ok out => exists aux grads, x = Ok (grads, aux) /\ grads = map (fun ka => (fst ka, with_value (snd ka) (g (fst ka) (snd ka)))) diff /\
                (if has_aux then exists loss v, out = PyTuple [loss; v] /\ aux = Some v else aux = None)
  end.

Inductive plainly (r : nat) : world -> list stream -> list step -> world -> list stream -> list outcome -> Prop :=
| pl_done w ss : plainly r w ss [] w ss []
| pl_direct w ss k pc ss1 w1 res l w2 ss2 xs :
    ctx_given (w_trace w) (k_ctx k) ss pc ss1 -> ok_prog (body k pc) -> user_fun (body k pc) w r = (w1, res) ->
    plainly r w1 ss1 l w2 ss2 xs ->
    plainly r w ss (Direct k :: l) w2 ss2 (Returned res :: xs)
| pl_jit w ss static stateful t k w1 res l w2 ss2 xs :
    k_ctx k = None -> no_context (k_kwargs k) -> hashed static (k_kwargs k) -> args_ok w r static (k_args k) (k_kwargs k) -> names_ok w r ->
    ok_prog (body k None) -> user_fun (body k None) w r = (w1, res) -> kept stateful w w1 r res -> crosses stateful w1 r res ->
    plainly r (next stateful w w1 res) ss l w2 ss2 xs ->
    plainly r w ss (ByJit static stateful t k :: l) w2 ss2 (Returned res :: xs)
| pl_remat w ss a t k pc ss1 w1 res l w2 ss2 xs :
    k_kwargs k = [] -> ctx_given (w_trace w) (k_ctx k) ss pc ss1 -> nums_ok a (List.length (k_args k)) -> remat_args_ok w r a (k_args k) -> names_ok w r ->
    ok_prog (body k pc) -> user_fun (body k pc) w r = (w1, res) -> kept true w w1 r res -> crosses true w1 r res ->
    plainly r (next true w w1 res) ss1 l w2 ss2 xs ->
    plainly r w ss (ByRemat a t k :: l) w2 ss2 (Returned res :: xs)
| pl_grad w ss stateful has_aux wrt t g f pred diff w1 res x l w2 ss2 xs :
    to_predicate wrt = Ok pred -> module_filter w r wrt [] = Ok (One diff) -> names_ok w r ->
    ok_prog f -> user_fun f w r = (w1, res) -> kept stateful w w1 r res -> grad_of has_aux g diff res x ->
    plainly r (next stateful w w1 res) ss l w2 ss2 xs ->
    plainly r w ss (ByGrad stateful has_aux wrt t g f :: l) w2 ss2 (Gradient x :: xs).
