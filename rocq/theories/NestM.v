(** NestM: transforms inside transforms.  Function bodies that themselves call functions
    decorated with [nnx.jit] (nnx/transforms.py:35-130), [nnx.remat] (transforms.py:849-929),
    [nnx.grad] (transforms.py:136-260) and [nnx.scan] (transforms.py:492-690) on the modules
    they hold, to any depth.

    The operations between the calls are those of [Spec_Prog.cmd].  The body of a call is a
    program again; it holds the module it was called with, and the Context made for it if the
    call was given one, and nothing else: values and keys may come in from outside (through
    arguments or as closures) but modules and Contexts may not.  The Contexts of a body are
    numbered from 0; operations on them are those of [ContextM.cop]. *)
From Coq Require Import ZArith.
From Verif Require Import PyBase ValuesM FiltersM StateM ModuleM ContextM TransformM JitArgsM ScanM RematArgsM GradFunM Spec_Prog.
Local Open Scope string_scope.
Local Open Scope list_scope.

(** Python code: finish; one operation; a call of a decorated function on module number [i]
    under traces [t], after which the code goes on with what the call returned or raised.
    A scanned function gets the carry and the slices of the axes arguments.  Remat and scan
    may be given one of the Contexts held, [ctx=...].
    (transforms.py:63-75, 181-200, 492-690, 901-929) *)
Inductive nprog : Type :=
| NFin (res : result pyval)
| NDo (c : cmd) (k : ans -> nprog)
| NJit (stateful : bool) (t : trace_state) (i : nat) (body : nprog) (k : result pyval -> nprog)
| NCtx (o : cop) (k : cout -> nprog)
| NRemat (a : argnums) (t : trace_state) (i : nat) (ctx : option nat) (body : nprog) (k : result pyval -> nprog)
| NGrad (stateful has_aux : bool) (wrt : filt) (t : trace_state) (D : grad_op) (i : nat) (body : nprog) (k : result grad_result -> nprog)
| NScan (J : arrays) (o : scan_opts) (t : trace_state) (i : nat) (c : pyval) (xs : list pyval) (ctx : option nat) (body : pyval -> list pyval -> nprog)
    (k : result (pyval * list pyval) -> nprog).

(** results as JitArgsM and RematArgsM have them (transforms.py:43-58, 868-880) *)
Definition to_arg (fn : world -> nat -> world * result pyval) (w : world) (m : nat) : world * result arg :=
  let (w', res) := fn w m in (w', rmap GVal res).
(** results as JitArgsM and RematArgsM have them (transforms.py:63-75, 882-891) *)
Definition of_arg (res : result arg) : result pyval :=
  do a <- res; match a with GVal v => Ok v | _ => Err OutOfModel end.

(** [jax.lax.scan] takes and returns arrays; it is called at transforms.py:626-633 *)
Definition arrays_only (l : list pyval) : bool := forallb leaf_ok (flat_map (fun v => arg_leaves (GVal v)) l).
(** [(carry_out, axes_out) = f(...)] at transforms.py:600-602.  Simplification: [axes_out] is an
    array or a flat tuple of arrays. *)
Definition scan_body (fn : option pctx -> pyval -> list pyval -> world -> nat -> world * result pyval) : scanned := fun pc c xs w m =>
  if negb (arrays_only (c :: xs)) then (w, Err TypeError)
  else match fn pc c xs w m with
       | (w', Err e) => (w', Err e)
       | (w', Ok out) =>
           match unpack2 true out with
           | Err e => (w', Err e)
           | Ok (c', y) => let ys := match y with PyTuple l => l | _ => [y] end in
                           if arrays_only (c' :: ys) then (w', Ok (c', ys)) else (w', Err TypeError)
           end
       end.

(** The Contexts a body starts with: none, or the one merged from the keys it is given, under
    its own traces. (transforms.py:583-587, 870-873; contextlib.py:34-39) *)
Definition frame_of (t : trace_state) (pc : option pctx) : result cworld :=
  match pc with
  | None => Ok (cstart t)
  | Some q => do (x, ss) <- pctx_merge t q []; Ok (mkCW ss [x] [] t)
  end.
(** the body of a call, on the module and with the Context made for it
    (transforms.py:43-58, 583-602, 868-880) *)
Definition in_frame (run : world -> list nat -> cworld -> world * result pyval) (pc : option pctx) (w : world) (m : nat) : world * result pyval :=
  match frame_of (w_trace w) pc with
  | Err e => (w, Err e)
  | Ok f => run w [m] f
  end.
(** the Context given to a call; [None] if there is no such Context
    (the argument [ctx] of transforms.py:492-501, 849-857) *)
Definition held (f : cworld) (ctx : option nat) : option (option context) :=
  match ctx with
  | None => Some None
  | Some c => option_map Some (nth_error (cw_ctxs f) c)
  end.

(** Running it: each call is the call of [JitTransform] (transforms.py:63-75), [remat_apply]
    (transforms.py:849-891), [GradTransform] (transforms.py:181-200) or [scan_apply]
    (transforms.py:492-690) on the running body, without further arguments.  [f] are the
    Contexts held. *)
Section Run.
Variable blake : string -> nat.
Fixpoint nrun (p : nprog) (w : world) (env : list nat) (f : cworld) {struct p} : world * result pyval :=
  match p with
  | NFin res => (w, res)
  | NDo c k => match exec w env c with (w', env', a) => nrun (k a) w' env' f end
  | NCtx o k => let (f', out) := crun1 blake f o in nrun (k out) w env f'
  | NJit stateful t i body k =>
      match nth_error env i with
      | None => (w, Err OutOfModel)
      | Some r =>
          match jit_call_args [] stateful t (fun _ _ => to_arg (in_frame (nrun body) None)) w (ARaw (PyMod r)) [] [] [] with
          | (w', _, res) => nrun (k (of_arg res)) w' env f
          end
      end
  | NRemat a t i ctx body k =>
      match nth_error env i, held f ctx with
      | Some r, Some x =>
          match remat_args (remat_options a) t (fun _ pc => to_arg (in_frame (nrun body) pc)) w r [] x (cw_streams f) with
          | (w', ss, res) => nrun (k (of_arg res)) w' env (set_streams f ss)
          end
      | _, _ => (w, Err OutOfModel)
      end
  | NGrad stateful has_aux wrt t D i body k =>
      match nth_error env i with
      | None => (w, Err OutOfModel)
      | Some r =>
          match grad_call_fn stateful has_aux wrt t D (in_frame (nrun body) None) w r with
          | (w', res) => nrun (k res) w' env f
          end
      end
  | NScan J o t i c xs ctx body k =>
      match nth_error env i, held f ctx with
      | Some r, Some x =>
          match scan_apply J o t (scan_body (fun pc c xs => in_frame (nrun (body c xs)) pc)) w r c xs x (cw_streams f) with
          | (w', ss, res) => nrun (k res) w' env (set_streams f ss)
          end
      | _, _ => (w, Err OutOfModel)
      end
  end.
End Run.
