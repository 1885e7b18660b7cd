(** The program without transforms, and what may be done inside them. *)
From Coq Require Import ZArith.
From Verif Require Import PyBase ValuesM Spec_Eq FiltersM StateM ModuleM TransformM JitArgsM SpmdM ContextM ScanM RematArgsM GradFunM NestM.
From Verif Require Import Spec_Module Spec_Prog Spec_JitArgs Spec_RematArgs Spec_GradFun Spec_Mixed Spec_Scan Spec_ScanCalls.
Local Open Scope string_scope.
Local Open Scope list_scope.

(** ** The same without transforms
    A call of a decorated function runs its body on the module itself.  If the body raises,
    or the transform is not stateful, everything is as before the call ([Spec_Mixed.next]).
    A gradient is that of the loss as a function of the selected values: those of [diff].
    A scan stays a scan (C29 says which loop it is), of the function without transforms.
    A call that is given a Context gives the body a Context of its own: the merge of the
    partition, [ctx.partition().merge()]. *)
Definition the_loss (has_aux : bool) (body : world -> world * result pyval) (w : world) (r : nat) (d : state) : option pyval :=
  match update_state w r (UStates (One d)) with
  | (w1, Ok _) => match body w1 with (_, Ok out) => loss_of has_aux out | _ => None end
  | _ => None
  end.
Definition aux_wanted (stateful has_aux : bool) (out : pyval) : result (option pyval) :=
  if has_aux then
    match out with
    | PyTuple [_; v] => Ok (Some v)
    | PyTuple _ => Err (if stateful then ValueError else TypeError)
    | PyStr s => Err (if stateful && negb (Nat.eqb (String.length s) 2) then ValueError else TypeError)
    | _ => Err TypeError
    end
  else Ok None.
Definition gradient (stateful has_aux : bool) (D : grad_op) (loss : state -> option pyval) (diff : state) (res : result pyval) : result grad_result :=
  do out <- res; do aux <- aux_wanted stateful has_aux out;
  Ok (map (fun ka => (fst ka, with_value (snd ka) (D loss diff (fst ka) (snd ka)))) diff, aux).

Definition forked (cur : trace_state) (ctx : option context) (ss : list stream) : result (option pctx) * list stream :=
  match ctx with
  | None => (Ok None, ss)
  | Some x => match context_partition cur x ss with
              | (Err e, ss') => (Err e, ss')
              | (Ok q, ss') => (Ok (Some q), ss')
              end
  end.

Section Plain.
Variable blake : string -> nat.
Fixpoint plain (p : nprog) (w : world) (env : list nat) (f : cworld) {struct p} : world * result pyval :=
  match p with
  | NFin res => (w, res)
  | NDo c k => match exec w env c with (w', env', a) => plain (k a) w' env' f end
  | NCtx o k => let (f', out) := crun1 blake f o in plain (k out) w env f'
  | NJit stateful _ i body k =>
      match nth_error env i with
      | None => (w, Err OutOfModel)
      | Some r => let (w1, res) := in_frame (plain body) None w r in plain (k res) (next stateful w w1 res) env f
      end
  | NRemat _ _ i ctx body k =>
      match nth_error env i, held f ctx with
      | Some r, Some x =>
          match forked (w_trace w) x (cw_streams f) with
          | (Err e, ss) => plain (k (Err e)) w env (set_streams f ss)
          | (Ok pc, ss) => let (w1, res) := in_frame (plain body) pc w r in plain (k res) (next true w w1 res) env (set_streams f ss)
          end
      | _, _ => (w, Err OutOfModel)
      end
  | NGrad stateful has_aux wrt _ D i body k =>
      match nth_error env i with
      | None => (w, Err OutOfModel)
      | Some r =>
          match module_filter w r wrt [] with
          | Ok (One diff) =>
              let (w1, res) := in_frame (plain body) None w r in
              let g := gradient stateful has_aux D (the_loss has_aux (fun v => in_frame (plain body) None v r) w r) diff res in
              plain (k g) (next stateful w w1 g) env f
          | Ok (Many _) => (w, Err OutOfModel)
          | Err e => plain (k (Err e)) w env f
          end
      end
  | NScan J o t i c xs ctx body k =>
      match nth_error env i, held f ctx with
      | Some r, Some x =>
          match scan_apply J o t (scan_body (fun pc c xs => in_frame (plain (body c xs)) pc)) w r c xs x (cw_streams f) with
          | (w', ss, res) => plain (k res) w' env (set_streams f ss)
          end
      | _, _ => (w, Err OutOfModel)
      end
  end.

(** ** What may be done inside
    Along the run without transforms: the modules passed to a transform have no clashing
    names and hold arrays; if the body returns and its effects are kept, it has changed
    nothing but nodes, and what it returns and leaves in the module are arrays.  The body
    of [grad] behaves so at every point at which it may be evaluated, that of [scan] at
    every call that is made. *)
Definition array_attr (a : attr) : Prop := forall l, val_leaf (match a with ARaw v => v | ACont c => c_val c end) l -> jax_leaf (LVal l).
Definition array_point (diff d : state) : Prop := point diff d /\ Forall (fun ka => array_attr (snd ka)) d.
Definition fits_in (ok : world -> list nat -> cworld -> Prop) (pc : option pctx) (w : world) (m : nat) : Prop :=
  forall f, frame_of (w_trace w) pc = Ok f -> ok w [m] f.
Fixpoint fits (p : nprog) (w : world) (env : list nat) (f : cworld) {struct p} : Prop :=
  match p with
  | NFin _ => True
  | NDo c k => match exec w env c with (w', env', a) => fits (k a) w' env' f end
  | NCtx o k => let (f', out) := crun1 blake f o in fits (k out) w env f'
  | NJit stateful _ i body k =>
      exists r, nth_error env i = Some r /\ names_ok w r /\ jax_module w r /\ fits_in (fits body) None w r /\
      let (w1, res) := in_frame (plain body) None w r in
      kept stateful w w1 r res /\ crosses stateful w1 r (rmap GVal res) /\ fits (k res) (next stateful w w1 res) env f
  | NRemat a _ i ctx body k =>
      exists r x, nth_error env i = Some r /\ held f ctx = Some x /\ names_ok w r /\ jax_module w r /\ nums_ok a 0 /\
      match forked (w_trace w) x (cw_streams f) with
      | (Err e, ss) => fits (k (Err e)) w env (set_streams f ss)
      | (Ok pc, ss) =>
          fits_in (fits body) pc w r /\
          let (w1, res) := in_frame (plain body) pc w r in
          kept true w w1 r res /\ crosses true w1 r (rmap GVal res) /\ fits (k res) (next true w w1 res) env (set_streams f ss)
      end
  | NGrad stateful has_aux wrt _ D i body k =>
      exists r diff, nth_error env i = Some r /\ names_ok w r /\ module_filter w r wrt [] = Ok (One diff) /\
      (exists pred, to_predicate wrt = Ok pred) /\ fits_in (fits body) None w r /\
      (forall d w1, array_point diff d -> update_state w r (UStates (One d)) = (w1, Ok tt) -> fits_in (fits body) None w1 r) /\
      let (w1, res) := in_frame (plain body) None w r in
      let g := gradient stateful has_aux D (the_loss has_aux (fun v => in_frame (plain body) None v r) w r) diff res in
      kept stateful w w1 r g /\ fits (k g) (next stateful w w1 g) env f
  | NScan J o t i c xs ctx body k =>
      exists r x, nth_error env i = Some r /\ held f ctx = Some x /\
      let fn := scan_body (fun pc c xs => in_frame (plain (body c xs)) pc) in
      scan_calls J o t fn (fun pc c xs v m => arrays_only (c :: xs) = true -> fits_in (fits (body c xs)) pc v m) w r c xs x (cw_streams f) /\
      match scan_apply J o t fn w r c xs x (cw_streams f) with (w', ss, res) => fits (k res) w' env (set_streams f ss) end
  end.
End Plain.

(** The Contexts held at the start were made under the current traces. *)
Definition frame_ok (w : world) (f : cworld) : Prop := cw_trace f = w_trace w /\ Forall (fun x => x_trace x = w_trace w) (cw_ctxs f).

(** Programs: they write plain values and make objects of Module classes
    ([Spec_Prog.ok_cmd]); derivatives depend on the loss at such points only, and are
    values; only the transforms change the traces. *)
Definition not_trace (o : cop) : Prop := match o with OTrace _ => False | _ => True end.
Definition values (D : grad_op) : Prop :=
  (forall l1 l2 diff, (forall d, array_point diff d -> l1 d = l2 d) -> forall k a, D l1 diff k a = D l2 diff k a) /\
  forall l diff k a r, D l diff k a <> PyMod r.
Definition ok_grads (g : result grad_result) : Prop := forall grads aux, g = Ok (grads, aux) -> Forall (fun ka => plain_attr (snd ka)) grads.
Definition ok_res (x : result pyval) : Prop := forall v, x = Ok v -> jax_arg (GVal v).
Definition ok_scan (x : result (pyval * list pyval)) : Prop := forall c ys, x = Ok (c, ys) -> jax_arg (GVal c) /\ Forall not_module ys.
Inductive ok_nprog : nprog -> Prop :=
| on_fin res : ok_nprog (NFin res)
| on_do c k : ok_cmd c -> (forall a, ok_ans a -> ok_nprog (k a)) -> ok_nprog (NDo c k)
| on_jit st t i body k : ok_nprog body -> (forall x, ok_res x -> ok_nprog (k x)) -> ok_nprog (NJit st t i body k)
| on_ctx o k : not_trace o -> (forall out, ok_nprog (k out)) -> ok_nprog (NCtx o k)
| on_remat a t i ctx body k : ok_nprog body -> (forall x, ok_res x -> ok_nprog (k x)) -> ok_nprog (NRemat a t i ctx body k)
| on_grad st ha wrt t D i body k : values D -> ok_nprog body -> (forall g, ok_grads g -> ok_nprog (k g)) -> ok_nprog (NGrad st ha wrt t D i body k)
| on_scan J o t i c xs ctx body k : arrays_ok J -> (forall c xs, (forall v, In v (c :: xs) -> jax_arg (GVal v)) -> ok_nprog (body c xs)) ->
    (forall x, ok_scan x -> ok_nprog (k x)) -> ok_nprog (NScan J o t i c xs ctx body k).
