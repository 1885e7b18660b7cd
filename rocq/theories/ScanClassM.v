(** ScanClassM: models nnx/transforms.py, class [Scan] (273-388). *)
From Coq Require Import ZArith.
From Verif Require Import PyBase ValuesM FiltersM StateM ModuleM SpmdM ContextM TransformM ScanM ScanInitM.
Local Open Scope string_scope.
Local Open Scope list_scope.

(** transforms.py:314 *)
Definition Scan_cls : cls := ["Scan"; "Module"; "Representable"; "Generic"; "object"].

(** transforms.py:334-347: the new Scan object with the attributes
    [module_constructor] and [options].  They are values [cv] and [ov] that are
    only read back by [Scan.call]; [o] below is what [ov] holds. *)
Definition scan_start (w : world) (cv ov : pyval) : result (nat * world) :=
  let (r, w1) := new_module w Scan_cls in
  do w2 <- setattr w1 r "module_constructor" (ARaw cv);
  do w3 <- setattr w2 r "options" (ARaw ov);
  Ok (r, w3).

(** transforms.py:273-350: [nnx.Scan(M, ...)( *args, ctx=ctx)], by way of
    [ScanMeta.__call__], [ModuleMeta._meta_call] (module.py:417-420) and
    [Scan.__init__].  [ctor] is [M] with the arguments. *)
Definition scan_new (J : arrays) (o : scan_opts) (t : trace_state) (ctor : constructor) (cv ov : pyval) (w : world)
    (ctx : option context) (ss : list stream) : world * list stream * result nat :=
  match scan_start w cv ov with
  | Err e => (w, ss, Err e)
  | Ok (r, w1) =>
      match scan_init J o t ctor w1 ctx ss with
      | (w2, ss', Err e) => (w2, ss', Err e)
      | (w2, ss', Ok m) =>
          match setattr w2 r "scan_module" (ARaw (PyMod m)) with
          | Err e => (w2, ss', Err e)
          | Ok w3 => (w3, ss', Ok r)
          end
      end
  end.

(** transforms.py:352-388: [scan(carry, xs, ctx=ctx)], and [scan.call.method(carry,
    xs, ctx=ctx)].  [f] is the call or method of the module with the broadcast
    arguments; [CallableProxy] and [DelayedAccessor] are modelled in PureM. *)
Definition scan_call (J : arrays) (o : scan_opts) (t : trace_state) (f : scanned) (w : world) (r : nat)
    (c : pyval) (xs : list pyval) (ctx : option context) (ss : list stream)
  : world * list stream * result (pyval * list pyval) :=
  match getattr w r "scan_module" with
  | Err e => (w, ss, Err e)
  | Ok (RVal (PyMod m)) => scan_apply J o t f w m c xs ctx ss
  | Ok _ => (w, ss, Err OutOfModel)
  end.
