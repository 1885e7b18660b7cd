(** RngNestM: keys drawn inside nested calls.  Programs that draw keys from Contexts and
    hand Contexts to rematerialised and scanned functions, to any depth.  The modules of
    these calls are left out; ScanM and RematArgsM have them. *)
From Verif Require Import PyBase ModuleM ContextM ScanM.
Local Open Scope string_scope.
Local Open Scope list_scope.

(** Python code: finish; [ctx.make_rng(name)]; [ctx.copy()]; [ctx.partition().merge()];
    [nnx.context(a=ctx.make_rng(n), b=ctx.make_rng(m), ...)], a new Context whose streams start
    from keys drawn on the spot;
    [jax.vmap(f)(jax.random.split(ctx.make_rng(n), num))] where [f] starts with
    [nnx.context(a=key)] (examples/07_transformer.py:314-316); a call, with a Context as [ctx], of a function under [nnx.remat] (or under [jax.jit] with the keys
    as an argument) or under [nnx.scan].  Contexts are named by number.  The body of a call
    runs under traces [t]; it may use its own Context, the last one, and by closure those of the
    code around it.  The layers of a scan may do different things, as they depend on their
    slices.  (contextlib.py:96-151, transforms.py:551-602, 849-891) *)
Inductive kprog : Type :=
| KFin (res : result unit)
| KDraw (c : nat) (name : string) (k : result key -> kprog)
| KCopy (c : nat) (k : kprog)
| KFork (c : nat) (k : result unit -> kprog)
| KNew (c : nat) (args : list (string * string)) (k : result unit -> kprog)
| KVmap (c : nat) (a n : string) (num : nat) (body : nat -> kprog) (k : result unit -> kprog)
| KRemat (t : trace_state) (c : nat) (body : kprog) (k : result unit -> kprog)
| KScan (t : trace_state) (c : nat) (split : rfilt) (n : nat) (body : nat -> kprog) (k : result unit -> kprog).

(** What is remembered of a successful [make_rng(name)]: the name, the key and path that were
    used and the key that was returned.  (contextlib.py:102-105) *)
Record draw := mkDraw { d_name : string; d_root : key; d_path : counts; d_key : key }.

(** the stream that [make_rng] reads, before the call (contextlib.py:102-105) *)
Definition draw_of (x : context) (name : string) (ss : list stream) (k : key) : list draw :=
  match dget name (x_rngs x) with
  | Some i => match nth_error ss i with Some s => [mkDraw name (s_key s) (s_path s ++ [s_count s]) k] | None => [] end
  | None => []
  end.

(** streams, the draws in order, and what was returned or raised *)
Definition kres : Type := (list stream * list draw * result unit)%type.
(** (transforms.py:584-602, 868-880) one thing after the other *)
Definition k_then (a : kres) (f : result unit -> list stream -> kres) : kres :=
  let '(ss, l, res) := a in let '(ss', l', res') := f res ss in (ss', l ++ l', res').

(** contextlib.py:96-105, once for each argument [a=ctx.make_rng(n)], from left to right; the
    first exception leaves the expression. *)
Fixpoint k_draws (blake : string -> nat) (cur : trace_state) (x : context) (args : list (string * string)) (ss : list stream)
    : list stream * list draw * result (list (string * key)) :=
  match args with
  | [] => (ss, [], Ok [])
  | (a, n) :: args' =>
      match make_rng blake cur x n ss with
      | (Err e, ss') => (ss', [], Err e)
      | (Ok v, ss') =>
          let '(ss2, l, r) := k_draws blake cur x args' ss' in
          (ss2, draw_of x n ss v ++ l, do kvs <- r; Ok ((a, v) :: kvs))
      end
  end.
(** contextlib.py:131-151: [params] is a parameter of [context], the others are in [rngs].
    Simplification: no flags. *)
Definition k_context (cur : trace_state) (kvs : list (string * key)) (ss : list stream) : context * list stream :=
  new_context cur (option_map ArgKey (dget "params" kvs)) []
    (map (fun nk => (fst nk, ArgKey (snd nk))) (filter (fun nk => negb (String.eqb (fst nk) "params")) kvs)) ss.

(** transforms.py:584-602, 868-880: the function gets the Context merged under its traces. *)
Definition k_inside (t : trace_state) (pc : pctx) (env : list context) (ss : list stream)
    (body : list context -> list stream -> kres) : kres :=
  match pctx_merge t pc ss with
  | Err e => (ss, [], Err e)
  | Ok (x, ss') => body (env ++ [x]) ss'
  end.

(** transforms.py:574-633: the layers in order; the first exception ends the scan.
    Simplification: jax traces the layer once; here it runs once for every layer, with the keys
    of the layer.  The run by which scan finds out the new carry state (635, [jax.eval_shape]) has
    no values and is left out; [reverse] (630) only changes the order. *)
Fixpoint k_layers (is : list nat) (step : nat -> list stream -> kres) (ss : list stream) : kres :=
  match is with
  | [] => (ss, [], Ok tt)
  | i :: is' => k_then (step i ss) (fun res ss' => match res with
                                                  | Err e => (ss', [], Err e)
                                                  | Ok _ => k_layers is' step ss'
                                                  end)
  end.

(** Running a program under traces [cur] with Contexts [env].
    (contextlib.py:96-151, transforms.py:551-602, 849-891) *)
Fixpoint krun (blake : string -> nat) (p : kprog) (cur : trace_state) (env : list context) (ss : list stream) {struct p} : kres :=
  match p with
  | KFin res => (ss, [], res)
  | KDraw c name k =>
      match nth_error env c with
      | None => (ss, [], Err OutOfModel)
      | Some x =>
          match make_rng blake cur x name ss with
          | (Err e, ss') => krun blake (k (Err e)) cur env ss'
          | (Ok v, ss') => k_then (ss', draw_of x name ss v, Ok tt) (fun _ ss2 => krun blake (k (Ok v)) cur env ss2)
          end
      end
  | KCopy c k =>
      match nth_error env c with
      | None => (ss, [], Err OutOfModel)
      | Some x => krun blake k cur (env ++ [context_copy cur x]) ss
      end
  | KFork c k =>
      match nth_error env c with
      | None => (ss, [], Err OutOfModel)
      | Some x =>
          match context_partition cur x ss with
          | (Err e, ss') => krun blake (k (Err e)) cur env ss'
          | (Ok pc, ss') => k_inside cur pc env ss' (fun env' ss2 => krun blake (k (Ok tt)) cur env' ss2)
          end
      end
  | KNew c args k =>
      match nth_error env c with
      | None => (ss, [], Err OutOfModel)
      | Some x =>
          let '(ss1, l, r) := k_draws blake cur x args ss in
          k_then (ss1, l, Ok tt) (fun _ ss2 =>
            match r with
            | Err e => krun blake (k (Err e)) cur env ss2
            | Ok kvs => let '(x', ss3) := k_context cur kvs ss2 in krun blake (k (Ok tt)) cur (env ++ [x']) ss3
            end)
      end
  | KVmap c a n num body k =>
      (* Simplification: one run for every key instead of one with all of them.  A vmapped
         function that uses a Context from outside would draw one key for all of them, so here it
         has only its own; vmap does not change the trace (tracers.py:70-85). *)
      match nth_error env c with
      | None => (ss, [], Err OutOfModel)
      | Some x =>
          match make_rng blake cur x n ss with
          | (Err e, ss') => krun blake (k (Err e)) cur env ss'
          | (Ok v, ss') =>
              k_then (ss', draw_of x n ss v, Ok tt) (fun _ ss1 =>
                k_then (k_layers (seq 0 num) (fun i ss2 =>
                          let '(x', ss3) := k_context cur [(a, KSplit v num i)] ss2 in krun blake (body i) cur [x'] ss3) ss1)
                       (fun res ss2 => krun blake (k res) cur env ss2))
          end
      end
  | KRemat t c body k =>
      match nth_error env c with
      | None => (ss, [], Err OutOfModel)
      | Some x =>
          match context_partition cur x ss with
          | (Err e, ss') => krun blake (k (Err e)) cur env ss'
          | (Ok pc, ss') =>
              k_then (k_inside t pc env ss' (fun env' ss2 => krun blake body t env' ss2))
                     (fun res ss2 => krun blake (k res) cur env ss2)
          end
      end
  | KScan t c split n body k =>
      match nth_error env c with
      | None => (ss, [], Err OutOfModel)
      | Some x =>
          match scan_ctx cur split (Some x) ss with
          | (Err e, ss') => krun blake (k (Err e)) cur env ss'
          | (Ok None, ss') => (ss', [], Err OutOfModel)
          | (Ok (Some (pc, p)), ss') =>
              k_then (k_layers (seq 0 n) (fun i ss1 => k_inside t (step_keys p n pc i) env ss1 (fun env' ss2 => krun blake (body i) t env' ss2)) ss')
                     (fun res ss2 => krun blake (k res) cur env ss2)
          end
      end
  end.
