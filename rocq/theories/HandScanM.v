(** HandScanM: models examples/06_scan_over_layers.py, the class [ScanMLP]
    (22-69): layers made with [jax.vmap] and applied with [jax.lax.scan], written
    by hand from partition and merge.  The stream whose key is split ("params" in
    the constructor, "dropout" in the call) and the filter ([nnx.Param]) are
    parameters.  Arrays as in ScanM. *)
From Coq Require Import ZArith.
From Verif Require Import PyBase ValuesM FiltersM StateM ModuleM ContextM TransformM ScanM ScanInitM.
Local Open Scope string_scope.
Local Open Scope list_scope.

(** [ctxdef.merge({name: key})]: what the context of layer [i] is merged from;
    [key] is [jax.random.split(k, n)[i]]. (examples/06_scan_over_layers.py:32-37, 47-48, 57) *)
Definition hand_ctx (name : string) (pc : pctx) (k : key) (n i : nat) : pctx :=
  mkPctx [(name, KSplit k n i)] (pc_counts pc) (pc_flags pc).

(** [keys, ctxdef = ctx.partition(); keys[name]]. (examples/06_scan_over_layers.py:32-33, 47-48) *)
Definition hand_key (cur : trace_state) (name : string) (ctx : context) (ss : list stream)
  : result (pctx * key) * list stream :=
  match context_partition cur ctx ss with
  | (Err e, ss') => (Err e, ss')
  | (Ok pc, ss') =>
      (match dget name (pc_keys pc) with None => Err KeyError | Some k => Ok (pc, k) end, ss')
  end.

(** examples/06_scan_over_layers.py:35-39 [create_block]: definition and State.  The
    context is merged first (contextlib.py:34-39). *)
Definition create_block (ctor : constructor) (pc : pctx) (w : world) : world * result (mdef * state) :=
  match pctx_merge (w_trace w) pc [] with
  | Err e => (w, Err e)
  | Ok _ =>
      match ctor (Some pc) w with
      | (w1, Err e) => (w1, Err e)
      | (w1, Ok r) =>
          (w1, do q <- module_partition w1 r [];
               match p_states q with One s => Ok (p_def q, s) | Many _ => Err OutOfModel end)
      end
  end.

(** examples/06_scan_over_layers.py:29-43: [self.layers].  [jax.vmap] as in ScanInitM, all
    results stacked along axis 0. *)
Definition hand_init (J : arrays) (n : nat) (name : string) (t : trace_state) (ctor : constructor) (w : world)
    (ctx : context) (ss : list stream) : world * list stream * result nat :=
  match hand_key (w_trace w) name ctx ss with
  | (Err e, ss') => (w, ss', Err e)
  | (Ok (pc, k), ss') =>
      match n with
      | 0 => (w, ss', Err OutOfModel)
      | S n' =>
          match create_block ctor (hand_ctx name pc k n 0) (set_trace w t) with
          | (w1, Err e) => (set_trace w1 (w_trace w), ss', Err e)
          | (w1, Ok (d, s)) =>
              match (do rest <- rmapM (fun i => snd (create_block ctor (hand_ctx name pc k n i) (set_trace w t))) (seq 1 n');
                     do st <- stack_states J 0%Z (s :: map snd rest);
                     merge (set_trace w1 (w_trace w)) d [st]) with
              | Err e => (set_trace w1 (w_trace w), ss', Err e)
              | Ok (m, w2) => (w2, ss', Ok m)
              end
          end
      end
  end.

(** The layer: context, input, module. (examples/06_scan_over_layers.py:16-20, 60) *)
Definition layer_fn : Type := pctx -> pyval -> world -> nat -> world * result pyval.

(** examples/06_scan_over_layers.py:52-63 [scan_fn] *)
Definition hand_step (g : filt) (f : layer_fn) (d : mdef) (w : world) (x : pyval) (inputs : pctx * state)
  : world * result (pyval * state) :=
  match pctx_merge (w_trace w) (fst inputs) [] with
  | Err e => (w, Err e)
  | Ok _ =>
      match merge w d [snd inputs] with
      | Err e => (w, Err e)
      | Ok (m, w1) =>
          match f (fst inputs) x w1 m with
          | (w2, Err e) => (w2, Err e)
          | (w2, Ok x') =>
              (w2, do q <- module_partition w2 m [g];
                   match p_states q with One s => Ok (x', s) | Many _ => Err OutOfModel end)
          end
      end
  end.

(** [jax.lax.scan] as called at examples/06_scan_over_layers.py:66: the steps in order.
    Shapes and dtypes are not checked. *)
Fixpoint hand_steps (g : filt) (f : layer_fn) (d : mdef) (w : world) (x : pyval) (l : list (pctx * state))
  : world * result (pyval * list state) :=
  match l with
  | [] => (w, Ok (x, []))
  | i :: rest =>
      match hand_step g f d w x i with
      | (w1, Err e) => (w1, Err e)
      | (w1, Ok (x1, s1)) =>
          match hand_steps g f d w1 x1 rest with
          | (w2, Err e) => (w2, Err e)
          | (w2, Ok (x2, ss)) => (w2, Ok (x2, s1 :: ss))
          end
      end
  end.

(** examples/06_scan_over_layers.py:45-69 [ScanMLP.__call__]; [r] is [self.layers], [n]
    is [self.n_layers].  The arrays scanned over must have [n] slices. *)
Definition hand_call (J : arrays) (n : nat) (name : string) (g : filt) (t : trace_state) (f : layer_fn)
    (w : world) (r : nat) (x : pyval) (ctx : context) (ss : list stream) : world * list stream * result pyval :=
  match hand_key (w_trace w) name ctx ss with
  | (Err e, ss') => (w, ss', Err e)
  | (Ok (pc, k), ss') =>
      match (do q <- module_partition w r [g];
             match p_states q with
             | Many _ => Err OutOfModel
             | One params =>
                 do sl <- slice_state J 0%Z params;
                 if Nat.eqb n 0 then Err OutOfModel
                 else if forallb (fun e => Nat.eqb (List.length (snd (snd e))) n) sl then Ok (p_def q, sl)
                 else Err ValueError
             end) with
      | Err e => (w, ss', Err e)
      | Ok (d, sl) =>
          match hand_steps g f d (set_trace w t) x (map (fun i => (hand_ctx name pc k n i, slice_at i sl)) (seq 0 n)) with
          | (w1, Err e) => (set_trace w1 (w_trace w), ss', Err e)
          | (w1, Ok (x', outs)) =>
              match stack_states J 0%Z outs with
              | Err e => (set_trace w1 (w_trace w), ss', Err e)
              | Ok params =>
                  match update_state (set_trace w1 (w_trace w)) r (UStates (One params)) with
                  | (w2, Err e) => (w2, ss', Err e)
                  | (w2, Ok _) => (w2, ss', Ok x')
                  end
              end
          end
      end
  end.
