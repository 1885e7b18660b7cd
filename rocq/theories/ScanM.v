(** ScanM: models nnx/transforms.py, scan_apply (492-690) and remat_apply
    (850-891).

    Arrays.  The operations on arrays used by scan are given by a record: the
    slices of an array along an axis, and stacking along an axis.  Arrays with a
    leading axis are handled as the lists of their slices, so [x[:1]], [x[1:]],
    [jnp.concatenate] and the slicing and stacking done by [jax.lax.scan] are
    list operations.  Every State entry holds one array. *)
From Coq Require Import ZArith.
From Verif Require Import PyBase ValuesM FiltersM StateM ModuleM SpmdM ContextM TransformM.
Local Open Scope string_scope.
Local Open Scope list_scope.

(** [jnp.moveaxis], [jnp.stack] and indexing as used at transforms.py:468-477, 513-523, 642-686 *)
Record arrays := mkArrays {
  a_slices : Z -> pyval -> result (list pyval);   (** [list(jnp.moveaxis(x, axis, 0))] *)
  a_stack : Z -> list pyval -> pyval              (** [jnp.moveaxis(jnp.stack(l), 0, axis)] *)
}.

(** transforms.py:258-270 [ScanOptions].  Simplifications: [in_axes] and
    [out_axes] are one int for all leaves (trees of ints in ScanTreeM); [unroll] and [data_transform] have no
    effect on results; [o_partition] is [metadata_params.get("partition_name")]. *)
Record scan_opts := mkScan {
  o_axes : list (filt * Z);
  o_broadcast : filt;
  o_carry : filt;
  o_split : rfilt;
  o_in : Z;
  o_out : Z;
  o_length : option nat;
  o_reverse : bool;
  o_partition : option string
}.

(** transforms.py:502-506 *)
Definition o_filters (o : scan_opts) : list filt := map fst (o_axes o) ++ [o_broadcast o; o_carry o].

(** [*axes_states, broadcast_state, carry_state = states]. (transforms.py:507-512) *)
Definition split3 (l : list state) : option (list state * state * state) :=
  match rev l with
  | c :: b :: t => Some (rev t, b, c)
  | _ => None
  end.

(** containers.py:112-124 *)
Definition val_of (a : attr) : pyval := match a with ARaw v => v | ACont c => c_val c end.

(** transforms.py:514-517: an axes state, its arrays moved to the front. *)
Definition sliced : Type := list (string * (attr * list pyval)).
(** transforms.py:514-517 *)
Definition slice_state (J : arrays) (ax : Z) (s : state) : result sliced :=
  rmapM (fun ka => do l <- a_slices J ax (val_of (snd ka)); Ok (fst ka, (snd ka, l))) s.
(** transforms.py:514-517 *)
Definition slice_at (i : nat) (s : sliced) : state :=
  map (fun x => (fst x, with_value (fst (snd x)) (nth i (snd (snd x)) PyNone))) s.

(** [zip(axes_states, options.variable_axes.values())]. (transforms.py:514-517) *)
Fixpoint slice_states (J : arrays) (axes : list (filt * Z)) (l : list state) : result (list sliced) :=
  match l, axes with
  | s :: l', (_, ax) :: axes' => do x <- slice_state J ax s; do xs <- slice_states J axes' l'; Ok (x :: xs)
  | _, _ => Ok []
  end.

(** transforms.py:525-548: all leading axes have one length. *)
Definition leaf_lengths (sl : list sliced) (lens : list nat) : list nat :=
  flat_map (map (fun x : string * (attr * list pyval) => List.length (snd (snd x)))) sl ++ lens.
(** transforms.py:525-548 *)
Definition infer_length (given : option nat) (lens : list nat) : result nat :=
  match nodup Nat.eq_dec lens with
  | [] => match given with None => Err ValueError | Some n => Ok n end
  | [n] => match given with
           | None => Ok n
           | Some m => if Nat.eqb m n then Ok n else Err ValueError
           end
  | _ => Err ValueError
  end.

(** transforms.py:563-571 and 591: the keys of step [i]; streams selected by
    [split_rngs] get the i-th of the split keys. *)
Definition step_keys (p : string -> bool) (n : nat) (pc : pctx) (i : nat) : pctx :=
  mkPctx (map (fun nk => (fst nk, KSplit (snd nk) n i)) (filter (fun nk => p (fst nk)) (pc_keys pc)) ++
          filter (fun nk => negb (p (fst nk))) (pc_keys pc))
         (pc_counts pc) (pc_flags pc).

(** transforms.py:594-599 and 615-619: the axis name in the sharding metadata. *)
Fixpoint on_axes (f : state -> Z -> result state) (axes : list (filt * Z)) (l : list state) : result (list state) :=
  match l, axes with
  | s :: l', (_, ax) :: axes' => do x <- f s ax; do xs <- on_axes f axes' l'; Ok (x :: xs)
  | _, _ => Ok []
  end.
(** transforms.py:590-594 *)
Definition enter_axes (o : scan_opts) (l : list state) : result (list state) :=
  match o_partition o with
  | None => Ok l
  | Some n => on_axes (fun s ax => remove_axis s ax (Some n)) (o_axes o) l
  end.
(** transforms.py:615-619 *)
Definition leave_axes (o : scan_opts) (l : list state) : result (list state) :=
  match o_partition o with
  | None => Ok l
  | Some n => on_axes (fun s ax => add_axis s ax (Some n)) (o_axes o) l
  end.

(** What one step gets: the context, the slices of the axes states and of the
    axes argument, of type [X].  What it returns besides the carry: the axes
    states, the "new" broadcast and carry states, the axes output, of type [Y].
    Arguments and results are here the lists of their leaves; ScanTreeM has trees. (transforms.py:574-624) *)
Definition step_of (X : Type) : Type := (option pctx * list state * X)%type.
(** transforms.py:574-624 *)
Definition outcome (Y : Type) : Type := (list state * state * state * Y)%type.
Notation step_in := (step_of (list pyval)).
Notation step_out := (outcome (list pyval)).
(** The scanned function: context, carry, slices of the axes argument, module.
    Each step merges its own context; as a merged context behaves as a function
    of what it was merged from (C28), the function is given the latter. (transforms.py:574-624) *)
Definition scanned_of (X Y : Type) : Type := option pctx -> pyval -> X -> world -> nat -> world * result (pyval * Y).
Notation scanned := (scanned_of (list pyval) (list pyval)).

(** transforms.py:577-625 [scan_fn] *)
Definition scan_fn {X Y} (o : scan_opts) (f : scanned_of X Y) (d : mdef) (broadcast : state) (w : world)
    (carry : state * pyval) (x : step_of X) : world * result ((state * pyval) * outcome Y) :=
  let '(cs, c) := carry in
  let '(pc, axs, args) := x in
  match enter_axes o axs with
  | Err e => (w, Err e)
  | Ok axs1 =>
      match merge w d (axs1 ++ [broadcast; cs]) with
      | Err e => (w, Err e)
      | Ok (m, w1) =>
          match f pc c args w1 m with
          | (w2, Err e) => (w2, Err e)
          | (w2, Ok (c', ys)) =>
              match module_partition w2 m (o_filters o) with
              | Err e => (w2, Err e)
              | Ok q =>
                  match split3 (sts_list (p_states q)) with
                  | None => (w2, Err OutOfModel)
                  | Some (axs_out, b_out, cs_out) =>
                      let cs_new := state_sub cs_out cs in
                      let b_new := state_sub broadcast b_out in
                      let cs_out := state_sub cs_out cs_new in
                      match leave_axes o axs_out with
                      | Err e => (w2, Err e)
                      | Ok axs_out => (w2, Ok ((cs_out, c'), (axs_out, b_new, cs_new, ys)))
                      end
                  end
              end
          end
      end
  end.

(** Equality of pytree structure of two States: keys, and class and metadata of
    Variables. ([jax.lax.scan] as called at transforms.py:626-633) *)
Definition same_entry (x y : string * attr) : bool :=
  String.eqb (fst x) (fst y) &&
  match snd x, snd y with
  | ARaw _, ARaw _ => true
  | ACont c, ACont d => is_equivalent c d
  | _, _ => false
  end.
(** [jax.lax.scan] as called at transforms.py:626-633 *)
Fixpoint same_struct (s s' : state) : bool :=
  match s, s' with
  | [], [] => true
  | x :: t, y :: t' => same_entry x y && same_struct t t'
  | _, _ => false
  end.

(** [jax.lax.scan]: the steps in order (or in reverse order, outputs in place);
    the structure of the carry state must not change.  Shapes and dtypes are not
    checked.  The function runs under another trace [t]. ([jax.lax.scan] as called at transforms.py:626-633) *)
Fixpoint scan_steps {X Y} (step : world -> state * pyval -> step_of X -> world * result ((state * pyval) * outcome Y))
    (w : world) (carry : state * pyval) (l : list (step_of X)) : world * result ((state * pyval) * list (outcome Y)) :=
  match l with
  | [] => (w, Ok (carry, []))
  | x :: rest =>
      match step w carry x with
      | (w1, Err e) => (w1, Err e)
      | (w1, Ok (carry1, y)) =>
          if same_struct (fst carry) (fst carry1) then
            match scan_steps step w1 carry1 rest with
            | (w2, Err e) => (w2, Err e)
            | (w2, Ok (carry2, ys)) => (w2, Ok (carry2, y :: ys))
            end
          else (w1, Err TypeError)
      end
  end.
(** [jax.lax.scan] as called at transforms.py:626-633 *)
Definition lax_scan {X Y} (reverse : bool) (t : trace_state)
    (step : world -> state * pyval -> step_of X -> world * result ((state * pyval) * outcome Y))
    (w : world) (carry : state * pyval) (l : list (step_of X)) : world * result ((state * pyval) * list (outcome Y)) :=
  match scan_steps step (set_trace w t) carry (if reverse then rev l else l) with
  | (w1, Err e) => (set_trace w1 (w_trace w), Err e)
  | (w1, Ok (carry1, ys)) => (set_trace w1 (w_trace w), Ok (carry1, if reverse then rev ys else ys))
  end.

(** Stacking the outputs of the steps.  In jax all steps have one structure, as
    the function is traced once. ([jax.lax.scan] stacking outputs and [jnp.moveaxis], transforms.py:626-633, 676-686) *)
Definition value_at (k : string) (s : state) : pyval :=
  match dget k s with Some a => val_of a | None => PyNone end.
(** [jax.lax.scan] stacking outputs and [jnp.moveaxis], transforms.py:626-633, 676-686 *)
Definition stack_states (J : arrays) (ax : Z) (l : list state) : result state :=
  match l with
  | [] => Err OutOfModel
  | s :: rest =>
      if forallb (same_struct s) rest then
        Ok (map (fun ka => (fst ka, with_value (snd ka) (a_stack J ax (map (value_at (fst ka)) l)))) s)
      else Err TypeError
  end.
(** [jax.lax.scan] stacking outputs and [jnp.moveaxis], transforms.py:626-633, 676-686 *)
Fixpoint stack_axes (J : arrays) (axes : list (filt * Z)) (i : nat) (l : list (list state)) : result (list state) :=
  match axes with
  | [] => Ok []
  | (_, ax) :: axes' =>
      do s <- stack_states J ax (map (fun x => nth i x []) l);
      do ss <- stack_axes J axes' (S i) l; Ok (s :: ss)
  end.
(** [jax.lax.scan] stacking outputs and [jnp.moveaxis], transforms.py:626-633, 676-686 *)
Definition stack_leaves (J : arrays) (ax : Z) (l : list (list pyval)) : result (list pyval) :=
  match l with
  | [] => Err OutOfModel
  | x :: rest =>
      if forallb (fun y => Nat.eqb (List.length y) (List.length x)) rest then
        Ok (map (fun i => a_stack J ax (map (fun y => nth i y PyNone) l)) (seq 0 (List.length x)))
      else Err TypeError
  end.
(** a scan without steps returns arrays of length 0; the States in question are
    then taken to be empty. ([jax.lax.scan] stacking outputs and [jnp.moveaxis], transforms.py:626-633, 676-686) *)
Definition stack_or_empty (J : arrays) (l : list state) : result state :=
  match l with [] => Ok [] | _ => stack_states J 0%Z l end.

(** the parts of the result of transforms.py:574-624 *)
Definition out_axs {Y} (y : outcome Y) : list state := fst (fst (fst y)).
(** the parts of the result of transforms.py:574-624 *)
Definition out_b_new {Y} (y : outcome Y) : state := snd (fst (fst y)).
(** the parts of the result of transforms.py:574-624 *)
Definition out_cs_new {Y} (y : outcome Y) : state := snd (fst y).
(** the parts of the result of transforms.py:574-624 *)
Definition out_ys {Y} (y : outcome Y) : Y := snd y.

(** transforms.py:636-671: has the function made new carry state (found out by
    [jax.eval_shape], modelled by running the first step)?  Then the first step
    runs alone and the new state joins the carry.  Returned: the final carry,
    the outputs of all steps, and the outputs of the last call of [lax_scan].
    [scan_fn] reads the variable [broadcast_state], which is rebound here. *)
Definition scan_run {X Y} (o : scan_opts) (t : trace_state) (f : scanned_of X Y) (d : mdef) (broadcast : state)
    (w : world) (cs : state) (c : pyval) (steps : list (step_of X))
  : world * result ((state * pyval) * list (outcome Y) * list (outcome Y)) :=
  match steps with
  | [] => (w, Err OutOfModel)
  | x :: rest =>
      match scan_fn o f d broadcast (set_trace w t) (cs, c) x with
      | (w1, Err e) => (set_trace w1 (w_trace w), Err e)
      | (w1, Ok (_, y)) =>
          let w1 := set_trace w1 (w_trace w) in
          match out_cs_new y with
          | [] =>
              match lax_scan (o_reverse o) t (scan_fn o f d broadcast) w1 (cs, c) steps with
              | (w2, Err e) => (w2, Err e)
              | (w2, Ok (carry, ys)) => (w2, Ok (carry, ys, ys))
              end
          | _ =>
              match lax_scan (o_reverse o) t (scan_fn o f d broadcast) w1 (cs, c) [x] with
              | (w2, Err e) => (w2, Err e)
              | (w2, Ok ((cs1, c1), ys1)) =>
                  let b_new := match ys1 with y1 :: _ => out_b_new y1 | [] => [] end in
                  let cs_new := match ys1 with y1 :: _ => out_cs_new y1 | [] => [] end in
                  match lax_scan (o_reverse o) t (scan_fn o f d (state_merge broadcast [b_new])) w2
                          (state_merge cs1 [cs_new], c1) rest with
                  | (w3, Err e) => (w3, Err e)
                  | (w3, Ok (carry, ys)) => (w3, Ok (carry, ys1 ++ ys, ys))
                  end
              end
          end
      end
  end.

(** transforms.py:555-575: the context of the call. *)
Definition scan_ctx (cur : trace_state) (split : rfilt) (ctx : option context) (ss : list stream)
  : result (option (pctx * (string -> bool))) * list stream :=
  match ctx with
  | None => (Ok None, ss)
  | Some x =>
      match context_partition cur x ss with
      | (Err e, ss') => (Err e, ss')
      | (Ok pc, ss') => (do p <- to_rng_predicate split; Ok (Some (pc, p)), ss')
      end
  end.
(** transforms.py:549-572, 635-636 *)
Definition scan_input {X} (n : nat) (pc : option (pctx * (string -> bool))) (sl : list sliced) (at_step : nat -> X)
  : list (step_of X) :=
  map (fun i => (option_map (fun pp => step_keys (snd pp) n (fst pp) i) pc,
                 map (slice_at i) sl, at_step i)) (seq 0 n).

(** transforms.py:492-690 [scan_apply], given how the axes argument is cut into
    slices (519-523; the lengths of its leaves and what each step gets) and how the
    outputs are put together (681-686). *)
Definition scan_core {X Y Z} (J : arrays) (o : scan_opts) (t : trace_state) (f : scanned_of X Y) (w : world) (r : nat)
    (c : pyval) (cut : result (list nat * (nat -> X))) (join : list Y -> result Z) (ctx : option context) (ss : list stream)
  : world * list stream * result (pyval * Z) :=
  match module_partition w r (o_filters o) with
  | Err e => (w, ss, Err e)
  | Ok q =>
      match split3 (sts_list (p_states q)) with
      | None => (w, ss, Err OutOfModel)
      | Some (axs, b, cs) =>
          match (do sl <- slice_states J (o_axes o) axs;
                 do xsl <- cut;
                 do n <- infer_length (o_length o) (leaf_lengths sl (fst xsl)); Ok (sl, snd xsl, n)) with
          | Err e => (w, ss, Err e)
          | Ok (sl, at_step, n) =>
              match scan_ctx (w_trace w) (o_split o) ctx ss with
              | (Err e, ss') => (w, ss', Err e)
              | (Ok pc, ss') =>
                  match scan_run o t f (p_def q) b w cs c (scan_input n pc sl at_step) with
                  | (w1, Err e) => (w1, ss', Err e)
                  | (w1, Ok ((cs', c'), outs, last)) =>
                      match (do axs' <- stack_axes J (o_axes o) 0 (map out_axs outs);
                             do b_new <- stack_or_empty J (map out_b_new last);
                             do cs_new <- stack_or_empty J (map out_cs_new last);
                             do ys <- join (map out_ys outs);
                             Ok (axs' ++ [cs'; b_new; cs_new], ys)) with
                      | Err e => (w1, ss', Err e)
                      | Ok (updates, ys) =>
                          match update_state w1 r (UStates (Many updates)) with
                          | (w2, Err e) => (w2, ss', Err e)
                          | (w2, Ok _) => (w2, ss', Ok (c', ys))
                          end
                      end
                  end
              end
          end
      end
  end.

(** with arguments and results as lists of leaves, all cut along [in_axes] and
    stacked along [out_axes]. (transforms.py:519-523) *)
Definition leaves_at (xsl : list (list pyval)) (i : nat) : list pyval := map (fun l => nth i l PyNone) xsl.
(** transforms.py:519-523 *)
Definition cut_leaves (J : arrays) (ax : Z) (xs : list pyval) : result (list nat * (nat -> list pyval)) :=
  do xsl <- rmapM (a_slices J ax) xs; Ok (map (@List.length pyval) xsl, leaves_at xsl).
(** transforms.py:492-690 *)
Definition scan_apply (J : arrays) (o : scan_opts) (t : trace_state) (f : scanned) (w : world) (r : nat)
    (c : pyval) (xs : list pyval) (ctx : option context) (ss : list stream)
  : world * list stream * result (pyval * list pyval) :=
  scan_core J o t f w r c (cut_leaves J (o_in o) xs) (stack_leaves J (o_out o)) ctx ss.

(** transforms.py:850-891 [remat_apply]; [jax.checkpoint(g)] is taken by its
    contract, a function with the results of [g].  The context of the function is
    merged from the one returned; see [scanned]. *)
Definition remat_apply {A} (t : trace_state) (fn : option pctx -> world -> nat -> world * result A)
    (w : world) (r : nat) (ctx : option context) (ss : list stream) : world * list stream * result A :=
  match module_partition w r [] with
  | Err e => (w, ss, Err e)
  | Ok p =>
      match (match ctx with
             | None => (Ok None, ss)
             | Some x => match context_partition (w_trace w) x ss with
                         | (Err e, ss') => (Err e, ss')
                         | (Ok pc, ss') => (Ok (Some pc), ss')
                         end
             end) with
      | (Err e, ss') => (w, ss', Err e)
      | (Ok pc, ss') =>
          match pure_merge (set_trace w t) p with
          | Err e => (w, ss', Err e)
          | Ok (m, w1) =>
              match fn pc w1 m with
              | (w2, Err e) => (set_trace w2 (w_trace w), ss', Err e)
              | (w2, Ok out) =>
                  match module_partition w2 m [] with
                  | Err e => (set_trace w2 (w_trace w), ss', Err e)
                  | Ok q =>
                      match update_state (set_trace w2 (w_trace w)) r (UStates (p_states q)) with
                      | (w3, Err e) => (w3, ss', Err e)
                      | (w3, Ok _) => (w3, ss', Ok out)
                      end
                  end
              end
          end
      end
  end.
