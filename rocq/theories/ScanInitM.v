(** ScanInitM: models nnx/transforms.py, scan_init (404-489): constructing a
    module whose variables are stacked over layers. *)
From Coq Require Import ZArith.
From Verif Require Import PyBase ValuesM FiltersM StateM ModuleM SpmdM ContextM TransformM ScanM.
Local Open Scope string_scope.
Local Open Scope list_scope.

(** The constructor with its arguments other than the context.  As in [scanned]
    (ScanM) it is given what the context is merged from. (transforms.py:446-466) *)
Definition constructor : Type := option pctx -> world -> world * result nat.

(** transforms.py:430-438 and 450-451: the keys lane [i] of the vmap gets; the
    streams keep their order. *)
Definition lane_keys (p : string -> bool) (n : nat) (pc : pctx) (i : nat) : pctx :=
  mkPctx (map (fun nk => (fst nk, if p (fst nk) then KSplit (snd nk) n i else snd nk)) (pc_keys pc))
         (pc_counts pc) (pc_flags pc).

(** transforms.py:446-466 [_init_state]: definition and States. *)
Definition lane : Type := (mdef * (list state * state * state))%type.
(** transforms.py:446-466 *)
Definition init_lane (o : scan_opts) (ctor : constructor) (pc : option pctx) (w : world) : world * result lane :=
  match ctor pc w with
  | (w1, Err e) => (w1, Err e)
  | (w1, Ok r) =>
      (w1, do q <- module_partition w1 r (o_filters o);
           match split3 (sts_list (p_states q)) with
           | None => Err OutOfModel
           | Some x => Ok (p_def q, x)
           end)
  end.

(** [==] of all entries. ([jax.vmap] with [out_axes=None] as called at transforms.py:468-477) *)
Fixpoint state_eqb (s s' : state) : bool :=
  match s, s' with
  | [], [] => true
  | x :: t, y :: t' => String.eqb (fst x) (fst y) && attr_eqb (snd x) (snd y) && state_eqb t t'
  | _, _ => false
  end.

(** transforms.py:468-475: [jax.vmap] of [_init_state] with [n] lanes, by its
    contract.  The function is traced once, under trace [t]: the world and the
    definition are those of lane 0 and the other lanes only give values.  Results
    with out axis None must not depend on the lane (jax: must not be batched),
    else ValueError; results with an axis are stacked.  No lanes: not modelled. *)
Definition vmap_init (J : arrays) (o : scan_opts) (t : trace_state) (ctor : constructor) (n : nat)
    (ctxs : nat -> option pctx) (w : world) : world * result lane :=
  match n with
  | 0 => (w, Err OutOfModel)
  | S n' =>
      match init_lane o ctor (ctxs 0) (set_trace w t) with
      | (w1, Err e) => (set_trace w1 (w_trace w), Err e)
      | (w1, Ok (d, (axs, b, c))) =>
          (set_trace w1 (w_trace w),
           do rest <- rmapM (fun i => snd (init_lane o ctor (ctxs i) (set_trace w t))) (seq 1 n');
           if forallb (fun l : lane => state_eqb b (snd (fst (snd l))) && state_eqb c (snd (snd l))) rest then
             do axs' <- stack_axes J (o_axes o) 0 (axs :: map (fun l : lane => fst (fst (snd l))) rest);
             Ok (d, (axs', b, c))
           else Err ValueError)
      end
  end.

(** transforms.py:404-489 [scan_init].  The type test of the context is left out.
    Without context and axes [_init_state] runs as it is. *)
Definition scan_init (J : arrays) (o : scan_opts) (t : trace_state) (ctor : constructor) (w : world)
    (ctx : option context) (ss : list stream) : world * list stream * result nat :=
  match o_axes o, o_length o with
  | _ :: _, None => (w, ss, Err ValueError)
  | _, _ =>
      match scan_ctx (w_trace w) (o_split o) ctx ss with
      | (Err e, ss') => (w, ss', Err e)
      | (Ok pc, ss') =>
          let out :=
            match pc, o_axes o, o_length o with
            | None, [], _ => init_lane o ctor None w
            | _, _, None => (w, Err ValueError) (* 434-435; or, with no stream to split, jax.vmap without a size *)
            | _, _, Some n =>
                vmap_init J o t ctor n (fun i => option_map (fun pp => lane_keys (snd pp) n (fst pp) i) pc) w
            end in
          match out with
          | (w1, Err e) => (w1, ss', Err e)
          | (w1, Ok (d, (axs, b, c))) =>
              match (do axs' <- leave_axes o axs; merge w1 d (axs' ++ [b; c])) with
              | Err e => (w1, ss', Err e)
              | Ok (m, w2) => (w2, ss', Ok m)
              end
          end
      end
  end.

(** transforms.py:726-733: [init_wrapper] of [scan], what [module.__init__] is
    when a class decorates its [__init__].  [f] is the [__init__] of the class;
    its result is ignored (Python requires None).  The object [r] has already
    been made. *)
Definition init_of (f : option pctx -> world -> nat -> world * result unit) (r : nat) : constructor :=
  fun pc w => match f pc w r with
              | (w1, Ok _) => (w1, Ok r)
              | (w1, Err e) => (w1, Err e)
              end.
(** transforms.py:729-735 *)
Definition decorated_init (J : arrays) (o : scan_opts) (t : trace_state) (f : option pctx -> world -> nat -> world * result unit)
    (w : world) (r : nat) (ctx : option context) (ss : list stream) : world * list stream * result unit :=
  match scan_init J o t (init_of f r) w ctx ss with
  | (w1, ss', Err e) => (w1, ss', Err e)
  | (w1, ss', Ok m) => let (w2, res) := update_state w1 r (UModule m) in (w2, ss', res)
  end.
