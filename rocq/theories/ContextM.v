(** ContextM: models nnx/contextlib.py (RNG streams, Context, PureContext, rng
    filters).  jax.random is replaced by a free algebra of keys. *)
From Coq Require Import ZArith Decimal DecimalString.
From Verif Require Import PyBase ModuleM.
Local Open Scope string_scope.
Local Open Scope list_scope.

(** Keys: an array given by the user, [jax.random.PRNGKey(seed)],
    [jax.random.fold_in(key, data)], or [jax.random.split(key, n)[i]].  The
    algebra is free: these are taken to be injective and to have disjoint ranges
    (an idealisation of Threefry). (jax.random as used in contextlib.py:96-105, 116-128, 131-151) *)
Inductive key : Type :=
| KArr (i : nat)
| KSeed (z : Z)
| KFold (k : key) (data : nat)
| KSplit (k : key) (n i : nat).

(** contextlib.py:12 [Counts]. *)
Notation counts := (list nat).

(** [str(x)] of a non-negative int. (used in contextlib.py:15-20, 96-105) *)
Definition nat_str (n : nat) : string := NilEmpty.string_of_uint (Nat.to_uint n).

(** contextlib.py:16 [" ".join(str(x) for x in data)]. *)
Definition hash_str (data : counts) : string := join " " (map nat_str data).

(** contextlib.py:15-20 [_stable_hash]; [blake] is "first four bytes of blake2s
    as a number". *)
Definition stable_hash (blake : string -> nat) (data : counts) : nat := blake (hash_str data).

(** contextlib.py:74-78 [RngStream]: a mutable object; streams live in a list
    and are referred to by index. *)
Record stream := mkStream { s_key : key; s_count : nat; s_path : counts }.

(** contextlib.py:81-91 [Context]; [x_trace] is the TraceState made in
    [__init__]. *)
Record context := mkCtx { x_rngs : dict nat; x_flags : dict bool; x_trace : trace_state }.

(** contextlib.py:23-56: a PureContext with its ContextDef. *)
Record pctx := mkPctx { pc_keys : dict key; pc_counts : list (string * counts); pc_flags : dict bool }.

(** tracers.py:90-94 [TraceState.is_valid]. *)
Definition trace_ok (cur t : trace_state) : bool :=
  Nat.eqb (fst t) (fst cur) && Nat.eqb (snd t) (snd cur).

(** [stream.count += 1], contextlib.py:104 *)
Definition bump (s : stream) : stream := mkStream (s_key s) (S (s_count s)) (s_path s).

(** contextlib.py:93-94, 110-114 [has_rng], [has_flag], [get_flag]. *)
Definition has_rng (x : context) (name : string) : bool := dmem name (x_rngs x).
(** contextlib.py:110-111 *)
Definition has_flag (x : context) (name : string) : bool := dmem name (x_flags x).
(** contextlib.py:113-114 *)
Definition get_flag (x : context) (name : string) : option bool := dget name (x_flags x).

(** contextlib.py:96-105 [Context.make_rng]: the key and the streams after. *)
Definition make_rng (blake : string -> nat) (cur : trace_state) (x : context) (name : string)
    (ss : list stream) : result key * list stream :=
  match dget name (x_rngs x) with
  | None => (Err ValueError, ss)
  | Some i =>
      if negb (trace_ok cur (x_trace x)) then (Err TraceContextError, ss)
      else match nth_error ss i with
           | None => (Err OutOfModel, ss)
           | Some s => (Ok (KFold (s_key s) (stable_hash blake (s_path s ++ [s_count s]))),
                        list_set i (bump s) ss)
           end
  end.

(** contextlib.py:107-108 [Context.copy]: the same [_rngs] and [_flags] objects,
    a new TraceState. *)
Definition context_copy (cur : trace_state) (x : context) : context :=
  mkCtx (x_rngs x) (x_flags x) cur.

(** contextlib.py:120-125: [fork] applied to the streams in order. *)
Fixpoint fork_all (items : list (string * nat)) (ss : list stream)
  : result (list (string * stream)) * list stream :=
  match items with
  | [] => (Ok [], ss)
  | (name, i) :: t =>
      match nth_error ss i with
      | None => (Err OutOfModel, ss)
      | Some s =>
          let f := mkStream (s_key s) 0 (s_path s ++ [s_count s]) in
          let '(r, ss') := fork_all t (list_set i (bump s) ss) in
          (rmap (cons (name, f)) r, ss')
      end
  end.

(** contextlib.py:116-128 [Context.partition]. *)
Definition context_partition (cur : trace_state) (x : context) (ss : list stream)
  : result pctx * list stream :=
  if negb (trace_ok cur (x_trace x)) then (Err TraceContextError, ss)
  else let '(r, ss') := fork_all (x_rngs x) ss in
       (rmap (fun rngs => mkPctx (dict_of (map (fun ns => (fst ns, s_key (snd ns))) rngs))
                                 (map (fun ns => (fst ns, s_path (snd ns))) rngs)
                                 (x_flags x)) r, ss').

(** contextlib.py:34-39 [ContextDef.merge]: new streams, appended. *)
Fixpoint merge_streams (ks : dict key) (l : list (string * counts)) (ss : list stream)
  : result (list (string * nat) * list stream) :=
  match l with
  | [] => Ok ([], ss)
  | (name, path) :: t =>
      match dget name ks with
      | None => Err KeyError
      | Some k =>
          do (ns, ss') <- merge_streams ks t (ss ++ [mkStream k 0 path]);
          Ok ((name, List.length ss) :: ns, ss')
      end
  end.
(** contextlib.py:57-58 [PureContext.merge]. *)
Definition pctx_merge (cur : trace_state) (p : pctx) (ss : list stream)
  : result (context * list stream) :=
  do (ns, ss') <- merge_streams (pc_keys p) (pc_counts p) ss;
  Ok (mkCtx (dict_of ns) (pc_flags p) cur, ss').

(** contextlib.py:131-151 [context( ... )].  The values: an int, an array, or an
    existing RngStream object. *)
Inductive rng_arg : Type :=
| ArgInt (z : Z)
| ArgKey (k : key)
| ArgStream (i : nat).
(** the loop of contextlib.py:131-151 over the rngs *)
Fixpoint make_streams (l : list (string * rng_arg)) (ss : list stream) : list (string * nat) * list stream :=
  match l with
  | [] => ([], ss)
  | (name, ArgInt z) :: t =>
      let '(ns, ss') := make_streams t (ss ++ [mkStream (KSeed z) 0 []]) in
      ((name, List.length ss) :: ns, ss')
  | (name, ArgKey k) :: t =>
      let '(ns, ss') := make_streams t (ss ++ [mkStream k 0 []]) in
      ((name, List.length ss) :: ns, ss')
  | (name, ArgStream i) :: t =>
      let '(ns, ss') := make_streams t ss in ((name, i) :: ns, ss')
  end.
(** contextlib.py:131-151 *)
Definition new_context (cur : trace_state) (params : option rng_arg) (flags : dict bool)
    (rngs : dict rng_arg) (ss : list stream) : context * list stream :=
  let rngs := match params with Some p => dset "params" p rngs | None => rngs end in
  let '(ns, ss') := make_streams rngs ss in
  (mkCtx (dict_of ns) flags cur, ss').

(** ** Histories: all contexts and pure contexts a program has created *)
(** user programs over the API of contextlib.py:23-151 *)
Record cworld := mkCW { cw_streams : list stream; cw_ctxs : list context; cw_pures : list pctx;
                        cw_trace : trace_state }.

(** Streams named in arguments exist: a Python program cannot hold a reference to
    an object that was never made. (user programs over the API of contextlib.py:23-151) *)
Definition args_exist (n : nat) (l : list (string * rng_arg)) : bool :=
  forallb (fun na => match snd na with ArgStream i => Nat.ltb i n | _ => true end) l.

(** One API call by a program that refers to contexts and pure contexts by
    creation number. (user programs over the API of contextlib.py:23-151) *)
Inductive cop : Type :=
| ONew (params : option rng_arg) (flags : dict bool) (rngs : dict rng_arg)
| ODraw (c : nat) (name : string)
| OCopy (c : nat)
| OPart (c : nat)
| OMerge (p : nat)
| OTrace (t : trace_state).
(** user programs over the API of contextlib.py:23-151 *)
Inductive cout : Type := OutKey (k : key) | OutErr (e : exn) | OutDone.

(** user programs over the API of contextlib.py:23-151 *)
Definition set_streams (w : cworld) (ss : list stream) : cworld :=
  mkCW ss (cw_ctxs w) (cw_pures w) (cw_trace w).
(** user programs over the API of contextlib.py:23-151 *)
Definition add_ctx (w : cworld) (x : context) : cworld :=
  mkCW (cw_streams w) (cw_ctxs w ++ [x]) (cw_pures w) (cw_trace w).
(** user programs over the API of contextlib.py:23-151 *)
Definition add_pure (w : cworld) (p : pctx) : cworld :=
  mkCW (cw_streams w) (cw_ctxs w) (cw_pures w ++ [p]) (cw_trace w).

(** user programs over the API of contextlib.py:23-151 *)
Definition crun1 (blake : string -> nat) (w : cworld) (o : cop) : cworld * cout :=
  match o with
  | ONew p fl rs =>
      if args_exist (List.length (cw_streams w)) (match p with Some a => ("params", a) :: rs | None => rs end)
      then let '(x, ss) := new_context (cw_trace w) p fl rs (cw_streams w) in
           (add_ctx (set_streams w ss) x, OutDone)
      else (w, OutErr OutOfModel)
  | ODraw c name =>
      match nth_error (cw_ctxs w) c with
      | None => (w, OutErr OutOfModel)
      | Some x => match make_rng blake (cw_trace w) x name (cw_streams w) with
                  | (Ok k, ss) => (set_streams w ss, OutKey k)
                  | (Err e, ss) => (set_streams w ss, OutErr e)
                  end
      end
  | OCopy c =>
      match nth_error (cw_ctxs w) c with
      | None => (w, OutErr OutOfModel)
      | Some x => (add_ctx w (context_copy (cw_trace w) x), OutDone)
      end
  | OPart c =>
      match nth_error (cw_ctxs w) c with
      | None => (w, OutErr OutOfModel)
      | Some x => match context_partition (cw_trace w) x (cw_streams w) with
                  | (Ok p, ss) => (add_pure (set_streams w ss) p, OutDone)
                  | (Err e, ss) => (set_streams w ss, OutErr e)
                  end
      end
  | OMerge i =>
      match nth_error (cw_pures w) i with
      | None => (w, OutErr OutOfModel)
      | Some p => match pctx_merge (cw_trace w) p (cw_streams w) with
                  | Ok (x, ss) => (add_ctx (set_streams w ss) x, OutDone)
                  | Err e => (w, OutErr e)
                  end
      end
  | OTrace t => (mkCW (cw_streams w) (cw_ctxs w) (cw_pures w) t, OutDone)
  end.
(** user programs over the API of contextlib.py:23-151 *)
Fixpoint crun (blake : string -> nat) (w : cworld) (ops : list cop) : cworld * list cout :=
  match ops with
  | [] => (w, [])
  | o :: t => let '(w1, out) := crun1 blake w o in
              let '(w2, outs) := crun blake w1 t in (w2, out :: outs)
  end.
(** user programs over the API of contextlib.py:23-151 *)
Definition cstart (t : trace_state) : cworld := mkCW [] [] [] t.

(** ** Rng filters *)

(** contextlib.py:159-163 [RngFilter]; [ROther] is anything not accepted. *)
Inductive rfilt : Type :=
| RNone
| REllipsis
| RPred (p : string -> bool)
| RStr (s : string)
| RMap (l : list (rfilt * bool))
| RSeq (l : list rfilt)
| ROther.

(** contextlib.py:166-184 [to_rng_predicate]: only the keys of a mapping that
    are mapped to something true are converted. *)
Fixpoint to_rng_predicate (f : rfilt) : result (string -> bool) :=
  match f with
  | RNone => Ok (fun _ => false)
  | REllipsis => Ok (fun _ => true)
  | RPred p => Ok p
  | RStr s => Ok (fun name => String.eqb name s)
  | RMap l =>
      do ps <- (fix go (l : list (rfilt * bool)) : result (list (string -> bool)) :=
                  match l with
                  | [] => Ok []
                  | (g, include) :: t =>
                      if include then do p <- to_rng_predicate g; do ps <- go t; Ok (p :: ps)
                      else go t
                  end) l;
      Ok (fun name => existsb (fun p => p name) ps)
  | RSeq l =>
      do ps <- (fix go (l : list rfilt) : result (list (string -> bool)) :=
                  match l with
                  | [] => Ok []
                  | g :: t => do p <- to_rng_predicate g; do ps <- go t; Ok (p :: ps)
                  end) l;
      Ok (fun name => existsb (fun p => p name) ps)
  | ROther => Err TypeError
  end.
