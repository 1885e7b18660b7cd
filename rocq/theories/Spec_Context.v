(** Spec_Context: the vocabulary in which the properties of RNG contexts are
    stated. *)
From Verif Require Import PyBase ModuleM ContextM.
Local Open Scope string_scope.
Local Open Scope list_scope.

(** The keys returned by make_rng, in order. *)
Definition drawn (outs : list cout) : list key :=
  flat_map (fun o => match o with OutKey k => [k] | _ => [] end) outs.

(** The keyword arguments of a call [context(params, flags=..., **rngs)]. *)
Definition call_args (params : option rng_arg) (rngs : dict rng_arg) : dict rng_arg :=
  match params with Some p => dset "params" p rngs | None => rngs end.

(** The root keys a history introduces: one for every int or key passed to
    [context( ... )]. *)
Definition arg_roots (a : rng_arg) : list key :=
  match a with ArgInt z => [KSeed z] | ArgKey k => [k] | ArgStream _ => [] end.
Definition op_roots (o : cop) : list key :=
  match o with
  | ONew p _ rs => flat_map (fun na => arg_roots (snd na)) (call_args p rs)
  | _ => []
  end.
Definition root_keys (ops : list cop) : list key := flat_map op_roots ops.

(** The pure contexts a history merges (by number, with repetitions). *)
Definition merges (ops : list cop) : list nat :=
  flat_map (fun o => match o with OMerge i => [i] | _ => [] end) ops.

(** The stream objects a history hands to [context( ... )] directly. *)
Definition arg_streams (a : rng_arg) : list nat :=
  match a with ArgStream i => [i] | _ => [] end.
Definition passed_streams (ops : list cop) : list nat :=
  flat_map (fun o => match o with
                     | ONew p _ rs => flat_map (fun na => arg_streams (snd na)) (call_args p rs)
                     | _ => []
                     end) ops.

(** The streams of the contexts numbered [mem]. *)
Definition ctx_streams (x : context) : list nat := map snd (x_rngs x).
Definition streams_of (w : cworld) (mem : list nat) : list nat :=
  flat_map (fun c => match nth_error (cw_ctxs w) c with Some x => ctx_streams x | None => [] end) mem.

(** A family: the contexts [mem] plus every later copy of a member.  The calls a
    history makes through members, with members renumbered 0, 1, 2 ... in order of
    creation, and changes of trace level (which every context sees). *)
Fixpoint family_ops (blake : string -> nat) (w : cworld) (mem : list nat) (ops : list cop) : list cop :=
  match ops with
  | [] => []
  | o :: t =>
      let w' := fst (crun1 blake w o) in
      match o with
      | ODraw c name => match index_of c mem with
                        | Some j => ODraw j name :: family_ops blake w' mem t
                        | None => family_ops blake w' mem t
                        end
      | OCopy c => match index_of c mem with
                   | Some j => OCopy j :: family_ops blake w' (mem ++ [List.length (cw_ctxs w)]) t
                   | None => family_ops blake w' mem t
                   end
      | OPart c => match index_of c mem with
                   | Some j => OPart j :: family_ops blake w' mem t
                   | None => family_ops blake w' mem t
                   end
      | OTrace tr => OTrace tr :: family_ops blake w' mem t
      | ONew _ _ _ | OMerge _ => family_ops blake w' mem t
      end
  end.
(** What those calls return in the full history. *)
Fixpoint family_outs (blake : string -> nat) (w : cworld) (mem : list nat) (ops : list cop) : list cout :=
  match ops with
  | [] => []
  | o :: t =>
      let w' := fst (crun1 blake w o) in
      let out := snd (crun1 blake w o) in
      match o with
      | ODraw c _ | OPart c => match index_of c mem with
                               | Some j => out :: family_outs blake w' mem t
                               | None => family_outs blake w' mem t
                               end
      | OCopy c => match index_of c mem with
                   | Some j => out :: family_outs blake w' (mem ++ [List.length (cw_ctxs w)]) t
                   | None => family_outs blake w' mem t
                   end
      | OTrace tr => out :: family_outs blake w' mem t
      | ONew _ _ _ | OMerge _ => family_outs blake w' mem t
      end
  end.

(** A world in which nothing exists but the given contexts. *)
Definition only (w : cworld) (mem : list nat) : cworld :=
  mkCW (cw_streams w)
       (flat_map (fun c => match nth_error (cw_ctxs w) c with Some x => [x] | None => [] end) mem)
       [] (cw_trace w).

(** A world in which nothing exists but one context, merged from [p]. *)
Definition alone (t : trace_state) (p : pctx) : cworld :=
  match pctx_merge t p [] with
  | Ok (x, ss) => mkCW ss [x] [] t
  | Err _ => mkCW [] [] [] t
  end.

(** No context outside [mem] holds a stream object of a context in [mem]. *)
Definition separate (w : cworld) (mem : list nat) : Prop :=
  forall c x i, ~ In c mem -> nth_error (cw_ctxs w) c = Some x -> In i (ctx_streams x) ->
    ~ In i (streams_of w mem).

(** The successive uses of the stream object [i] in a history, through whatever
    context: [Some k] when a draw returned [k], [None] when a partition forked it. *)
Fixpoint stream_uses (blake : string -> nat) (i : nat) (w : cworld) (ops : list cop) : list (option key) :=
  match ops with
  | [] => []
  | o :: t =>
      let w' := fst (crun1 blake w o) in
      (match o, snd (crun1 blake w o) with
       | ODraw c name, OutKey k =>
           match nth_error (cw_ctxs w) c with
           | Some x => match dget name (x_rngs x) with
                       | Some j => if Nat.eqb i j then [Some k] else []
                       | None => []
                       end
           | None => []
           end
       | OPart c, OutDone =>
           match nth_error (cw_ctxs w) c with
           | Some x => map (fun _ => None) (filter (Nat.eqb i) (ctx_streams x))
           | None => []
           end
       | _, _ => []
       end) ++ stream_uses blake i w' t
  end.

(** The meaning of rng filters. *)
Inductive rmatches : rfilt -> string -> Prop :=
| RM_any n : rmatches REllipsis n
| RM_pred p n : p n = true -> rmatches (RPred p) n
| RM_str n : rmatches (RStr n) n
| RM_map l g n : In (g, true) l -> rmatches g n -> rmatches (RMap l) n
| RM_seq l g n : In g l -> rmatches g n -> rmatches (RSeq l) n.
(** Filters with an unsupported value in a place that is looked at. *)
Inductive rinvalid : rfilt -> Prop :=
| RI_other : rinvalid ROther
| RI_map l g : In (g, true) l -> rinvalid g -> rinvalid (RMap l)
| RI_seq l g : In g l -> rinvalid g -> rinvalid (RSeq l).
