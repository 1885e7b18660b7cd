(** What a [Scan] object stands for: modules made one at a time, run in turn. *)
From Coq Require Import ZArith.
From Verif Require Import PyBase ValuesM Spec_Eq FiltersM StateM ModuleM SpmdM ContextM ScanM ScanInitM ScanClassM.
From Verif Require Import Spec_State Spec_Spmd Spec_Module Spec_Prog Spec_Scan Spec_ScanInit.
Local Open Scope string_scope.
Local Open Scope list_scope.

(** [r] is a module of [w] that may be assigned to, has definition [d], and whose
    state, partitioned by the filters of scan, is [axs], [b], [c] *)
Record layer (o : scan_opts) (nodes : list string) (d : mdef) (w : world) (r : nat) (axs : list state) (b c : state) : Prop := {
  ly_wf : wf_world w;
  ly_valid : r < List.length (w_heap w);
  ly_names : names_ok w r;
  ly_live : live w r;
  ly_nodes : w_nodes w = nodes;
  ly_def : get_module_def w r = Ok d;
  ly_state : exists s, get_state w r = Ok s /\ partition_state s (o_filters o) = Ok (Many (axs ++ [b; c]))
}.

(** the per-layer States hold arrays, and the axis name can be put into their
    sharding metadata *)
Definition stackable (o : scan_opts) (l : list state) : Prop :=
  forall j s fx k a, nth_error l j = Some s -> nth_error (o_axes o) j = Some fx -> dget k s = Some a ->
    not_module (val_of a) /\
    (o_partition o <> None -> (0 <= snd fx)%Z /\ (no_sharding a \/ exists sh, has_sharding a sh /\ Z.to_nat (snd fx) <= List.length sh)).

(** One pass over the layers [(lw 0, lr 0)], ..., [(lw (n-1), lr (n-1))]:
<<
    for i in range(n):
      m = layers[i]
      m.update_state(carry_state)
      c, ys = f(m, c, xs[i], ctx[i])
      *ax, b, carry_state = m.get_state().partition( *filters)
>>
    The layers live in heaps of their own.  [ax' i], [cs i], [ys i], [cc i] are
    the values of [ax], [carry_state], [ys] and [c] after step [i], and [lw' i] is
    the heap of layer [i] then.  [f] leaves the broadcast State as it is. *)
Definition prev {A} (x0 : A) (x : nat -> A) (i : nat) : A := match i with 0 => x0 | S j => x j end.
Definition pass (o : scan_opts) (f : option pctx -> pyval -> list pyval -> prog (pyval * list pyval)) (n : nat) (b : state)
    (lw : nat -> world) (lr : nat -> nat) (args : nat -> option pctx * list pyval) (cs0 : state) (c0 : pyval)
    (lw' : nat -> world) (ax' : nat -> list state) (cs : nat -> state) (ys : nat -> list pyval) (cc : nat -> pyval) : Prop :=
  forall i, i < n -> exists wu s,
    update_state (lw i) (lr i) (UStates (One (prev cs0 cs i))) = (wu, Ok tt) /\
    user_fun (f (fst (args i)) (prev c0 cc i) (snd (args i))) wu (lr i) = (lw' i, Ok (cc i, ys i)) /\
    get_state (lw' i) (lr i) = Ok s /\ partition_state s (o_filters o) = Ok (Many (ax' i ++ [b; cs i])).

(** [f] leaves the structure of the layers as it was, and gives results of one
    structure *)
Definition keeps (o : scan_opts) (n : nat) (d : mdef) (lr : nat -> nat) (ax : nat -> list state) (c : state)
    (lw' : nat -> world) (ax' : nat -> list state) (cs : nat -> state) (ys : nat -> list pyval) : Prop :=
  forall i, i < n ->
    get_module_def (lw' i) (lr i) = Ok d /\ names_ok (lw' i) (lr i) /\ live (lw' i) (lr i) /\
    Forall2 alike (ax i) (ax' i) /\ alike c (cs i) /\ stackable o (ax' i) /\ List.length (ys i) = List.length (ys 0).

(** The arguments of the steps: slice [i] of the leaves of [xs], and the context of
    step [i]. *)
Definition step_args (J : arrays) (o : scan_opts) (n : nat) (pc : option (pctx * (string -> bool))) (xs : list pyval)
    (args : nat -> option pctx * list pyval) : Prop :=
  forall i, i < n -> fst (args i) = option_map (fun pp => step_keys (snd pp) n (fst pp) i) pc /\
                     leaf_slices J (o_in o) n i xs (snd (args i)).

(** The module [m] of [w] stands for [n] layers with definition [d], per-layer
    States [ax i], broadcast State [b], and carry State [c]: its own per-layer
    States [axs], taken apart along their axes, are the [ax i].  The last two
    parts say that States like those of the layers can be stacked to States like
    [axs], and that stacking gives raw arrays of the class they have in [axs]. *)
Definition stands_for (J : arrays) (o : scan_opts) (n : nat) (nodes : list string) (d : mdef) (w : world) (m : nat)
    (ax : nat -> list state) (b c : state) : Prop :=
  exists axs, layer o nodes d w m axs b c /\
    (forall i, i < n -> exists raw, Forall2 (fun sa small => is_slice J (snd (snd sa)) n i (fst sa) small) (combine axs (o_axes o)) raw /\
                                    enter_axes o raw = Ok (ax i)) /\
    (forall i l, i < n -> Forall2 alike (ax i) l -> exists l', leave_axes o l = Ok l' /\ Forall2 alike axs l') /\
    (forall s k v axis vs, In s axs -> dget k s = Some (ARaw v) -> cls_of_attr (ARaw (a_stack J axis vs)) = cls_of_attr (ARaw v)).

(** ** Histories *)
(** a call: what is called, the arguments, the context, the streams then, and the
    trace under which jax runs it *)
Record call := mkCall {
  k_fun : option pctx -> pyval -> list pyval -> prog (pyval * list pyval);
  k_carry : pyval;
  k_xs : list pyval;
  k_ctx : option context;
  k_ss : list stream;
  k_trace : trace_state
}.
(** the calls, one after the other, of the Scan object [r] *)
Fixpoint calls (J : arrays) (o : scan_opts) (w : world) (r : nat) (ks : list call) : world * result (list (pyval * list pyval)) :=
  match ks with
  | [] => (w, Ok [])
  | k :: ks' =>
      match scan_call J o (k_trace k) (fun pc c xs => user_fun (k_fun k pc c xs)) w r (k_carry k) (k_xs k) (k_ctx k) (k_ss k) with
      | (w1, _, Err e) => (w1, Err e)
      | (w1, _, Ok out) => match calls J o w1 r ks' with
                           | (w2, Err e) => (w2, Err e)
                           | (w2, Ok outs) => (w2, Ok (out :: outs))
                           end
      end
  end.
(** one pass over the layers for each call.  [tr] is the current trace.  The
    outcome of a call: the carry at the end, and the outputs of the layers. *)
Inductive passes (J : arrays) (o : scan_opts) (n : nat) (tr : trace_state) (d : mdef) (b : state) (lr : nat -> nat)
  : (nat -> world) -> (nat -> list state) -> state -> list call -> list (pyval * list (list pyval)) -> (nat -> list state) -> state -> Prop :=
| passes_nil lw ax c : passes J o n tr d b lr lw ax c [] [] ax c
| passes_cons lw ax c k pc ss' args lw' ax' cs ys cc ks outs axN cN :
    scan_ctx tr (o_split o) (k_ctx k) (k_ss k) = (Ok pc, ss') ->
    step_args J o n pc (k_xs k) args ->
    pass o (k_fun k) n b lw lr args c (k_carry k) lw' ax' cs ys cc ->
    keeps o n d lr ax c lw' ax' cs ys ->
    passes J o n tr d b lr lw' ax' (prev c cs n) ks outs axN cN ->
    passes J o n tr d b lr lw ax c (k :: ks) ((prev (k_carry k) cc n, map ys (seq 0 n)) :: outs) axN cN.
(** what a call returned, [y], against the outcome [x] of the pass: the same carry,
    and the outputs of the layers stacked *)
Definition out_matches (J : arrays) (o : scan_opts) (x : pyval * list (list pyval)) (y : pyval * list pyval) : Prop :=
  fst y = fst x /\ leaf_stack J (o_out o) (snd x) (snd y) /\ forall l, In l (snd x) -> List.length l = List.length (snd y).
