(** The calls of the scanned function: [F] holds of each of them, that is of the keys and the
    arguments of the call, the module it gets and the heap it gets it in. *)
From Coq Require Import ZArith.
From Verif Require Import PyBase ValuesM FiltersM StateM ModuleM SpmdM ContextM TransformM ScanM.
Local Open Scope string_scope.
Local Open Scope list_scope.

Section Calls.
Context {X Y : Type} (o : scan_opts) (t : trace_state) (f : scanned_of X Y) (F : option pctx -> pyval -> X -> world -> nat -> Prop) (d : mdef).

(** one step: the function is called on the module merged from the slices *)
Definition step_call (broadcast : state) (w : world) (carry : state * pyval) (x : step_of X) : Prop :=
  forall axs m w1, enter_axes o (snd (fst x)) = Ok axs -> merge w d (axs ++ [broadcast; fst carry]) = Ok (m, w1) -> F (fst (fst x)) (snd carry) (snd x) w1 m.
(** the steps one after the other, each in the heap and with the carry left by the one before *)
Fixpoint step_calls (broadcast : state) (w : world) (carry : state * pyval) (l : list (step_of X)) : Prop :=
  match l with
  | [] => True
  | x :: rest => step_call broadcast w carry x /\
                 forall w1 carry1 y, scan_fn o f d broadcast w carry x = (w1, Ok (carry1, y)) -> same_struct (fst carry) (fst carry1) = true ->
                   step_calls broadcast w1 carry1 rest
  end.
Definition in_order (l : list (step_of X)) : list (step_of X) := if o_reverse o then rev l else l.
(** first the call by which the new carry state is found out; if there is none, the steps;
    otherwise the first step alone and then the others *)
Definition run_calls (b : state) (w : world) (cs : state) (c : pyval) (steps : list (step_of X)) : Prop :=
  match steps with
  | [] => True
  | x :: rest =>
      step_call b (set_trace w t) (cs, c) x /\
      forall w1 carry1 y, scan_fn o f d b (set_trace w t) (cs, c) x = (w1, Ok (carry1, y)) ->
        let w1 := set_trace w1 (w_trace w) in
        match out_cs_new y with
        | [] => step_calls b (set_trace w1 t) (cs, c) (in_order steps)
        | _ =>
            step_call b (set_trace w1 t) (cs, c) x /\
            forall w2 cs1 c1 y1, scan_fn o f d b (set_trace w1 t) (cs, c) x = (w2, Ok ((cs1, c1), y1)) -> same_struct cs cs1 = true ->
              step_calls (state_merge b [out_b_new y1]) (set_trace (set_trace w2 (w_trace w)) t) (state_merge cs1 [out_cs_new y1], c1) (in_order rest)
        end
  end.
End Calls.

(** all calls made by [scan] *)
Definition scan_calls (J : arrays) (o : scan_opts) (t : trace_state) (f : scanned) (F : option pctx -> pyval -> list pyval -> world -> nat -> Prop)
    (w : world) (r : nat) (c : pyval) (xs : list pyval) (ctx : option context) (ss : list stream) : Prop :=
  forall q axs b cs sl lens at_step n pc ss',
  module_partition w r (o_filters o) = Ok q -> sts_list (p_states q) = axs ++ [b; cs] ->
  slice_states J (o_axes o) axs = Ok sl -> cut_leaves J (o_in o) xs = Ok (lens, at_step) -> infer_length (o_length o) (leaf_lengths sl lens) = Ok n ->
  scan_ctx (w_trace w) (o_split o) ctx ss = (Ok pc, ss') ->
  run_calls o t f F (p_def q) b w cs c (scan_input n pc sl at_step).
