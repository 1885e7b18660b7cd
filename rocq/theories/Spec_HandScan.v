(** What applying the layers one after the other means. *)
From Coq Require Import ZArith.
From Verif Require Import PyBase ValuesM FiltersM StateM Spec_State ModuleM ContextM ScanM Spec_Module Spec_Prog Spec_Scan.
Local Open Scope string_scope.
Local Open Scope list_scope.

(** The python loop
<<
    for ctx, state in layers:
      m = d.merge(state)
      x = f(m, x, ctx)
      outs.append(m.get_state())
>>
    from [x] and ending with [x']. *)
Inductive in_turn (w : world) (d : mdef) (f : pctx -> pyval -> prog pyval)
  : pyval -> list (pctx * state) -> list state -> pyval -> Prop :=
| turn_done x : in_turn w d f x [] [] x
| turn_step x pc s x1 s1 rest outs x2 :
    call_on w d [s] (f pc x) = Some (x1, s1) ->
    in_turn w d f x1 rest outs x2 ->
    in_turn w d f x ((pc, s) :: rest) (s1 :: outs) x2.

(** the filter selects every entry *)
Definition covered (g : filt) (s : state) : Prop := forall k a, dget k s = Some a -> matches g k a.

(** the context layer [i] of [n] gets when the context has the one stream [name],
    with key, count and path as in [stm]: key [i] of the split keys *)
Definition turn_ctx (name : string) (stm : stream) (flags : dict bool) (n i : nat) : pctx :=
  mkPctx [(name, KSplit (s_key stm) n i)] [(name, s_path stm ++ [s_count stm])] flags.

(** [r = ctor(ctx)], run on its own in [w0], gives the module [r] of [w1] with
    definition [d] and state [s] *)
Record block_made (ctor : option pctx -> world -> world * result nat) (w0 : world) (pc : pctx) (w1 : world) (r : nat)
    (d : mdef) (s : state) : Prop := {
  bm_call : ctor (Some pc) w0 = (w1, Ok r);
  bm_wf : wf_world w1;
  bm_valid : r < List.length (w_heap w1);
  bm_names : names_ok w1 r;
  bm_def : get_module_def w1 r = Ok d;
  bm_state : get_state w1 r = Ok s
}.

(** the scanned function [h] is the layer [f]: it takes no axes argument and
    returns the new carry and no other output *)
Definition scans (h : option pctx -> pyval -> list pyval -> prog (pyval * list pyval)) (f : pctx -> pyval -> prog pyval) : Prop :=
  forall pc x w m, user_fun (h (Some pc) x []) w m =
    let '(w1, res) := user_fun (f pc x) w m in (w1, match res with Ok y => Ok (y, []) | Err e => Err e end).
