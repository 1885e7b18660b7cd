(** What making the layers one at a time means. *)
From Coq Require Import ZArith.
From Verif Require Import PyBase ValuesM Spec_Eq FiltersM StateM Spec_State ModuleM ContextM ScanM ScanInitM Spec_Module Spec_Scan.
Local Open Scope string_scope.
Local Open Scope list_scope.

(** [r = ctor(ctx)], run on its own in [w0], gives the module [r] of [w1] with
    definition [d] and state [s]; partitioned by the filters of scan, [s] has the
    axes States [axs], the broadcast State [b] and the carry State [c] *)
Record layer_made (o : scan_opts) (ctor : constructor) (w0 : world) (pc : option pctx) (w1 : world) (r : nat)
    (d : mdef) (s : state) (axs : list state) (b c : state) : Prop := {
  lm_call : ctor pc w0 = (w1, Ok r);
  lm_wf : wf_world w1;
  lm_valid : r < List.length (w_heap w1);
  lm_names : names_ok w1 r;
  lm_def : get_module_def w1 r = Ok d;
  lm_state : get_state w1 r = Ok s;
  lm_part : partition_state s (o_filters o) = Ok (Many (axs ++ [b; c]))
}.

(** the filter looks at the path and the class only *)
Definition by_class (f : filt) : Prop :=
  forall k a a', cls_of_attr a = cls_of_attr a' -> (matches f k a <-> matches f k a').

(** slicing takes apart what stacking puts together *)
Definition stack_slices (J : arrays) : Prop :=
  forall ax l, l <> [] -> Forall not_module l -> a_slices J ax (a_stack J ax l) = Ok l.
