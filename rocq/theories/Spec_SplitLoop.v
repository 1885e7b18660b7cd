(** A forward pass for which training on two States can work. *)
From Verif Require Import PyBase ValuesM FiltersM StateM ModuleM.
Local Open Scope string_scope.
Local Open Scope list_scope.

(** The forward pass from [w] to [w1] leaves what [wrt] selects alone, and every entry of the
    State after it is selected by exactly one of the two filters. *)
Definition split_by (wrt aux : filt) (r : nat) (w w1 : world) : Prop :=
  module_filter w1 r wrt [] = module_filter w r wrt [] /\
  forall p q s k a, to_predicate wrt = Ok p -> to_predicate aux = Ok q -> get_state w1 r = Ok s -> dget k s = Some a -> q k a = negb (p k a).
