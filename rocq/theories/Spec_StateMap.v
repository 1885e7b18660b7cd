(** Spec_StateMap: what a State made of a list of pairs holds. *)
From Verif Require Import PyBase ValuesM Spec_Eq Spec_Module.
Local Open Scope string_scope.
Local Open Scope list_scope.

(** [v] is the last value given for [k]. *)
Definition last_given (items : list (string * attr)) (k : string) (v : attr) : Prop :=
  exists before after, items = before ++ (k, v) :: after /\ forall v', ~ In (k, v') after.
(** nothing is given for [k] *)
Definition not_given (items : list (string * attr)) (k : string) : Prop := forall v, ~ In (k, v) items.

(** Two mappings are equal: they have the same keys, with equal values. *)
Definition same_entries (a b : string -> option attr) : Prop :=
  forall k, match a k, b k with
            | Some x, Some y => same_attr x y
            | None, None => True
            | _, _ => False
            end.
