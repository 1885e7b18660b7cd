(** Spec_PureRepr: when the printed form of a ModuleDef tells its parts apart. *)
From Verif Require Import PyBase ValuesM ModuleM Spec_AnyDef Spec_DefRepr.
Local Open Scope string_scope.
Local Open Scope list_scope.

(** Names and the texts of static fields that tell classes and static fields apart. *)
Definition telling (rs : list (string * attr) -> string) (d d' : mdef) : Prop := forall c i s t b c' i' s' t' b', In (MDef c i s t b) (parts d) -> In (MDef c' i' s' t' b') (parts d') ->
  (own_name c = own_name c' -> c = c') /\ (rs t = rs t' -> t = t').
