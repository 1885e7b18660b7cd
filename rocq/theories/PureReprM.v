(** PureReprM: repr of a Pure, as of the result of partition() (module.py:192-196). *)
From Verif Require Import PyBase ValuesM FiltersM StateM ModuleM TlsM DefReprM StateReprM.
Local Open Scope string_scope.
Local Open Scope list_scope.

(** module.py:192-196: a Pure is a tuple [(state, moduledef)], and [tuple.__repr__] calls [repr] of
    the two parts in their order (reprlib.py:41-42).  A Pure with several States is left out. *)
Definition pure_repr (rp : pyval -> string) (rs : list (string * attr) -> string) (s : state) (d : mdef) (st : list string) : result string * list string :=
  match state_repr rp s st with
  | (Err e, st1) => (Err e, st1)
  | (Ok x, st1) =>
      match def_repr rs d st1 with
      | (Err e, st2) => (Err e, st2)
      | (Ok y, st2) => (Ok ("(" ++ x ++ ", " ++ y ++ ")")%string, st2)
      end
  end.
