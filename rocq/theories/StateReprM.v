(** StateReprM: repr of a State (state.py:42-46). *)
From Verif Require Import PyBase ValuesM FiltersM StateM ModuleM TlsM DefReprM.
Local Open Scope string_scope.
Local Open Scope list_scope.

(** reprlib.py:68-77: the value of an [Attr] for an entry of a State.  [rp] is Python's [repr] of a
    value, any text; a str is printed as it is.  Containers: containers.py:101-104
    [Container.__nnx_repr__], the fields of [vars(self)] with [value] last, each the [repr] of its
    value as a str. *)
Definition entry_val (rp : pyval -> string) (a : attr) : rval :=
  match a with
  | ARaw (PyStr s) => RvStr s
  | ARaw v => RvOther [RpText (rp v)]
  | ACont c => RvObj (RObj (mkConfig (cls_name (c_cls c)) "(" ")" "=" "  " "")
                 (map (fun nv => RiAttr (fst nv) "" "" (RvStr (rp (snd nv)))) (c_meta c ++ [("value", c_val c)])))
  end.
(** state.py:42-46 [State.__nnx_repr__]; the paths are printed by [repr]. *)
Definition state_obj (rp : pyval -> string) (s : state) : robj :=
  RObj (mkConfig "State" "({" "})" ": " "  " "") (map (fun ka => RiAttr (quoted (fst ka)) "" "" (entry_val rp (snd ka))) s).
(** [repr(state)]: reprlib.py:41-42. *)
Definition state_repr (rp : pyval -> string) (s : state) (st : list string) : result string * list string := get_repr (state_obj rp s) st.
