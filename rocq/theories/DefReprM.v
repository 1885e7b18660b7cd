(** DefReprM: repr of a ModuleDef (module.py:74-109). *)
From Verif Require Import PyBase ValuesM FiltersM StateM ModuleM TlsM ContextM.
Local Open Scope string_scope.
Local Open Scope list_scope.

(** [type.__name__]; a class is the list of names in its MRO. (module.py:105) *)
Definition cls_name (c : cls) : string := hd "" c.
(** [repr(name)] of a str without quotes, backslashes and control characters, as attribute
    names are. (module.py:83) *)
Definition quoted (n : string) : string := "'" ++ n ++ "'".
(** module.py:74-83 [_SubmodulesRepr.__nnx_repr__] and 103-109 [ModuleDef.__nnx_repr__]: what the
    generators yield, as a value of reprlib.  [rs] is Python's own [repr] of the tuple of static
    fields, any text; that it prints Representables in it through reprlib is left out.  A
    submodule that occurred before is an int. *)
Fixpoint def_val (rs : list (string * attr) -> string) (d : mdef) : rval :=
  match d with
  | MRef n => RvOther [RpText (nat_str n)]
  | MDef c idx subs st _ =>
      RvObj (RObj (mkConfig "ModuleDef" "(" ")" "=" "  " "")
        [ RiAttr "type" "" "" (RvStr (cls_name c));
          RiAttr "index" "" "" (RvOther [RpText (nat_str idx)]);
          RiAttr "submodules" "" "" (RvObj (RObj (mkConfig "" "(" ")" ", " "  " "")
            (map (fun nd => RiAttr (quoted (fst nd)) "(" ")" (def_val rs (snd nd))) subs)));
          RiAttr "static_fields" "" "" (RvOther [RpText (rs st)]) ])
  end.
(** [repr(moduledef)]: reprlib.py:41-42 [Representable.__repr__], with an int for completeness. *)
Definition def_repr (rs : list (string * attr) -> string) (d : mdef) (st : list string) : result string * list string :=
  repr_val (def_val rs d) st.
