(** StateMapM: models State as a read-only mapping (nnx/state.py:17-46), with what it
    inherits from [typing.Mapping], i.e. [collections.abc.Mapping]. *)
From Verif Require Import PyBase ValuesM FiltersM StateM ModuleM.
Local Open Scope string_scope.
Local Open Scope list_scope.

(** state.py:33-34 [State.__getitem__] *)
Definition state_getitem (s : state) (k : string) : result attr :=
  match dget k s with Some a => Ok a | None => Err KeyError end.
(** state.py:36-37 [State.__iter__]: the keys in the order of [_mapping]. *)
Definition state_iter (s : state) : list string := keys s.
(** state.py:39-40 [State.__len__] *)
Definition state_len (s : state) : nat := List.length s.

(** [Mapping.__contains__] and [Mapping.get]: [__getitem__] with KeyError caught. (inherited at state.py:17) *)
Definition state_contains (s : state) (k : string) : bool :=
  match state_getitem s k with Ok _ => true | Err _ => false end.
(** inherited at state.py:17 *)
Definition state_get (s : state) (k : string) (default : attr) : attr :=
  match state_getitem s k with Ok a => a | Err _ => default end.
(** [ValuesView.__iter__], [ItemsView.__iter__]: the keys in order, each looked up. (inherited at state.py:17) *)
Definition state_values (s : state) : result (list attr) := rmapM (state_getitem s) (state_iter s).
(** inherited at state.py:17 *)
Definition state_items (s : state) : result (list (string * attr)) :=
  rmapM (fun k => do v <- state_getitem s k; Ok (k, v)) (state_iter s).
(** [bool(s)], as in state.py:70 [if rest:] and 130, 135 [if not other]. *)
Definition state_bool (s : state) : bool := negb (Nat.eqb (state_len s) 0).

(** What can stand on the other side of [==]: a State, a dict, or anything that is no
    Mapping. (inherited at state.py:17) *)
Inductive other : Type := OtState (s : state) | OtDict (d : dict attr) | OtElse.
(** python's [==] of dicts with values compared by [==].  Simplification: raw arrays are
    compared as opaque values, without numpy's elementwise [==]. (containers.py:59-62, inherited at state.py:17) *)
Definition dict_attr_eqb (d e : dict attr) : bool :=
  Nat.eqb (List.length d) (List.length e) &&
  forallb (fun kv => match dget (fst kv) e with
                     | Some v => attr_eqb (snd kv) v
                     | None => false end) d.
(** [Mapping.__eq__]: [dict(self.items()) == dict(other.items())]; with something that is
    no Mapping it is NotImplemented, and [==] is False. (inherited at state.py:17) *)
Definition state_eq (s : state) (o : other) : result bool :=
  do i <- state_items s;
  match o with
  | OtState t => do j <- state_items t; Ok (dict_attr_eqb (dict_of i) (dict_of j))
  | OtDict d => Ok (dict_attr_eqb (dict_of i) d)
  | OtElse => Ok false
  end.
