(** Spec_Eq: python's [==] between values.  A bool is the number 0 or 1; tuples are
    compared element by element; everything else is equal to itself only. *)
From Coq Require Import ZArith.
From Verif Require Import PyBase ValuesM.
Local Open Scope string_scope.
Local Open Scope list_scope.

Inductive number : pyval -> Z -> Prop :=
| num_false : number (PyBool false) 0
| num_true : number (PyBool true) 1
| num_int z : number (PyInt z) z.
Inductive py_eq : pyval -> pyval -> Prop :=
| pe_same v : py_eq v v
| pe_number a b z : number a z -> number b z -> py_eq a b
| pe_tuple l l' : Forall2 py_eq l l' -> py_eq (PyTuple l) (PyTuple l').

(** The same entries, up to [==]. *)
Definition opt_eq (a b : option pyval) : Prop :=
  match a, b with
  | Some x, Some y => py_eq x y
  | None, None => True
  | _, _ => False
  end.
Definition same_meta (d e : dict pyval) : Prop := forall k, opt_eq (dget k d) (dget k e).
