(** FiltersM: models nnx/partitioning.py. *)
From Verif Require Import PyBase ValuesM.
Local Open Scope string_scope.
Local Open Scope list_scope.

(** Filter expressions a user can write (partitioning.py:15-18, 38-86).
    [FType c]: the class named [c].  [FPred p]: any other callable; simplified
    to a total pure boolean function.  [FAny/FAll/FNot]: instances of the
    classes Any, All, Not.  [FInt]: an int or float, [FOther]: any other object
    that is not a filter (list, dict, set, ...). *)
Inductive filt : Type :=
| FType (c : string)
| FEllipsis
| FNone
| FPred (p : string -> attr -> bool)
| FTuple (l : list filt)
| FAny (l : list filt)
| FAll (l : list filt)
| FNot (f : filt)
| FStr (s : string)
| FInt
| FOther.

Notation predicate := (string -> attr -> bool).

(** partitioning.py:21-35 [to_predicate], with the constructors of [Any]
    (48-51), [All] (59-62) and [Not] (70-71) inlined: they call [to_predicate]
    on their arguments, left to right, when the object is built.
    Line 35 formats with the invalid spec [:!r]: formatting an int or float
    with it raises ValueError, any other object TypeError. *)
Fixpoint to_predicate (f : filt) : result predicate :=
  let many := fix many (l : list filt) : result (list predicate) :=
    match l with
    | [] => Ok []
    | x :: t => do p <- to_predicate x; do ps <- many t; Ok (p :: ps)
    end in
  match f with
  | FStr _ => Err TypeError
  | FType c => Ok (fun _ x => isinstance x c)                      (* OfType, 42-43 *)
  | FEllipsis => Ok (fun _ _ => true)                              (* Everything, 77-80 *)
  | FNone => Ok (fun _ _ => false)                                 (* Nothing, 83-86 *)
  | FPred p => Ok p
  | FTuple l | FAny l =>                                           (* Any, 53-54 *)
      do ps <- many l; Ok (fun path x => existsb (fun p => p path x) ps)
  | FAll l => do ps <- many l; Ok (fun path x => forallb (fun p => p path x) ps)
  | FNot g => do p <- to_predicate g; Ok (fun path x => negb (p path x))
  | FInt => Err ValueError
  | FOther => Err TypeError
  end.

(** [filter_ is ...]. (state.py:171) *)
Definition is_ellipsis (f : filt) : bool := match f with FEllipsis => true | _ => false end.
