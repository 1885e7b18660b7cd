(** Specification vocabulary for filters and States, written without the
    functions of the model. *)
From Coq Require Import Sorted.
From Verif Require Import PyBase ValuesM Spec_Eq FiltersM.
Local Open Scope string_scope.
Local Open Scope list_scope.

(** What it means for a filter expression to match an entry. *)
Fixpoint matches (f : filt) (path : string) (x : attr) : Prop :=
  match f with
  | FType c => In c (cls_of_attr x)
  | FEllipsis => True
  | FNone => False
  | FPred p => p path x = true
  | FTuple l | FAny l => fold_right (fun g acc => matches g path x \/ acc) False l
  | FAll l => fold_right (fun g acc => matches g path x /\ acc) True l
  | FNot g => ~ matches g path x
  | FStr _ | FInt | FOther => False
  end.

(** Filter expressions that contain no str, number or other non-filter. *)
Fixpoint valid_filter (f : filt) : Prop :=
  match f with
  | FStr _ | FInt | FOther => False
  | FTuple l | FAny l | FAll l => fold_right (fun g acc => valid_filter g /\ acc) True l
  | FNot g => valid_filter g
  | FType _ | FEllipsis | FNone | FPred _ => True
  end.

(** The exception a non-filter raises: a number makes the error message itself fail. *)
Definition offence (f : filt) : option exn :=
  match f with
  | FStr _ | FOther => Some TypeError
  | FInt => Some ValueError
  | _ => None
  end.
(** [g] occurs in [f] *)
Inductive occurs (g : filt) : filt -> Prop :=
| occ_here : occurs g g
| occ_tuple h l : In h l -> occurs g h -> occurs g (FTuple l)
| occ_any h l : In h l -> occurs g h -> occurs g (FAny l)
| occ_all h l : In h l -> occurs g h -> occurs g (FAll l)
| occ_not h : occurs g h -> occurs g (FNot h).

(** [...] occurs only in last position. *)
Definition ellipsis_only_last (fs : list filt) : Prop :=
  forall i, nth_error fs i = Some FEllipsis -> S i = List.length fs.

(** filter number [i] is the first of [fs] that matches *)
Definition first_match (fs : list filt) (i : nat) (path : string) (x : attr) : Prop :=
  (exists g, nth_error fs i = Some g /\ matches g path x) /\
  (forall j h, j < i -> nth_error fs j = Some h -> ~ matches h path x).

(** keys strictly increasing *)
Definition keys_increasing {A} (s : list (string * A)) : Prop :=
  StronglySorted (fun a b => String.compare a b = Lt) (map fst s).
