(** PytreeM: models nnx/pytreelib.py, the Pytree objects and their mutation.
    Objects live in a heap, a list; an object is referred to by its index.  A
    nested Pytree in a field is an opaque reference ([PyObj]): nothing in this
    file looks inside it. *)
From Verif Require Import PyBase ValuesM.
Local Open Scope string_scope.
Local Open Scope list_scope.

(** What a field holds: a value or container, or the list of field names that
    [_pytree__sorted_fields] refers to. (pytreelib.py:47-67) *)
Inductive pfield : Type :=
| FAttr (a : attr)
| FNames (l : list string).

(** nnx_container_fn of a dataclass field: dataclasses.py:50 (Node), 81 (Static),
    114 (a variable type with sharding). *)
Record cfn := mkCfn { f_cls : cls; f_md : dict pyval }.
(** pytreelib.py:60-65 *)
Definition call_cfn (f : cfn) (a : attr) : result attr :=
  rmap ACont (container_call (f_cls f) (match a with ARaw v => CVal v | ACont c => CCont c end) (f_md f)).

(** A Pytree class: its MRO, [_pytree__class_is_mutable] (pytreelib.py:104-108), and
    for dataclasses the fields in order with their container functions (all with
    [init=True]; [__post_init__] and defaults are not modelled). *)
Record pclass := mkPcls { k_cls : cls; k_mutable : bool; k_fields : option (list (string * option cfn)) }.

(** pytreelib.py:70-76 *)
Record pobj := mkPobj { p_class : pclass; p_vars : dict pfield }.
Notation pheap := (list pobj).

(** pytreelib.py:47-67, 154-177 *)
Definition F_SORTED := "_pytree__sorted_fields".
(** pytreelib.py:24-29 *)
Definition F_MUTABLE := "_pytree__is_mutable".
(** pytreelib.py:33-38 *)
Definition F_INIT := "_pytree__initializing".

(** [vars(obj)] after an assignment, pytreelib.py:86-100 *)
Definition set_pvars (h : pheap) (r : nat) (d : dict pfield) : pheap :=
  match nth_error h r with
  | Some o => list_set r (mkPobj (p_class o) d) h
  | None => h
  end.

(** [isinstance(x, Container)] for a field. (pytreelib.py:77-100) *)
Definition field_container (f : option pfield) : option container :=
  match f with Some (FAttr (ACont c)) => Some c | _ => None end.

(** pytreelib.py:87-102 [_setattr].  Simplification: [_pytree__class_is_mutable] is
    read from the class (an instance variable of that name would shadow it). *)
Definition psetattr (h : pheap) (r : nat) (name : string) (value : attr) : pheap * result unit :=
  match nth_error h r with
  | None => (h, Err OutOfModel)
  | Some o =>
      let d := p_vars o in
      let refused :=
        if dmem F_INIT d then false
        else if negb (dmem name d) then true
        else negb (dmem F_MUTABLE d) && negb (k_mutable (p_class o)) in
      if refused then (h, Err AttributeError)
      else
        match field_container (dget name d) with
        | Some c => match container_replace c (Some value) [] with
                    | Ok c' => (set_pvars h r (dset name (FAttr (ACont c')) d), Ok tt)
                    | Err e => (h, Err e)
                    end
        | None => match value with
                  | ARaw v => (set_pvars h r (dset name (FAttr (ARaw v)) d), Ok tt)
                  | ACont c => match container_copy c with
                               | Ok c' => (set_pvars h r (dset name (FAttr (ACont c')) d), Ok tt)
                               | Err e => (h, Err e)
                               end
                  end
        end
  end.

(** [del obj.name]: [object.__delattr__], which Pytree does not override. (pytreelib.py:70-100) *)
Definition pdelattr (h : pheap) (r : nat) (name : string) : pheap * result unit :=
  match nth_error h r with
  | None => (h, Err OutOfModel)
  | Some o => if dmem name (p_vars o) then (set_pvars h r (ddel name (p_vars o)), Ok tt)
              else (h, Err AttributeError)
  end.

(** pytreelib.py:77-81 [__getattribute__] of an instance variable. *)
Definition pgetattr (h : pheap) (r : nat) (name : string) : result pfield :=
  match nth_error h r with
  | None => Err OutOfModel
  | Some o => match dget name (p_vars o) with
              | Some (FAttr (ACont c)) => Ok (FAttr (ARaw (c_val c)))
              | Some f => Ok f
              | None => Err AttributeError
              end
  end.

(** pytreelib.py:23-29, 32-38: set a marker, run, and delete it in [finally] (a
    KeyError if it is gone by then replaces the outcome). *)
Definition with_marker (m : string) (r : nat) (h : pheap) (body : pheap -> pheap * result unit)
  : pheap * result unit :=
  match nth_error h r with
  | None => (h, Err OutOfModel)
  | Some o =>
      let '(h1, res) := body (set_pvars h r (dset m (FAttr (ARaw (PyBool true))) (p_vars o))) in
      match nth_error h1 r with
      | None => (h1, Err OutOfModel)
      | Some o1 => if dmem m (p_vars o1) then (set_pvars h1 r (ddel m (p_vars o1)), res)
                   else (h1, Err KeyError)
      end
  end.

(** pytreelib.py:56-65: the container functions of a dataclass, applied in place. *)
Fixpoint wrap_fields (fs : list (string * option cfn)) (d : dict pfield) : dict pfield * result unit :=
  match fs with
  | [] => (d, Ok tt)
  | (_, None) :: t => wrap_fields t d
  | (n, Some f) :: t =>
      match dget n d with
      | None => (d, Err KeyError)
      | Some (FNames _) => (d, Err OutOfModel)
      | Some (FAttr a) => match call_cfn f a with
                          | Err e => (d, Err e)
                          | Ok a' => wrap_fields t (dset n (FAttr a') d)
                          end
      end
  end.

(** [sorted(vars(obj))]. (pytreelib.py:47-67) *)
Definition sorted_names (d : dict pfield) : list string := keys (sort_by_key d).

(** pytreelib.py:47-69 [PytreeMeta.call]: [init] is the body of [__init__].  The new
    object is at index [length h]. *)
Definition pnew (k : pclass) (init : pheap -> pheap * result unit) (h : pheap) : pheap * result unit :=
  let r := List.length h in
  let h0 := (h ++ [mkPobj k [(F_SORTED, FNames [F_SORTED])]])%list in
  let '(h1, res) := with_marker F_MUTABLE r h0 (fun h => with_marker F_INIT r h init) in
  match res with
  | Err e => (h1, Err e)
  | Ok _ =>
      match nth_error h1 r with
      | None => (h1, Err OutOfModel)
      | Some o =>
          match wrap_fields (match k_fields k with Some fs => fs | None => [] end) (p_vars o) with
          | (d, Err e) => (set_pvars h1 r d, Err e)
          | (d, Ok _) => (set_pvars h1 r (dset F_SORTED (FNames (sorted_names d)) d), Ok tt)
          end
      end
  end.

(** [copy.copy(obj)]: a new object with the same dictionary entries. (used at pytreelib.py:233-255) *)
Definition pcopy (h : pheap) (r : nat) : pheap * result unit :=
  match nth_error h r with
  | None => (h, Err OutOfModel)
  | Some o => ((h ++ [o])%list, Ok tt)
  end.

(** pytreelib.py:233-255 *)
Fixpoint set_all (r : nat) (kw : list (string * attr)) (h : pheap) : pheap * result unit :=
  match kw with
  | [] => (h, Ok tt)
  | (k, v) :: t => match psetattr h r k v with
                   | (h1, Ok _) => set_all r t h1
                   | (h1, Err e) => (h1, Err e)
                   end
  end.

(** The arguments [dataclasses.replace] passes to the constructor: given ones, and
    [getattr] for the others; a keyword that is no field is a TypeError. ([dataclasses.replace] as called at pytreelib.py:233-255) *)
Fixpoint replace_args (h : pheap) (r : nat) (fs : list (string * option cfn)) (kw : dict attr)
  : result (list (string * attr)) :=
  match fs with
  | [] => Ok []
  | (n, _) :: t =>
      do a <- match dget n kw with
              | Some a => Ok a
              | None => match pgetattr h r n with
                        | Ok (FAttr a) => Ok a
                        | Ok (FNames _) => Err OutOfModel
                        | Err e => Err e
                        end
              end;
      do l <- replace_args h r t kw; Ok ((n, a) :: l)
  end.

(** pytreelib.py:229-253 [replace]; the new object is at index [length h]. *)
Definition preplace (h : pheap) (r : nat) (kw : dict attr) : pheap * result unit :=
  match nth_error h r with
  | None => (h, Err OutOfModel)
  | Some o =>
      match k_fields (p_class o) with
      | Some fs =>
          match replace_args h r fs kw with
          | Err e => (h, Err e)
          | Ok args =>
              if forallb (fun k => smem k (keys fs)) (keys kw)
              then pnew (p_class o) (set_all (List.length h) args) h
              else (h, Err TypeError)
          end
      | None =>
          if existsb (fun k => negb (dmem k (p_vars o))) (keys kw) && negb (k_mutable (p_class o))
          then (h, Err ValueError)
          else with_marker F_MUTABLE (List.length h) (h ++ [o])%list (set_all (List.length h) kw)
      end
  end.

(** Programs over Pytree objects. (user programs over the API of pytreelib.py:41-260) *)
Inductive pprog : Type :=
| QSkip
| QRaise (e : exn)
| QSeq (p q : pprog)
| QTry (p handler : pprog)
| QSet (r : nat) (name : string) (v : attr)
| QReplace (r : nat) (kw : dict attr)
| QCopy (r : nat)
| QNew (k : pclass) (init : pprog).   (* [init] runs on the new object, index = heap size *)

(** user programs over the API of pytreelib.py:41-260 *)
Fixpoint prun (p : pprog) (h : pheap) : pheap * result unit :=
  match p with
  | QSkip => (h, Ok tt)
  | QRaise e => (h, Err e)
  | QSeq p q => match prun p h with (h1, Ok _) => prun q h1 | x => x end
  | QTry p q => match prun p h with (h1, Err _) => prun q h1 | x => x end
  | QSet r n v => psetattr h r n v
  | QReplace r kw => preplace h r kw
  | QCopy r => pcopy h r
  | QNew k init => pnew k (prun init) h
  end.
