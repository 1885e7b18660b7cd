(** HelpersM: models nnx/helpers.py: [Dict], [Sequence] and [has_keyword_arg].
    ([TrainState] is in TrainM.) *)
From Coq Require Import ZArith DecimalString.
From Verif Require Import PyBase ValuesM FiltersM StateM ModuleM.
Local Open Scope string_scope.
Local Open Scope list_scope.

(** [str(i)] on a non-negative [int]: decimal digits. (used at helpers.py:51-60) *)
Definition str_nat (n : nat) : string := NilEmpty.string_of_uint (Nat.to_uint n).
(** [str(i)] on any [int]. (used at helpers.py:51-60) *)
Definition str_int (z : Z) : string :=
  match z with
  | Zneg p => String "-" (str_nat (Pos.to_nat p))
  | _ => str_nat (Z.to_nat z)
  end.

(** [for name, value in items: setattr(self, name, value)] (helpers.py:27-28, 53-54). *)
Fixpoint assign_all (w : world) (r : nat) (items : list (string * attr)) : result world :=
  match items with
  | [] => Ok w
  | (n, a) :: t => do w1 <- setattr w r n a; assign_all w1 r t
  end.

(** ** Sequence *)
(** helpers.py:49 *)
Definition Sequence_cls : cls := ["Sequence"; "Module"; "Representable"; "Generic"; "object"].

(** [enumerate(iterable)] with the indices turned into names by [str] (helpers.py:53-54). *)
Fixpoint numbered (i : nat) (xs : list attr) : list (string * attr) :=
  match xs with
  | [] => []
  | x :: t => (str_nat i, x) :: numbered (S i) t
  end.

(** helpers.py:51-55 [Sequence.__init__], run by [ModuleMeta.__call__]
    (module.py:417-420).  [i] is 0 before the loop and the last index after it,
    so [_length] is 1 also when the iterable is empty. *)
Definition last_index (xs : list attr) : nat := pred (List.length xs).
(** helpers.py:51-55 *)
Definition new_sequence (w : world) (xs : list attr) : result (nat * world) :=
  let '(r, w1) := new_module w Sequence_cls in
  do w2 <- assign_all w1 r (numbered 0 xs);
  do w3 <- setattr w2 r "_length" (ARaw (PyInt (Z.of_nat (last_index xs + 1))));
  Ok (r, w3).

(** helpers.py:66-67 [__len__], as called by [len()] (a negative or non-int
    result is refused by [len]). *)
Definition seq_len (w : world) (r : nat) : result nat :=
  do x <- getattr w r "_length";
  match x with
  | RVal (PyInt z) => if Z.ltb z 0 then Err ValueError else Ok (Z.to_nat z)
  | _ => Err TypeError
  end.

(** helpers.py:57-60 [__getitem__]. *)
Definition seq_getitem (w : world) (r : nat) (key : Z) : result read_result :=
  do n <- seq_len w r;
  if Z.leb (Z.of_nat n) key then Err IndexError else getattr w r (str_int key).

(** helpers.py:62-64 [__iter__], run to the end without interruption. *)
Definition seq_iter (w : world) (r : nat) : result (list read_result) :=
  do n <- seq_len w r;
  rmapM (fun i => getattr w r (str_nat i)) (seq 0 n).

(** ** Sequence.__call__ *)
Section Call.
(** Values [V]; functions [F] with [callable(f)] and what
    [inspect.signature(f)] says about a parameter called ["ctx"]
    (helpers.py:146-152); [run f s args kwargs] is the call, changing whatever
    state [S'] the functions can change. *)
Context {V F S' : Type}.
Variable callable : F -> bool.
Variable takes_ctx : F -> bool.
(** what a function returns: a tuple, a dict, or anything else. (the result of a layer, helpers.py:69-90) *)
Inductive output : Type :=
| OTuple (l : list V)
| ODict (d : dict V)
| OOther (v : V).
Variable run : F -> S' -> list V -> dict V -> S' * result output.

(** helpers.py:76-84: the arguments of a stage after the first. *)
Definition spread (o : output) : list V * dict V :=
  match o with
  | OTuple l => (l, [])
  | ODict d => ([], d)
  | OOther v => ([v], [])
  end.

(** helpers.py:85-88: add [ctx] and call.  (When the previous output was a dict,
    Python adds [ctx] to that very dict object; that the dict held elsewhere by
    the previous function is changed too is not modelled.) *)
Definition call_stage (ctx : option V) (f : F) (s : S') (args : list V) (kwargs : dict V)
  : S' * result output :=
  let kwargs' := match ctx with
                 | Some c => if takes_ctx f then dset "ctx" c kwargs else kwargs
                 | None => kwargs
                 end in
  run f s args kwargs'.

(** helpers.py:72-90: the loop; the argument is the remaining elements, [prev]
    the previous output ([None] for the first element).  The elements are read
    before the first call (a function that reassigns elements of the Sequence it
    is called from is not modelled). *)
Fixpoint call_loop (ctx : option V) (fs : list F) (prev : option output) (s : S')
    (args : list V) (kwargs : dict V) : S' * result (option output) :=
  match fs with
  | [] => (s, Ok prev)
  | f :: t =>
      if negb (callable f) then (s, Err TypeError)
      else
        let '(args1, kwargs1) := match prev with None => (args, kwargs) | Some o => spread o end in
        match call_stage ctx f s args1 kwargs1 with
        | (s1, Err e) => (s1, Err e)
        | (s1, Ok o) => call_loop ctx t (Some o) s1 args1 kwargs1
        end
  end.
(** helpers.py:69-90 [__call__]; [None] stands for Python's [None] returned when
    there is no element (which a Sequence never is, see [new_sequence]). *)
Definition seq_call (ctx : option V) (fs : list F) (s : S') (args : list V) (kwargs : dict V)
  : S' * result (option output) := call_loop ctx fs None s args kwargs.
End Call.
Arguments output V : clear implicits.

(** helpers.py:146-152 [has_keyword_arg]: parameters as (name, kind). *)
Inductive param_kind : Type := POSITIONAL_ONLY | POSITIONAL_OR_KEYWORD | VAR_POSITIONAL | KEYWORD_ONLY | VAR_KEYWORD.
(** helpers.py:146-152 *)
Definition has_keyword_arg (params : list (string * param_kind)) (name : string) : bool :=
  existsb (fun p => String.eqb (fst p) name &&
                    match snd p with KEYWORD_ONLY | POSITIONAL_OR_KEYWORD => true | _ => false end) params.

(** ** Dict *)
(** helpers.py:16 *)
Definition Dict_cls : cls := ["Dict"; "Module"; "Representable"; "Mapping"; "Collection"; "Sized"; "Iterable"; "abc.Container"; "Generic"; "object"].

(** helpers.py:26-28 [Dict.__init__]; [items] is [dict( *args, **kwargs ).items()]. *)
Definition new_dict (w : world) (items : dict attr) : result (nat * world) :=
  let '(r, w1) := new_module w Dict_cls in
  do w2 <- assign_all w1 r items;
  Ok (r, w2).

(** What [d[key]] can be: a stored attribute as [Module.__getattribute__]
    returns it, the ModuleState, what a property of Module computes, or another
    class attribute (method). (helpers.py:30-31) *)
Inductive item : Type :=
| IStored (x : read_result)
| IModuleState
| IProperty (name : string)
| IMethod (name : string).

(** The properties of Module (module.py:500-519, 625): [object.__getattribute__]
    gives them precedence over [vars(self)]. *)
Definition module_properties : list string := ["init"; "is_initializing"; "apply"].

(** helpers.py:30-31 [__getitem__]: [getattr(self, key)]; 36-37 [__getattr__],
    called when that fails, fails again.  [methods] are the other names that
    resolve on the class. *)
Definition dict_getitem (methods : list string) (w : world) (r : nat) (key : string) : result item :=
  match get_obj w r with
  | None => Err OutOfModel
  | Some o =>
      if smem key module_properties then Ok (IProperty key)
      else match dget key (m_vars o) with
           | Some a => Ok (IStored (read_attr a))
           | None => if String.eqb key "_module__state" then Ok IModuleState
                     else if smem key methods then Ok (IMethod key)
                     else Err AttributeError
           end
  end.

(** helpers.py:33-34 [__setitem__]. *)
Definition dict_setitem (w : world) (r : nat) (key : string) (a : attr) : result world := setattr w r key a.

(** helpers.py:42-43 [__iter__]: all names in [vars(self)].  The ModuleState is
    the first of them (module.py:419) unless the Dict was made by merge, when it
    comes after the static fields and submodules; its position is not modelled
    in that case. *)
Definition dict_iter (w : world) (r : nat) : result (list string) :=
  match get_obj w r with
  | None => Err OutOfModel
  | Some o => Ok ("_module__state" :: keys (m_vars o))
  end.
(** helpers.py:45-46 [__len__]. *)
Definition dict_len (w : world) (r : nat) : result nat :=
  match get_obj w r with
  | None => Err OutOfModel
  | Some o => Ok (S (List.length (m_vars o)))
  end.

(** [collections.abc.Mapping.__contains__] and [Mapping.get], inherited: only a
    KeyError counts as absence. (inherited at helpers.py:16) *)
Definition dict_contains (methods : list string) (w : world) (r : nat) (key : string) : result bool :=
  match dict_getitem methods w r key with
  | Ok _ => Ok true
  | Err KeyError => Ok false
  | Err e => Err e
  end.
(** inherited at helpers.py:16 *)
Definition dict_get (methods : list string) (w : world) (r : nat) (key : string) (default : item) : result item :=
  match dict_getitem methods w r key with
  | Ok x => Ok x
  | Err KeyError => Ok default
  | Err e => Err e
  end.
