(** HashM: models [==] and [hash] of the objects of nnx: containers (nnx/containers.py),
    States (nnx/state.py), UUIDs (nnx/ids.py), Modules and ModuleDefs (nnx/module.py). *)
From Coq Require Import ZArith.
From Verif Require Import PyBase ValuesM FiltersM StateM ModuleM JitArgsM StateMapM.
Local Open Scope string_scope.
Local Open Scope list_scope.

(** An object that can be compared and hashed.  [OVal] includes Modules ([PyMod]).  The
    [int] that [MRef] stands for is no ModuleDef: [ODef] is used with [MDef]. (what [hash] and [==] are applied to: containers.py:59-62, 176-177, module.py:111-121, 470-471) *)
Inductive obj : Type :=
| OVal (v : pyval)
| OBox (c : container)
| OState (s : state)
| OMap (d : dict attr)
| OUuid (i : nat)
| ODef (d : mdef).

(** [a == b].  Modules have no [__eq__]: they are compared by identity ([pyval_eqb]).
    containers.py:59-62 [Container.__eq__]; ids.py:51-52 [UUID.__eq__]; module.py:114-121
    [ModuleDef.__eq__]; State inherits [Mapping.__eq__], and a dict on the left of a State
    leaves the comparison to the State. *)
Definition obj_eqb (a b : obj) : bool :=
  match a, b with
  | OVal x, OVal y => pyval_eqb x y
  | OBox c, OBox d => cont_eqb c d
  | OState s, OState t | OState s, OMap t | OMap t, OState s => dict_attr_eqb s t
  | OMap s, OMap t => dict_attr_eqb s t
  | OUuid i, OUuid j => Nat.eqb j i
  | ODef d, ODef e => mdef_eqb d e
  | _, _ => false
  end.

Section Hash.
(** The hashes python gives to None, numbers, strings, classes and other objects, and how it
    hashes a tuple from the hashes of its elements. *)
Variables (h_none : nat) (h_num : Z -> nat) (h_str : string -> nat) (h_cls : cls -> nat) (h_obj : cls -> nat -> nat)
          (mix : list nat -> nat).
(** the heap, for the ids of Modules *)
Variable w : world.

(** ids.py:54-55 [UUID.__hash__] *)
Definition uuid_hash (i : nat) : nat := h_num (Z.of_nat i).
(** [hash(v)]; module.py:470-471 [Module.__hash__] *)
Fixpoint val_hash (v : pyval) : result nat :=
  match v with
  | PyNone => Ok h_none
  | PyBool b => Ok (h_num (Z.b2z b))
  | PyInt z => Ok (h_num z)
  | PyStr s => Ok (h_str s)
  | PyTuple l =>
      rmap mix ((fix go (l : list pyval) : result (list nat) :=
                   match l with [] => Ok [] | x :: t => do h <- val_hash x; do hs <- go t; Ok (h :: hs) end) l)
  | PyMod r => match get_obj w r with Some o => Ok (uuid_hash (m_id o)) | None => Err OutOfModel end
  | PyObj c i => if existsb (fun n => smem n c) no_hash_classes then Err TypeError else Ok (h_obj c i)
  end.
(** containers.py:59-62 defines [__eq__] without [__hash__], so a container has no hash;
    containers.py:176-177 [Static.__hash__].  Subclasses that define [__eq__] or [__hash__]
    themselves are not modelled. *)
Definition cont_hash (c : container) : result nat :=
  if smem "Static" (c_cls c) then val_hash (c_val c) else Err TypeError.
(** containers.py:59-62, 176-177 *)
Definition attr_hash (a : attr) : result nat :=
  match a with ARaw v => val_hash v | ACont c => cont_hash c end.
(** module.py:111-112 [ModuleDef.__hash__]: of the tuple (type, submodules, static_fields). *)
Fixpoint def_hash (d : mdef) : result nat :=
  match d with
  | MRef i => Ok (h_num (Z.of_nat i))
  | MDef c _ subs st _ =>
      do hs <- (fix go (l : list (string * mdef)) : result (list nat) :=
                  match l with [] => Ok [] | (n, x) :: t => do h <- def_hash x; do hs <- go t; Ok (mix [h_str n; h] :: hs) end) subs;
      do ht <- rmapM (fun na => do h <- attr_hash (snd na); Ok (mix [h_str (fst na); h])) st;
      Ok (mix [h_cls c; mix hs; mix ht])
  end.
(** [Mapping] defines [__eq__] without [__hash__]. (module.py:111-112, 470-471, containers.py:176-177, state.py:17) *)
Definition obj_hash (a : obj) : result nat :=
  match a with
  | OVal v => val_hash v
  | OBox c => cont_hash c
  | OState _ | OMap _ => Err TypeError
  | OUuid i => Ok (uuid_hash i)
  | ODef d => def_hash d
  end.

(** A python dict with objects as keys: entries with the hash their key had when it was
    put in.  A key is found where the hash is the same and [==] holds. (Python's dict with such keys, for example jax's caches that module.py:111-121 is written for) *)
Definition table (V : Type) : Type := list (nat * obj * V).
(** Python's dict with such keys, for example jax's caches that module.py:111-121 is written for *)
Definition hits {V} (h : nat) (k : obj) (e : nat * obj * V) : bool := Nat.eqb (fst (fst e)) h && obj_eqb (snd (fst e)) k.
(** Python's dict with such keys, for example jax's caches that module.py:111-121 is written for *)
Definition table_get {V} (t : table V) (k : obj) : result (option V) :=
  do h <- obj_hash k; Ok (option_map snd (find (hits h k) t)).
(** Python's dict with such keys, for example jax's caches that module.py:111-121 is written for *)
Fixpoint put {V} (t : table V) (h : nat) (k : obj) (v : V) : table V :=
  match t with
  | [] => [(h, k, v)]
  | e :: r => if hits h k e then (fst e, v) :: r else e :: put r h k v
  end.
(** Python's dict with such keys, for example jax's caches that module.py:111-121 is written for *)
Definition table_set {V} (t : table V) (k : obj) (v : V) : result (table V) :=
  do h <- obj_hash k; Ok (put t h k v).
End Hash.
