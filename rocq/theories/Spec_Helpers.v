(** Specification vocabulary for nnx.Sequence and nnx.Dict. *)
From Coq Require Import ZArith.
From Verif Require Import PyBase ValuesM Spec_Eq StateM ModuleM HelpersM Spec_Module.
Local Open Scope string_scope.
Local Open Scope list_scope.

(** What reading an attribute that was assigned [a] gives: the value of a
    container (or what its [unbox_fn] makes of it), anything else itself. *)
Inductive reads_as : attr -> read_result -> Prop :=
| ra_raw v : reads_as (ARaw v) (RVal v)
| ra_cont c : dget "unbox_fn" (c_meta c) = None -> reads_as (ACont c) (RVal (c_val c))
| ra_unbox c fn : dget "unbox_fn" (c_meta c) = Some fn -> reads_as (ACont c) (RUnbox fn c).

(** [x] read in [w] and [y] read in [w'] are the same value, where a submodule
    stands for everything that can be seen below it. *)
Definition same_read (w : world) (x : read_result) (w' : world) (y : read_result) : Prop :=
  x = y \/ exists a b, x = RVal (PyMod a) /\ y = RVal (PyMod b) /\ forall path, look w a path = look w' b path.

(** the values a list of attributes can be stored: containers made by their
    constructors and existing submodules *)
Definition storable (w : world) (xs : list attr) : Prop := Forall (attr_ok w) xs.

(** everything that existed before is unchanged *)
Definition untouched (w w' : world) : Prop := forall y o, get_obj w y = Some o -> get_obj w' y = Some o.

(** [len], indexing (also out of range) and iteration of the Sequence [r] are
    those of a list of which [R] relates each element to what is read *)
Definition acts_as_list (w : world) (r : nat) (R : attr -> read_result -> Prop) (xs : list attr) : Prop :=
  seq_len w r = Ok (List.length xs) /\
  (forall i a, nth_error xs i = Some a -> exists v, seq_getitem w r (Z.of_nat i) = Ok v /\ R a v) /\
  (forall z, (Z.of_nat (List.length xs) <= z)%Z -> seq_getitem w r z = Err IndexError) /\
  (exists vs, seq_iter w r = Ok vs /\ Forall2 R xs vs).

