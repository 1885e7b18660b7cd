(** TensorM: arrays of exact rational numbers.

    Floating point is idealised: entries are rationals ([Qc]), so nothing here
    says anything about rounding, overflow, NaN or dtypes. *)
From Coq Require Import ZArith QArith Qcanon.
From Verif Require Import PyBase.
Local Open Scope nat_scope.
Local Open Scope list_scope.

(** a shape, and the entry at every index (only indices in range matter) (jax arrays as used in nn/linear.py, nn/normalization.py:35-148 and nn/stochastic.py:29-72; entries are rational numbers instead of floats) *)
Record tensor := mkT { t_shape : list nat; t_at : list nat -> Qc }.

(** jax arrays as used in nn/linear.py, nn/normalization.py:35-148 and nn/stochastic.py:29-72; entries are rational numbers instead of floats *)
Definition in_range (shape idx : list nat) : Prop := Forall2 lt idx shape.
(** equality of arrays. (jax arrays as used in nn/linear.py, nn/normalization.py:35-148 and nn/stochastic.py:29-72; entries are rational numbers instead of floats) *)
Definition teq (x y : tensor) : Prop :=
  t_shape x = t_shape y /\ forall idx, in_range (t_shape x) idx -> t_at x idx = t_at y idx.

(** all indices of a shape, in row-major order. (jax arrays as used in nn/linear.py, nn/normalization.py:35-148 and nn/stochastic.py:29-72; entries are rational numbers instead of floats) *)
Fixpoint all_idx (shape : list nat) : list (list nat) :=
  match shape with
  | [] => [[]]
  | n :: s => flat_map (fun i => map (cons i) (all_idx s)) (seq 0 n)
  end.

(** [jnp.mean], normalization.py:35-94 *)
Fixpoint qsum (l : list Qc) : Qc := match l with [] => 0%Qc | x :: t => (x + qsum t)%Qc end.
(** [jnp.mean], normalization.py:35-94 *)
Definition qnat (n : nat) : Qc := Q2Qc (inject_Z (Z.of_nat n)).
(** average of a list of numbers (0 for the empty list, where jax gives NaN) ([jnp.mean], normalization.py:35-94) *)
Definition average (l : list Qc) : Qc := (qsum l / qnat (List.length l))%Qc.
(** [jnp.maximum], normalization.py:35-94 *)
Definition qmax (a b : Qc) : Qc := if Qclt_le_dec a b then b else a.

(** python's [l[i]] and [l[i] = v] for a possibly negative int [i]. (used at normalization.py:97-148) *)
Definition py_index (n : nat) (i : Z) : result nat :=
  let j := if (i <? 0)%Z then (Z.of_nat n + i)%Z else i in
  if ((0 <=? j) && (j <? Z.of_nat n))%Z then Ok (Z.to_nat j) else Err IndexError.

(** [jnp.reshape], [jnp.expand_dims], normalization.py:97-148, linear.py:245-330 *)
Definition prod (l : list nat) : nat := fold_right Nat.mul 1 l.
(** position of an index in row-major order. ([jnp.reshape], [jnp.expand_dims], normalization.py:97-148, linear.py:245-330) *)
Fixpoint flat_pos (shape idx : list nat) : nat :=
  match shape, idx with
  | n :: s, i :: t => i * prod s + flat_pos s t
  | _, _ => 0
  end.
(** the index at a position. ([jnp.reshape], [jnp.expand_dims], normalization.py:97-148, linear.py:245-330) *)
Fixpoint unflat (shape : list nat) (p : nat) : list nat :=
  match shape with
  | [] => []
  | n :: s => p / prod s :: unflat s (p mod prod s)
  end.
(** [jnp.reshape] to a shape of the same size: row-major order is kept. ([jnp.reshape], [jnp.expand_dims], normalization.py:97-148, linear.py:245-330) *)
Definition reshape (x : tensor) (shape : list nat) : result tensor :=
  if Nat.eqb (prod shape) (prod (t_shape x))
  then Ok (mkT shape (fun idx => t_at x (unflat (t_shape x) (flat_pos shape idx))))
  else Err TypeError.
