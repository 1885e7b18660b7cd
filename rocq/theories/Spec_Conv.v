(** Spec_Conv: vocabulary for the statements about convolutions. *)
From Coq Require Import ZArith QArith Qcanon.
From Verif Require Import PyBase TensorM LinearM.
Local Open Scope string_scope.
Local Open Scope nat_scope.
Local Open Scope list_scope.

(** The example at batch position [b] of an array (its remaining axes [rest]). *)
Definition example_at (x : tensor) (b rest : list nat) : tensor := mkT rest (fun t => t_at x (b ++ t)).

(** ceil (n / s) *)
Definition ceil_div (n s : nat) : nat := (n + s - 1) / s.

(** the kernel that is applied *)
Definition kernel_of (c : conv) : tensor := match cv_mask c with None => cv_kernel c | Some f => f (cv_kernel c) end.

(** strides or dilations given for [rank] spatial axes: absent they are 1 on every
    axis, an int is meant for every axis, a sequence is taken as it is *)
Inductive per_axis (rank : nat) : per_dim -> list nat -> Prop :=
  | axis_none : per_axis rank DNone (repeat 1 rank)
  | axis_int n : per_axis rank (DInt n) (repeat n rank)
  | axis_seq l : per_axis rank (DSeq l) l.

(** A convolution with [cin] input and [cout] output channels, [groups] groups,
    kernel sizes [ks], strides [ss] and kernel dilations [ds]. *)
Record conv_shape (c : conv) (ks ss ds : list nat) (cin cout : nat) : Prop := mkCS {
  cs_ks : cv_ks c = ks;
  cs_ss : per_axis (List.length ks) (cv_strides c) ss;
  cs_ds : per_axis (List.length ks) (cv_kdil c) ds;
  cs_id : per_axis (List.length ks) (cv_idil c) (repeat 1 (List.length ks));
  cs_len_s : List.length ss = List.length ks;
  cs_len_d : List.length ds = List.length ks;
  cs_pos : Forall (fun n => 0 < n) ks /\ Forall (fun n => 0 < n) ss /\ Forall (fun n => 0 < n) ds;
  cs_groups : 0 < cv_groups c /\ cin mod cv_groups c = 0 /\ cout mod cv_groups c = 0;
  cs_in : cv_in c = cin;
  cs_kernel : t_shape (kernel_of c) = ks ++ [cin / cv_groups c; cout];
  cs_bias : forall t, cv_bias c = Some t -> t_shape t = [cout] }.

(** The value of a convolution: [read kk] is the input position read by kernel
    position [kk], if any; [b] the batch position, [f] the output channel. *)
Definition conv_value (c : conv) (x : tensor) (cin cout : nat) (read : list nat -> option (list nat)) (b : list nat) (f : nat) : Qc :=
  let cg := cin / cv_groups c in
  let g := f / (cout / cv_groups c) in
  (qsum (map (fun kk => match read kk with
                        | None => 0
                        | Some p => qsum (map (fun ch => t_at x (b ++ p ++ [(g * cg + ch)%nat]) * t_at (kernel_of c) (kk ++ [ch; f])) (seq 0 cg))
                        end) (all_idx (cv_ks c)))
   + match cv_bias c with Some t => t_at t [f] | None => 0 end)%Qc.

(** Periodic boundary: output [o], kernel position [k] read position
    o * stride + k * dilation - (K - 1) / 2 modulo the size, K the dilated kernel
    size. *)
Fixpoint circular_read (ns ks ds ss o kk : list nat) : list nat :=
  match ns, ks, ds, ss, o, kk with
  | n :: ns, k :: ks, d :: ds, s :: ss, i :: o, j :: kk =>
      Z.to_nat ((Z.of_nat (i * s + j * d) - Z.of_nat ((k - 1) * d / 2)) mod Z.of_nat n) :: circular_read ns ks ds ss o kk
  | _, _, _, _, _, _ => []
  end.
(** Causal: output [t], kernel position [j] read time t * stride - (k - 1 - j) *
    dilation, if that is not negative. *)
Definition causal_read (k d s t j : nat) : option nat :=
  if (k - 1 - j) * d <=? t * s then Some (t * s - (k - 1 - j) * d) else None.

(** rotation of every position by [hs] *)
Fixpoint rotate (ns hs p : list nat) : list nat :=
  match ns, hs, p with
  | n :: ns, h :: hs, i :: p => (i + h) mod n :: rotate ns hs p
  | _, _, _ => []
  end.

(** what canonicalize_padding accepts *)
Definition pad_item (p : pad_val) (r : pad_val * pad_val) : Prop :=
  (exists z, p = PInt z /\ r = (PInt z, PInt z)) \/ (exists a b, p = PTuple [a; b] /\ r = (a, b)).
Inductive pad_accepts (rank : nat) : pad_val -> lax_pad -> Prop :=
| pa_str s : pad_accepts rank (PStr s) (LStr s)
| pa_int z : pad_accepts rank (PInt z) (LPairs (repeat (PInt z, PInt z) rank))
| pa_tuple l r : List.length l = rank -> Forall2 pad_item l r -> pad_accepts rank (PTuple l) (LPairs r)
| pa_list l r : List.length l = rank -> Forall2 pad_item l r -> pad_accepts rank (PList l) (LPairs r).
(** a pair of ints *)
Definition int_pair (r : pad_val * pad_val) : Prop := exists a b, r = (PInt a, PInt b).

(** ** Explicit padding *)
(** size of the dilated kernel *)
Definition span (k d : nat) : nat := (k - 1) * d + 1.
(** output size for [lo] and [hi] extra positions (possibly negative) *)
Definition padded_size (n k d s : nat) (pad : Z * Z) : nat :=
  let room := (Z.of_nat n + fst pad + snd pad - Z.of_nat (span k d))%Z in
  if (room <? 0)%Z then 0 else S (Z.to_nat (room / Z.of_nat s)).
Fixpoint padded_sizes (ns ks ds ss : list nat) (pads : list (Z * Z)) : list nat :=
  match ns, ks, ds, ss, pads with
  | n :: ns, k :: ks, d :: ds, s :: ss, p :: pads => padded_size n k d s p :: padded_sizes ns ks ds ss pads
  | _, _, _, _, _ => []
  end.
(** output [o], kernel position [k] read o * stride + k * dilation - lo, if that is a
    position of the input *)
Fixpoint padded_read (ns ds ss : list nat) (pads : list (Z * Z)) (o kk : list nat) : option (list nat) :=
  match ns, ds, ss, pads, o, kk with
  | n :: ns, d :: ds, s :: ss, p :: pads, i :: o, j :: kk =>
      let q := (Z.of_nat (i * s + j * d) - fst p)%Z in
      if (q <? 0)%Z then None
      else if (Z.of_nat n <=? q)%Z then None
      else match padded_read ns ds ss pads o kk with Some r => Some (Z.to_nat q :: r) | None => None end
  | _, _, _, _, _, _ => Some []
  end.
(** missing size for an output of size ceil (n / s), split with the larger half last *)
Definition same_pads (n k d s : nat) (pad : Z * Z) : Prop :=
  let total := Z.max 0 ((Z.of_nat (ceil_div n s) - 1) * Z.of_nat s + Z.of_nat (span k d) - Z.of_nat n) in
  fst pad = (total / 2)%Z /\ (fst pad + snd pad = total)%Z.
Inductive all_same_pads : list nat -> list nat -> list nat -> list nat -> list (Z * Z) -> Prop :=
| asp_nil : all_same_pads [] [] [] [] []
| asp_cons n k d s p ns ks ds ss ps : same_pads n k d s p -> all_same_pads ns ks ds ss ps ->
    all_same_pads (n :: ns) (k :: ks) (d :: ds) (s :: ss) (p :: ps).
(** the padding of each axis that a padding argument asks for *)
Inductive asks (ns ks ds ss : list nat) : pad_val -> list (Z * Z) -> Prop :=
| ask_valid : asks ns ks ds ss (PStr "VALID") (repeat (0, 0)%Z (List.length ns))
| ask_same ps : all_same_pads ns ks ds ss ps -> asks ns ks ds ss (PStr "SAME") ps
| ask_pairs p ps : pad_accepts (List.length ns) p (LPairs (map (fun q => (PInt (fst q), PInt (snd q))) ps)) -> asks ns ks ds ss p ps.
