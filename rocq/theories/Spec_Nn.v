(** Spec_Nn: vocabulary for the statements about nn layers. *)
From Coq Require Import ZArith QArith Qcanon.
From Verif Require Import PyBase ModuleM ContextM TensorM NnM.
Local Open Scope string_scope.
Local Open Scope nat_scope.
Local Open Scope list_scope.

(** The value of a flag: given in the call, else on the module, else in the
    context. *)
Definition flag_of (call modl : option bool) (ctx : option context) (name : string) : option bool :=
  match call with
  | Some b => Some b
  | None => match modl with
            | Some b => Some b
            | None => match ctx with
                      | Some c => dget name (x_flags c)
                      | None => None
                      end
            end
  end.

(** [d] names axis [i] of an array with [rank] axes; negative numbers count from
    the end. *)
Definition names_axis (rank : nat) (d : Z) (i : nat) : bool :=
  (Z.eqb d (Z.of_nat i) || Z.eqb (d + Z.of_nat rank) (Z.of_nat i))%bool.
Definition valid_axis (rank : nat) (d : Z) : Prop := (- Z.of_nat rank <= d < Z.of_nat rank)%Z.
(** [l] with every named position replaced by [v] *)
Definition set_axes (dims : list Z) (v : nat) (l : list nat) : list nat :=
  map (fun i => if existsb (fun d => names_axis (List.length l) d i) dims then v else nth i l 0) (seq 0 (List.length l)).
(** two indices that differ only along the named axes *)
Definition same_outside (dims : list Z) (idx idx' : list nat) : Prop :=
  List.length idx = List.length idx' /\
  forall i, i < List.length idx ->
    (forall d, In d dims -> names_axis (List.length idx) d i = false) -> nth i idx 0 = nth i idx' 0.

(** one stream's counter advanced by one, nothing else changed *)
Definition one_draw (ss ss' : list stream) (i : nat) : Prop :=
  exists s, nth_error ss i = Some s /\
    nth_error ss' i = Some (mkStream (s_key s) (s_count s + 1) (s_path s)) /\
    List.length ss' = List.length ss /\ forall j, j <> i -> nth_error ss' j = nth_error ss j.

(** ** Normalization *)

(** the axis a number names *)
Definition axis_of (rank : nat) (d : Z) : nat := Z.to_nat (if (d <? 0)%Z then d + Z.of_nat rank else d)%Z.
(** the entries of [x] with coordinate [f] on axis [a] *)
Definition channel (x : tensor) (a f : nat) : list Qc :=
  map (t_at x) (filter (fun idx => Nat.eqb (nth a idx 0) f) (all_idx (t_shape x))).
Definition mean_of (l : list Qc) : Qc := (qsum l / qnat (List.length l))%Qc.
Definition variance_of (l : list Qc) : Qc := mean_of (map (fun e => (e - mean_of l) * (e - mean_of l))%Qc l).

(** Statistics and parameters are vectors of length [n]. *)
Definition is_vec (n : nat) (t : tensor) : Prop := t_shape t = [n].
Definition bn_wf (n : nat) (b : batchnorm) : Prop :=
  is_vec n (bn_mean b) /\ is_vec n (bn_var b) /\
  (forall t, bn_scale b = Some t -> is_vec n t) /\ (forall t, bn_bias b = Some t -> is_vec n t).
(** The input has [n] features on the layer's axis, and no axis of size 0. *)
Definition bn_fits (n : nat) (b : batchnorm) (x : tensor) : Prop :=
  valid_axis (List.length (t_shape x)) (bn_axis b) /\
  nth (axis_of (List.length (t_shape x)) (bn_axis b)) (t_shape x) 0 = n /\
  Forall (fun m => 0 < m) (t_shape x).

(** A history of calls: input, flag, context. *)
Definition bn_op : Type := tensor * option bool * option context.
Fixpoint bn_run (rsqrt : Qc -> Qc) (b : batchnorm) (ops : list bn_op) : batchnorm :=
  match ops with
  | [] => b
  | (x, ura, ctx) :: t => bn_run rsqrt (fst (bn_call rsqrt b x ura ctx)) t
  end.
(** the inputs of the calls in training mode, in order *)
Definition training_inputs (modl : option bool) (ops : list bn_op) : list tensor :=
  flat_map (fun op => match op with
                      | (x, ura, ctx) => match flag_of ura modl ctx "use_running_average" with
                                         | Some false => [x]
                                         | _ => []
                                         end
                      end) ops.
(** exponential moving average of [v_0 .. v_(t-1)] started at [init]:
    m^t init + (1-m) sum_i m^(t-1-i) v_i *)
Definition moving_average (m init : Qc) (vs : list Qc) : Qc :=
  let t := List.length vs in
  (m ^ t * init + (1 - m) * qsum (map (fun i => m ^ (t - 1 - i) * nth i vs 0) (seq 0 t)))%Qc.

(** [idx'] agrees with [idx] on every axis not named in [red] *)
Definition same_rowb (red : list Z) (idx idx' : list nat) : bool :=
  forallb (fun i => existsb (fun d => names_axis (List.length idx) d i) red || Nat.eqb (nth i idx 0) (nth i idx' 0))
          (seq 0 (List.length idx)).
(** the entries normalized together with the one at [idx] *)
Definition row (x : tensor) (red : list Z) (idx : list nat) : list Qc :=
  map (t_at x) (filter (same_rowb red idx) (all_idx (t_shape x))).
(** axes that exist and are different *)
Definition axes_ok (rank : nat) (red : list Z) : Prop :=
  (forall d, In d red -> valid_axis rank d) /\ NoDup (map (axis_of rank) red).
