(** Spec_PNorm: vocabulary for normalization over several devices. *)
From Coq Require Import ZArith QArith Qcanon.
From Verif Require Import PyBase ModuleM ContextM TensorM NnM Spec_Nn PNormM.
Local Open Scope string_scope.
Local Open Scope nat_scope.
Local Open Scope list_scope.

(** [axis_index_groups] for [n] devices: every device is in one group, and the
    groups have equal size. *)
Definition groups_ok (n : nat) (groups : option (list (list nat))) : Prop :=
  match groups with
  | None => True
  | Some gs => NoDup (List.concat gs) /\ (forall d, In d (List.concat gs) <-> d < n) /\
               exists k, forall g, In g gs -> List.length g = k
  end.
(** [g] is the group of device [d]; without groups all devices are one *)
Definition is_group (n : nat) (groups : option (list (list nat))) (d : nat) (g : list nat) : Prop :=
  match groups with
  | None => g = seq 0 n
  | Some gs => In g gs /\ In d g
  end.

(** the entries of feature [f] in the inputs of a group, together *)
Definition joint_channel (xs : list tensor) (g : list nat) (a f : nat) : list Qc :=
  flat_map (fun e => channel (on_device xs e) a f) g.
(** the entries normalized together with the one at [idx] on any device of the group *)
Definition joint_row (xs : list tensor) (g : list nat) (red : list Z) (idx : list nat) : list Qc :=
  flat_map (fun e => row (on_device xs e) red idx) g.

(** Devices that run one program: same settings, inputs of one shape. *)
Definition bn_devices_ok (n : nat) (devs : list (batchnorm * tensor)) : Prop :=
  forall b x b' x', In (b, x) devs -> In (b', x') devs ->
    bn_wf n b /\ bn_fits n b x /\ t_shape x' = t_shape x /\
    bn_ura b' = bn_ura b /\ bn_axis b' = bn_axis b /\ bn_momentum b' = bn_momentum b /\ bn_epsilon b' = bn_epsilon b /\
    (bn_scale b' = None <-> bn_scale b = None) /\ (bn_bias b' = None <-> bn_bias b = None).

Definition ln_devices_ok (n : nat) (devs : list (layernorm * tensor)) : Prop :=
  forall l x l' x', In (l, x) devs -> In (l', x') devs ->
    (forall t, ln_scale l = Some t -> is_vec n t) /\ (forall t, ln_bias l = Some t -> is_vec n t) /\ t_shape x' = t_shape x /\
    ln_red l' = ln_red l /\ ln_feat l' = ln_feat l /\ ln_epsilon l' = ln_epsilon l /\
    (ln_scale l' = None <-> ln_scale l = None) /\ (ln_bias l' = None <-> ln_bias l = None).

(** One training or evaluation step on all devices, and histories of them.  A step
    that raises changes nothing. *)
Definition bn_op_on : Type := list tensor * option bool * option context.
Fixpoint bn_run_on (rsqrt : Qc -> Qc) (groups : option (list (list nat))) (bs : list batchnorm) (ops : list bn_op_on) : list batchnorm :=
  match ops with
  | [] => bs
  | (xs, ura, ctx) :: t =>
      bn_run_on rsqrt groups (match bn_call_on rsqrt groups (combine bs xs) ura ctx with
                              | Ok out => map fst out
                              | Err _ => bs
                              end) t
  end.
(** the inputs of the training steps *)
Definition training_steps (modl : option bool) (ops : list bn_op_on) : list (list tensor) :=
  flat_map (fun op => match op with
                      | (xs, ura, ctx) => match flag_of ura modl ctx "use_running_average" with
                                          | Some false => [xs]
                                          | _ => []
                                          end
                      end) ops.

(** the layers of one program: equal settings *)
Definition bn_replicas (n : nat) (bs : list batchnorm) : Prop :=
  forall b b', In b bs -> In b' bs ->
    bn_wf n b /\ bn_ura b' = bn_ura b /\ bn_axis b' = bn_axis b /\ bn_momentum b' = bn_momentum b /\ bn_epsilon b' = bn_epsilon b /\
    (bn_scale b' = None <-> bn_scale b = None) /\ (bn_bias b' = None <-> bn_bias b = None).
(** the inputs of one step: one for each device, of one shape *)
Definition step_fits (n : nat) (bs : list batchnorm) (xs : list tensor) : Prop :=
  List.length xs = List.length bs /\
  (forall x x', In x xs -> In x' xs -> t_shape x' = t_shape x) /\
  forall b x, In b bs -> In x xs -> bn_fits n b x.

(** a statistic of feature [f] over the inputs of the group [g], for every step *)
Definition step_values (stat : list Qc -> Qc) (axis : Z) (g : list nat) (f : nat) (steps : list (list tensor)) : list Qc :=
  map (fun xs => stat (joint_channel xs g (axis_of (List.length (t_shape (on_device xs 0))) axis) f)) steps.

(** the [d]-th of the pieces of length [m] that [x] is cut into along axis 0 *)
Definition shard (m : nat) (x : tensor) (d : nat) : tensor :=
  mkT (match t_shape x with [] => [] | _ :: s => m :: s end)
      (fun idx => match idx with [] => t_at x [] | i :: t => t_at x (d * m + i :: t) end).
