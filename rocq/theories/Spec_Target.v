(** Spec_Target: what a moving average of a model is. *)
From Verif Require Import PyBase ValuesM StateM ModuleM TransformM Spec_Module Spec_Prog Spec_TrainLoop Spec_Early.
Local Open Scope string_scope.
Local Open Scope list_scope.

(** [a], mixed with each value of the list in turn; a Variable keeps its class and
    metadata. *)
Definition mean (mix : pyval -> pyval -> pyval) (a : attr) (l : list attr) : attr :=
  fold_left (fun acc b => with_value acc (mix (value acc) (value b))) l a.
(** [avg] has the entries of the State of [r] in [w]; each is the mean of its value there and
    of its values after the epochs of the log. *)
Definition averaged (mix : pyval -> pyval -> pyval) (w : world) (r : nat) (log : list (pyval * world)) (avg : state) : Prop :=
  exists s, get_state w r = Ok s /\ keys avg = keys s /\
    forall k a, dget k s = Some a -> exists l,
      Forall2 (fun (x : pyval * world) b => exists sx, get_state (snd x) r = Ok sx /\ dget k sx = Some b) log l /\
      dget k avg = Some (mean mix a l).
(** Mixing two arrays gives an array. *)
Definition gives_nodes (w : world) (mix : pyval -> pyval -> pyval) : Prop :=
  forall x y, node_value w (ARaw x) -> node_value w (ARaw y) -> is_submodule (ARaw x) = false -> is_submodule (ARaw y) = false ->
    node_value w (ARaw (mix x y)) /\ is_submodule (ARaw (mix x y)) = false.
(** The Module [t] of [w'] reads like [r] in [w]. *)
Definition reads_like (w : world) (r : nat) (w' : world) (t : nat) : Prop :=
  (forall q, look w' t q = look w r q) /\ (forall q q', follow w' t q = follow w' t q' <-> follow w r q = follow w r q') /\
  get_state w' t = get_state w r /\ get_module_def w' t = get_module_def w r.
(** The two have no Module in common. *)
Definition separate (w : world) (r t : nat) : Prop := forall x, reaches w r x -> reaches w t x -> False.
