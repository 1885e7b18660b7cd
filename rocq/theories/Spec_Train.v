(** Spec_Train: what a TrainState should do. *)
From Verif Require Import PyBase ValuesM Spec_Eq PytreeM Spec_Pytree PtreeM TrainM.
Local Open Scope string_scope.
Local Open Scope list_scope.

(** The field [n] of [o] has the value [v], in a container or not. *)
Definition holds (o : pobj) (n : string) (v : pyval) : Prop :=
  dget n (p_vars o) = Some (FAttr (ARaw v)) \/
  exists c, dget n (p_vars o) = Some (FAttr (ACont c)) /\ c_val c = v.
(** ... in a TreeNode, so that jax looks into it. *)
Definition holds_node (o : pobj) (n : string) (v : pyval) : Prop :=
  exists c, dget n (p_vars o) = Some (FAttr (ACont c)) /\ c_cls c = TreeNode_cls /\ c_meta c = [] /\ c_val c = v.

(** A TrainState with these contents. *)
Definition train_obj (o : pobj) (mdef params tx opt step : pyval) : Prop :=
  p_class o = TrainState_cls /\ wf_fields o /\ sealed o /\ fields_sorted o /\
  (forall n l, dget n (p_vars o) = Some (FNames l) -> n = F_SORTED) /\
  dget "moduledef" (p_vars o) = Some (FAttr (ARaw mdef)) /\ dget "tx" (p_vars o) = Some (FAttr (ARaw tx)) /\
  holds_node o "params" params /\ holds_node o "opt_state" opt /\ holds_node o "step" step.

(** The optimizer on its own: the parameters and the optimizer state after a list of
    gradients. *)
Section Opt.
Variable update : pyval -> pyval -> pyval -> result (pyval * pyval).
Variable apply_updates : pyval -> pyval -> result pyval.
Inductive opt_run : pyval -> pyval -> list pyval -> pyval -> pyval -> Prop :=
| opt_nil p s : opt_run p s [] p s
| opt_cons p s g u s1 p1 gs p2 s2 :
    update g s p = Ok (u, s1) -> apply_updates p u = Ok p1 -> opt_run p1 s1 gs p2 s2 ->
    opt_run p s (g :: gs) p2 s2.
End Opt.
(** [n] applications of [+ 1]. *)
Inductive adds (add_one : pyval -> result pyval) : nat -> pyval -> pyval -> Prop :=
| adds_O x : adds add_one 0 x x
| adds_S n x y z : add_one x = Ok y -> adds add_one n y z -> adds add_one (S n) x z.

(** Reserved names: parameters of the methods and the fields they set. *)
Definition reserved : list string :=
  ["self"; "grads"; "moduledef"; "params"; "tx"; "opt_state"; "step"].

(** The value of a field after the keyword arguments [kws] of successive calls: the
    last one given, otherwise the old one. *)
Definition last_given (n : string) (kws : list (dict attr)) (old : pyval) : pyval :=
  fold_left (fun v kw => match dget n kw with Some (ARaw x) => x | _ => v end) kws old.

(** The object as a jax pytree. *)
Definition tree_of_field (f : pfield) : ptree :=
  match f with
  | FAttr (ARaw v) => TVal v
  | FAttr (ACont c) => TBox (c_cls c) (c_meta c) (TVal (c_val c))
  | FNames l => TNames l
  end.
Definition tree_of (o : pobj) : ptree :=
  TObj (p_class o) (map (fun nf => (fst nf, tree_of_field (snd nf))) (p_vars o)).
