(** Training written on the model itself: no transforms, no parts. *)
From Verif Require Import PyBase ValuesM FiltersM StateM ModuleM TransformM Spec_Module Spec_Prog GradFunM Spec_GradFun.
Local Open Scope string_scope.
Local Open Scope list_scope.

Definition value (a : attr) : pyval := match a with ARaw v => v | ACont c => c_val c end.
(** arrays stay arrays, Variables keep class and metadata *)
Definition same_shape (a b : attr) : Prop :=
  match a, b with
  | ARaw _, ARaw _ => True
  | ACont c, ACont d => c_cls d = c_cls c /\ c_meta d = c_meta c
  | _, _ => False
  end.
(** The forward pass from [w] to [w1] only wrote new values into existing node
    attributes. *)
Definition steady (w w1 : world) (r : nat) : Prop :=
  names_ok w1 r /\ get_module_def w1 r = get_module_def w r /\
  forall s s1, get_state w r = Ok s -> get_state w1 r = Ok s1 ->
    Forall2 (fun x y => fst x = fst y /\ same_shape (snd x) (snd y)) s s1.
Definition variables (s : state) : Prop := forall k a, dget k s = Some a -> exists c, a = ACont c.

(** every parameter moved along its derivative [G], taken at [before] *)
Definition moved (sgd : pyval -> pyval -> pyval) (G : string -> attr -> pyval) (before after : state) : state :=
  map (fun ka => (fst ka, with_value (snd ka) (sgd (value (snd ka)) (match dget (fst ka) before with Some a => G (fst ka) a | None => PyNone end)))) after.

(** The filter looks at the path of a Variable, its class and its metadata, not at its
    value. *)
Definition structural (wrt : filt) : Prop :=
  exists p, to_predicate wrt = Ok p /\
    forall k c d, c_cls d = c_cls c -> c_meta d = c_meta c -> p k (ACont d) = p k (ACont c).

(** [trained D sgd wrt Q r w losses w']: for one loss after the other, the model [r] is run and
    its parameters, the Variables that [wrt] selects, are moved along the derivatives of the
    loss at the values they had before.  [Q] may ask more of each forward pass. *)
Inductive trained (D : grad_op) (sgd : pyval -> pyval -> pyval) (wrt : filt) (Q : world -> world -> Prop) (r : nat) : world -> list (prog pyval) -> world -> Prop :=
| tr_done w : trained D sgd wrt Q r w [] w
| tr_step w f diff w1 out params w2 l w3 :
    ok_prog f -> module_filter w r wrt [] = Ok (One diff) -> variables diff ->
    run f w [r] = (w1, Ok out) -> steady w w1 r -> Q w w1 ->
    module_filter w1 r wrt [] = Ok (One params) -> variables params ->
    update_state w1 r (UStates (One (moved sgd (D (loss_with false f w r) diff) diff params))) = (w2, Ok tt) ->
    trained D sgd wrt Q r w2 l w3 ->
    trained D sgd wrt Q r w (f :: l) w3.
Definition anything (w w1 : world) : Prop := True.

(** What the functional loop needs in addition: all nodes of the model are Params or
    arrays, and the forward pass leaves the Params alone. *)
Definition params_alone (r : nat) (w w1 : world) : Prop :=
  module_filter w1 r (FType "Param") [] = module_filter w r (FType "Param") [] /\
  forall s k a, get_state w1 r = Ok s -> dget k s = Some a -> isinstance a "Param" = negb (isinstance a "jax.Array" || isinstance a "numpy.ndarray").
