(** Spec_Dataclass: what constructing a dataclass Module should do. *)
From Verif Require Import PyBase ValuesM Spec_Eq StateM ModuleM Spec_Module DataclassM.
Local Open Scope string_scope.
Local Open Scope list_scope.

(** The parameters of the constructor: the names of the fields with [init=True]. *)
Definition parameters (d : dclass) : list string := keys (filter (fun nf => f_init (snd nf)) (d_fields d)).
Fixpoint position (n : string) (l : list string) : option nat :=
  match l with [] => None | m :: t => if String.eqb n m then Some 0 else option_map S (position n t) end.
(** The argument a call gives for a parameter: by position, else by name. *)
Definition argument (d : dclass) (args : list attr) (kw : dict attr) (n : string) : option attr :=
  match position n (parameters d) with
  | None => None
  | Some i => match nth_error args i with Some a => Some a | None => dget n kw end
  end.
(** A correct call: not too many arguments, no unknown keyword, no parameter given twice,
    none left out that has no default. *)
Definition correct_call (d : dclass) (args : list attr) (kw : dict attr) : Prop :=
  List.length args <= List.length (parameters d) /\
  (forall k, In k (keys kw) -> k <> "self" /\ exists i, position k (parameters d) = Some i /\ List.length args <= i) /\
  (forall n f, In n (parameters d) -> dget n (d_fields d) = Some f -> argument d args kw n = None -> f_default f <> NoDefault).

(** The container a declaration asks for. *)
Definition kind_cls (k : fkind) : cls := match k with KNode => Node_cls | KStatic => Static_cls | KVar c _ => c end.
Definition kind_meta (k : fkind) : dict pyval := match k with KVar _ s => [("sharding", s)] | _ => [] end.
Definition plain (a : attr) : pyval := match a with ARaw v => v | ACont c => c_val c end.
(** A container given as the value must be of that class, with that metadata. *)
Definition fits (k : fkind) (a : attr) : Prop :=
  match a with ARaw _ => True | ACont c => c_cls c = kind_cls k /\ same_meta (c_meta c) (kind_meta k) end.
(** What a field holds after construction, when it was set to [a]. *)
Definition field_holds (f : fdecl) (a : attr) (x : attr) : Prop :=
  match f_kind f with
  | None => x = a
  | Some k => fits k a /\ x = ACont (mkCont (kind_cls k) (kind_meta k) (plain a))
  end.

(** Well-behaved declarations: distinct names, the reserved one not used; variable
    classes; factories that return, and only add objects. *)
Definition good_factory (g : factory) : Prop := forall w, wf_world w ->
  exists w' a, g w = (w', Ok a) /\ extends w w' /\ wf_world w' /\ attr_ok w' a /\ w_trace w' = w_trace w /\ w_nodes w' = w_nodes w.
Definition variable_class (c : cls) : Prop := incl ["Variable"; "Node"; "Container"] c /\ ~ In "Static" c.
Definition good_fields (fs : dict fdecl) : Prop :=
  NoDup (keys fs) /\ ~ In "_module__state" (keys fs) /\
  forall n f, In (n, f) fs ->
    (forall g, f_default f = Factory g -> good_factory g) /\
    (forall c s, f_kind f = Some (KVar c s) -> variable_class c).
(** defaults may refer to Modules that exist already *)
Definition good_defaults (w : world) (fs : dict fdecl) : Prop :=
  forall n f v, In (n, f) fs -> f_default f = Default v -> attr_ok w (ARaw v).
Definition good_call (w : world) (args : list attr) (kw : dict attr) : Prop :=
  Forall (attr_ok w) args /\ (forall k a, dget k kw = Some a -> attr_ok w a).

(** A factory called while an object of world [w] was being constructed returned [a]. *)
Definition produced (w : world) (g : factory) (a : attr) : Prop :=
  exists w1 w2, wf_world w1 /\ extends w w1 /\ g w1 = (w2, Ok a).
(** The value a field gets from the constructor: the argument, or the default; none for
    a field with [init=False] and no factory. *)
Definition field_gets (w : world) (d : dclass) (args : list attr) (kw : dict attr) (n : string) (f : fdecl) (a : attr) : Prop :=
  match argument d args kw n with
  | Some b => a = b
  | None => match f_default f with
            | Default v => f_init f = true /\ a = ARaw v
            | Factory g => produced w g a
            | NoDefault => False
            end
  end.
Definition field_unset (f : fdecl) : Prop := f_init f = false /\ forall g, f_default f <> Factory g.
