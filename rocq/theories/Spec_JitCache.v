(** Spec_JitCache: when two PureModules are the same to a program. *)
From Verif Require Import PyBase ValuesM Spec_Eq FiltersM StateM ModuleM Spec_Module.
Local Open Scope string_scope.
Local Open Scope list_scope.

(** [E]: the values a program does not tell apart.  With [eq], two modules are similar
    when they are equal but for the order in which a container lists its metadata (only
    [repr] shows that order); with [py_eq], when equal values may be exchanged too. *)
Section Similar.
Variable E : pyval -> pyval -> Prop.
Definition opt_sim (a b : option pyval) : Prop :=
  match a, b with
  | Some x, Some y => E x y
  | None, None => True
  | _, _ => False
  end.
Inductive attr_sim : attr -> attr -> Prop :=
| sim_raw v v' : E v v' -> attr_sim (ARaw v) (ARaw v')
| sim_cont c m m' v v' : wf_container (mkCont c m v) -> wf_container (mkCont c m' v') ->
    (forall k, opt_sim (dget k m) (dget k m')) -> E v v' ->
    attr_sim (ACont (mkCont c m v)) (ACont (mkCont c m' v')).
Definition entry_sim (x y : string * attr) : Prop := fst x = fst y /\ attr_sim (snd x) (snd y).
Definition dict_sim (d e : list (string * attr)) : Prop := Forall2 entry_sim d e.
Inductive sts_sim : sts -> sts -> Prop :=
| sim_one s t : dict_sim s t -> sts_sim (One s) (One t)
| sim_many l m : Forall2 dict_sim l m -> sts_sim (Many l) (Many m).
Inductive mdef_sim : mdef -> mdef -> Prop :=
| sim_ref i : mdef_sim (MRef i) (MRef i)
| sim_def c i subs subs' st st' ini :
    Forall2 (fun x y => fst x = fst y /\ mdef_sim (snd x) (snd y)) subs subs' -> dict_sim st st' ->
    mdef_sim (MDef c i subs st ini) (MDef c i subs' st' ini).
Definition pure_sim (p q : pure) : Prop := sts_sim (p_states p) (p_states q) /\ mdef_sim (p_def p) (p_def q).

Definition obj_sim (o p : mobj) : Prop :=
  m_cls o = m_cls p /\ m_id o = m_id p /\ m_init o = m_init p /\ m_trace o = m_trace p /\ dict_sim (m_vars o) (m_vars p).
(** The registered node types do not tell them apart either. *)
Definition nodes_fit (nodes : list string) : Prop :=
  forall v v', E v v' -> is_node nodes (ARaw v) = is_node nodes (ARaw v').
Definition world_sim (w v : world) : Prop :=
  Forall2 obj_sim (w_heap w) (w_heap v) /\ w_uuid w = w_uuid v /\ w_trace w = w_trace v /\ w_nodes w = w_nodes v /\ nodes_fit (w_nodes w).

(** A function of the world that does not tell them apart. *)
Definition blind {A} (fn : world -> nat -> world * result A) : Prop :=
  forall w v m, world_sim w v -> world_sim (fst (fn w m)) (fst (fn v m)) /\ snd (fn w m) = snd (fn v m).
(** The same outcome: the same exception, or the same output and the same state. *)
Definition same_outcome {A} (x y : result (option state * A)) : Prop :=
  match x, y with
  | Ok (s, a), Ok (t, b) => match s, t with Some s, Some t => dict_sim s t | None, None => True | _, _ => False end /\ a = b
  | Err e, Err f => e = f
  | _, _ => False
  end.
End Similar.
(** does not look at the order of metadata *)
Definition order_blind {A} (fn : world -> nat -> world * result A) : Prop := blind eq fn.
(** does not look at what [==] does not see *)
Definition eq_blind {A} (fn : world -> nat -> world * result A) : Prop := blind py_eq fn.

(** All the values of a PureModule the compiler takes as constants satisfy [ok]: static
    attributes and metadata. *)
Definition meta_ok (ok : pyval -> Prop) (m : dict pyval) : Prop := forall k v, dget k m = Some v -> ok v.
Definition state_ok (ok : pyval -> Prop) (s : state) : Prop := forall k c, In (k, ACont c) s -> meta_ok ok (c_meta c).
Definition statics_ok (ok : pyval -> Prop) (st : list (string * attr)) : Prop :=
  forall k a, In (k, a) st -> match a with ARaw v => ok v | ACont c => ok (c_val c) /\ meta_ok ok (c_meta c) end.
Fixpoint mdef_ok (ok : pyval -> Prop) (d : mdef) : Prop :=
  match d with
  | MRef _ => True
  | MDef _ _ subs st _ => statics_ok ok st /\ (fix go (l : list (string * mdef)) : Prop :=
                                                match l with [] => True | (_, e) :: t => mdef_ok ok e /\ go t end) subs
  end.
Definition constants_ok (ok : pyval -> Prop) (p : pure) : Prop :=
  Forall (state_ok ok) (sts_list (p_states p)) /\ mdef_ok ok (p_def p).
(** no bool in a value *)
Inductive no_bool : pyval -> Prop :=
| nb_none : no_bool PyNone
| nb_int z : no_bool (PyInt z)
| nb_str s : no_bool (PyStr s)
| nb_tuple l : Forall no_bool l -> no_bool (PyTuple l)
| nb_mod r : no_bool (PyMod r)
| nb_obj c i : no_bool (PyObj c i).

(** Well-formed: what [module_partition] returns in a reachable world. *)
Definition wf_entries (d : list (string * attr)) : Prop := forall k a, In (k, a) d -> wf_attr a.
Fixpoint wf_mdef (d : mdef) : Prop :=
  match d with
  | MRef _ => True
  | MDef _ _ subs st _ => wf_entries st /\ (fix go (l : list (string * mdef)) : Prop :=
                                             match l with [] => True | (_, e) :: t => wf_mdef e /\ go t end) subs
  end.
Definition wf_pure (p : pure) : Prop := Forall wf_entries (sts_list (p_states p)) /\ wf_mdef (p_def p).

(** All modules of the definition have the same [is_initializing]. *)
Fixpoint uniform (b : bool) (d : mdef) : Prop :=
  match d with
  | MRef _ => True
  | MDef _ _ subs _ ini => ini = b /\ (fix go (l : list (string * mdef)) : Prop :=
                                        match l with [] => True | (_, e) :: t => uniform b e /\ go t end) subs
  end.
(** Indices as the traversal assigns them: a definition's index is determined by its
    position, so two equal definitions have equal indices. *)
Fixpoint numbered_from (d : mdef) (n : nat) : option nat :=
  match d with
  | MRef _ => Some n
  | MDef _ i subs _ _ =>
      if Nat.eqb i n then
        (fix go (l : list (string * mdef)) (n : nat) : option nat :=
           match l with
           | [] => Some n
           | (_, e) :: t => match numbered_from e n with Some n' => go t n' | None => None end
           end) subs (S n)
      else None
  end.

(** Every module below [r] is in the same phase (initializing or not). *)
Definition same_phase (w : world) (r : nat) : Prop :=
  exists b, forall x o, reaches w r x -> get_obj w x = Some o -> m_init o = b.
(** Two state entries the compiler does not tell apart. *)
Definition same_kind (same_aval : pyval -> pyval -> bool) (a b : attr) : Prop :=
  match a, b with
  | ARaw v, ARaw v' => same_aval v v' = true
  | ACont c, ACont c' => c_cls c = c_cls c' /\ same_meta (c_meta c) (c_meta c') /\ same_aval (c_val c) (c_val c') = true
  | _, _ => False
  end.
