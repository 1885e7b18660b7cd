(** Spec_Pytree: what Pytree objects should do. *)
From Verif Require Import PyBase ValuesM Spec_Eq PytreeM.
Local Open Scope string_scope.
Local Open Scope list_scope.

(** Names a user may use for fields. *)
Definition user_name (n : string) : Prop := starts_with "_pytree__" n = false.
Definition user_class (k : pclass) : Prop :=
  forall fs, k_fields k = Some fs -> forall n, In n (keys fs) -> user_name n.
Fixpoint user_prog (p : pprog) : Prop :=
  match p with
  | QSeq p q | QTry p q => user_prog p /\ user_prog q
  | QSet _ n _ => user_name n
  | QReplace _ kw => forall n, In n (keys kw) -> user_name n
  | QNew k init => user_class k /\ user_prog init
  | _ => True
  end.

Definition user_heap (h : pheap) : Prop := Forall (fun o => user_class (p_class o)) h.

(** Construction is over: neither marker is set. *)
Definition sealed (o : pobj) : Prop :=
  ~ In F_INIT (keys (p_vars o)) /\ ~ In F_MUTABLE (keys (p_vars o)).
Definition immutable (o : pobj) : Prop := k_mutable (p_class o) = false.
(** The recorded field order is the sorted list of field names. *)
Definition fields_sorted (o : pobj) : Prop :=
  dget F_SORTED (p_vars o) = Some (FNames (keys (sort_by_key (p_vars o)))).

(** Assigning [v] to a field that holds [old] stores [new]: a container keeps its
    class and metadata and takes the value; a container given as the value must have
    the same class and metadata. *)
Definition stores (old : pfield) (v : attr) (new : pfield) : Prop :=
  match old with
  | FAttr (ACont c) =>
      match v with
      | ARaw x => new = FAttr (ACont (mkCont (c_cls c) (c_meta c) x))
      | ACont d => c_cls c = c_cls d /\ same_meta (c_meta c) (c_meta d) /\
                   new = FAttr (ACont (mkCont (c_cls c) (c_meta c) (c_val d)))
      end
  | _ => new = FAttr v
  end.
Definition wf_field (f : pfield) : Prop := match f with FAttr a => wf_attr a | FNames _ => True end.
Definition wf_fields (o : pobj) : Prop :=
  NoDup (keys (p_vars o)) /\ forall k f, dget k (p_vars o) = Some f -> wf_field f.

(** What a dataclass constructor stores for the argument [a] of a field: the argument
    itself, or the container its container function makes of it; an argument that is a
    container already must have that class and metadata. *)
Definition field_arg (f : option cfn) (a : attr) (x : pfield) : Prop :=
  match f with
  | None => x = FAttr a
  | Some f =>
      let v := match a with ARaw v => v | ACont d => c_val d end in
      exists c, container_call (f_cls f) (CVal v) (f_md f) = Ok c /\ x = FAttr (ACont c) /\
                match a with
                | ARaw _ => True
                | ACont d => c_cls d = c_cls c /\ same_meta (c_meta d) (c_meta c)
                end
  end.
Definition wf_cfn (f : cfn) : Prop :=
  In "Container" (f_cls f) /\ NoDup (keys (f_md f)) /\ ~ In "value" (keys (f_md f)).
Definition wf_cfields (fs : list (string * option cfn)) : Prop :=
  NoDup (keys fs) /\ forall n f, In (n, f) fs -> user_name n /\ forall g, f = Some g -> wf_cfn g.
