(** Specification vocabulary for Module graphs: what a user can observe by
    following attribute names, written without the traversal functions of the
    model. *)
From Verif Require Import PyBase ValuesM Spec_Eq FiltersM StateM Spec_State ModuleM.
Local Open Scope string_scope.
Local Open Scope list_scope.

(** The submodule reached from module [r] by a path of attribute names. *)
Fixpoint follow (w : world) (r : nat) (path : list string) : option nat :=
  match path with
  | [] => match get_obj w r with Some _ => Some r | None => None end
  | name :: rest =>
      match get_obj w r with
      | Some o => match dget name (m_vars o) with
                  | Some (ARaw (PyMod r')) => follow w r' rest
                  | _ => None
                  end
      | None => None
      end
  end.

(** What one sees at the end of a path of attribute names: a module (its class
    and [is_initializing] flag), a stored value, or nothing. *)
Inductive seen : Type :=
| SModule (c : cls) (initializing : bool)
| SValue (a : attr)
| SNothing.

Fixpoint look (w : world) (r : nat) (path : list string) : seen :=
  match get_obj w r with
  | None => SNothing
  | Some o =>
      match path with
      | [] => SModule (m_cls o) (m_init o)
      | name :: rest =>
          match dget name (m_vars o) with
          | None => SNothing
          | Some (ARaw (PyMod r')) => look w r' rest
          | Some a => match rest with [] => SValue a | _ => SNothing end
          end
      end
  end.

(** [x] is [r] or a (transitive) submodule of [r]. *)
Definition reaches (w : world) (r x : nat) : Prop := exists path, follow w r path = Some x.

(** [x] holds, under [name], a node attribute (array or Node container): not a
    submodule, and an instance of a registered node type. *)
Definition is_submodule (a : attr) : bool := match a with ARaw (PyMod _) => true | _ => false end.
Definition node_attr (w : world) (x : nat) (name : string) (a : attr) : Prop :=
  exists o, get_obj w x = Some o /\ dget name (m_vars o) = Some a /\
            is_submodule a = false /\ exists t, In t (w_nodes w) /\ In t (cls_of_attr a).
Definition static_attr (w : world) (x : nat) (name : string) (a : attr) : Prop :=
  exists o, get_obj w x = Some o /\ dget name (m_vars o) = Some a /\
            is_submodule a = false /\ forall t, In t (w_nodes w) -> ~ In t (cls_of_attr a).

(** The names nnx can represent: submodule and node names without ["/"], static
    names without the reserved prefix. *)
Definition names_ok (w : world) (r : nat) : Prop :=
  forall x o name a, reaches w r x -> get_obj w x = Some o -> dget name (m_vars o) = Some a ->
    (is_submodule a = true -> has_char "/" name = false) /\
    (node_attr w x name a -> has_char "/" name = false) /\
    (static_attr w x name a -> starts_with "_module__" name = false).

(** Invariants of the heap that every operation keeps (C20): distinct ids below
    the counter, valid submodule references, attribute dicts without duplicate
    names, the reserved name not among them, and containers made by their
    constructors. *)
Record wf_obj (w : world) (o : mobj) : Prop := {
  wfo_id : m_id o <= w_uuid w;
  wfo_names : NoDup (keys (m_vars o));
  wfo_reserved : ~ In "_module__state" (keys (m_vars o));
  wfo_refs : forall name r, dget name (m_vars o) = Some (ARaw (PyMod r)) -> r < List.length (w_heap w);
  wfo_attrs : forall name a, dget name (m_vars o) = Some a -> wf_attr a
}.
Record wf_world (w : world) : Prop := {
  wf_ids : NoDup (map m_id (w_heap w));
  wf_objs : forall r o, get_obj w r = Some o -> wf_obj w o
}.

(** a value that may be stored: containers well-formed, module references valid *)
Definition attr_ok (w : world) (a : attr) : Prop :=
  wf_attr a /\ forall x, a = ARaw (PyMod x) -> x < List.length (w_heap w).

(** Every module below [r] was created under the current trace, so it may be
    assigned to. *)
Definition live (w : world) (r : nat) : Prop :=
  forall x o, reaches w r x -> get_obj w x = Some o -> m_trace o = w_trace w.

(** [res] is what an attribute holds after [new] has been assigned over [old]:
    a container keeps its class and metadata and takes the value; another
    container is accepted only if class and metadata agree. *)
Definition overwrites (old new res : attr) : Prop :=
  match old, new with
  | ACont c, ARaw v => res = ACont (mkCont (c_cls c) (c_meta c) v)
  | ACont c, ACont c' => c_cls c = c_cls c' /\ same_meta (c_meta c) (c_meta c') /\
                         res = ACont (mkCont (c_cls c) (c_meta c) (c_val c'))
  | ARaw _, a => res = a
  end.

(** the value a sequence of dicts gives to a key when later ones win *)
Fixpoint latest (k : string) (us : list state) : option attr :=
  match us with
  | [] => None
  | u :: t => match latest k t with Some a => Some a | None => dget k u end
  end.

(** a registered node type *)
Definition node_value (w : world) (a : attr) : Prop := exists t, In t (w_nodes w) /\ In t (cls_of_attr a).

(** [==] on attribute values: equal values; for containers the same class and equal
    metadata too. *)
Definition same_attr (a b : attr) : Prop :=
  match a, b with
  | ARaw x, ARaw y => py_eq x y
  | ACont c, ACont d => c_cls c = c_cls d /\ py_eq (c_val c) (c_val d) /\ same_meta (c_meta c) (c_meta d)
  | _, _ => False
  end.

(** Two modules have the same static structure: the same submodule paths, with
    the same classes and static attributes at the end, two paths leading to the
    same object on one side exactly if they do on the other.  (Static attributes
    whose names start with the reserved prefix are not looked at.) *)
Definition statics_match (w w' : world) (x y : nat) : Prop :=
  forall n a, starts_with "_module__" n = false -> static_attr w x n a ->
              exists b, static_attr w' y n b /\ same_attr a b.
Record same_structure (w : world) (r : nat) (w' : world) (r' : nat) : Prop := {
  ss_paths : forall p, (exists x, follow w r p = Some x) <-> (exists y, follow w' r' p = Some y);
  ss_class : forall p x y o o', follow w r p = Some x -> follow w' r' p = Some y ->
               get_obj w x = Some o -> get_obj w' y = Some o' -> m_cls o = m_cls o';
  ss_static : forall p x y, follow w r p = Some x -> follow w' r' p = Some y ->
                statics_match w w' x y /\ statics_match w' w y x;
  ss_alias : forall p q x y x' y', follow w r p = Some x -> follow w r q = Some y ->
               follow w' r' p = Some x' -> follow w' r' q = Some y' -> (x = y <-> x' = y')
}.

(** [w'] extends [w]: every object of [w] is still there, unchanged. *)
Definition extends (w w' : world) : Prop :=
  exists new, w_heap w' = w_heap w ++ new.

(** no submodule path leads from a module back to itself *)
Definition acyclic (w : world) (r : nat) : Prop :=
  forall x path, reaches w r x -> path <> [] -> follow w x path <> Some x.

(** [w'] has the same objects as [w], of the same classes and with the same
    submodules under the same names in the same order; anything else about them
    may differ. *)
Definition same_shape (w w' : world) : Prop :=
  forall x, match get_obj w x, get_obj w' x with
            | Some o, Some o' => m_id o' = m_id o /\ m_cls o' = m_cls o /\
                filter (fun na => is_submodule (snd na)) (m_vars o') = filter (fun na => is_submodule (snd na)) (m_vars o)
            | None, None => True
            | _, _ => False
            end.

(** run a callback on the modules of a list, in order, stopping at an exception *)
Fixpoint run_on {S' : Type} (fn : S' -> nat -> result S') (l : list nat) (s : S') : result S' :=
  match l with
  | [] => Ok s
  | x :: t => match fn s x with Ok s1 => run_on fn t s1 | Err e => Err e end
  end.

(** What a successful [update_state] with the states [us] does to the module [r]
    whose state was [s]. *)
Record update_effect (w w' : world) (r : nat) (s : state) (us : list state) : Prop := {
  ue_wf : wf_world w';
  ue_def : get_module_def w' r = get_module_def w r;
  ue_state : exists s', get_state w' r = Ok s' /\ keys s' = keys s /\
     forall k old, dget k s = Some old ->
       exists res, dget k s' = Some res /\
         match latest k us with Some a => overwrites old a res | None => res = old end;
  ue_follow : forall p, follow w' r p = follow w r p;
  ue_objs : forall x o, get_obj w x = Some o -> exists d, get_obj w' x = Some (set_vars o d);
  ue_frame : forall x, ~ reaches w r x -> get_obj w' x = get_obj w x;
  ue_global : w_uuid w' = w_uuid w /\ w_trace w' = w_trace w /\ w_nodes w' = w_nodes w /\
              List.length (w_heap w') = List.length (w_heap w);
  ue_names : names_ok w' r
}.

(** Whatever the outcome of a sequence of assignments, the heap stays
    well-formed, objects keep identity, class, flag and trace, objects that are
    not below [r] or were created under another trace are untouched. *)
Record update_safe (w w' : world) (r : nat) : Prop := {
  us_wf : wf_world w';
  us_shape : w_uuid w' = w_uuid w /\ w_trace w' = w_trace w /\ w_nodes w' = w_nodes w /\
             List.length (w_heap w') = List.length (w_heap w);
  us_objs : forall x o, get_obj w x = Some o -> exists d, get_obj w' x = Some (set_vars o d);
  us_unreachable : forall x, ~ reaches w r x -> get_obj w' x = get_obj w x;
  us_reach : forall x, reaches w' r x -> reaches w r x;
  us_trace : forall x o, get_obj w x = Some o -> m_trace o <> w_trace w -> get_obj w' x = Some o
}.

(** At the first difference between the two paths from [r], [p] takes an attribute
    that was assigned before the one [q] takes: [vars] of a Module keeps the order of
    assignment. *)
Definition assigned_before (w : world) (r : nat) (p q : list string) : Prop :=
  exists c n m p' q' x o l1 l2 l3, p = c ++ n :: p' /\ q = c ++ m :: q' /\
    follow w r c = Some x /\ get_obj w x = Some o /\ keys (m_vars o) = l1 ++ n :: l2 ++ m :: l3.

(** of all paths from [r] to [y], [p] is the first in order of assignment *)
Definition first_assigned (w : world) (r : nat) (p : list string) (y : nat) : Prop :=
  follow w r p = Some y /\ forall q, follow w r q = Some y -> q = p \/ assigned_before w r p q.

(** What [pop_state] with filters [fs] does on [r]: [out] are the returned states;
    [path y] is the path under which the nodes of module [y] are returned. *)
Record pop_effect (w w' : world) (r : nat) (fs : list filt) (out : list state) (path : nat -> list string) : Prop := {
  pe_wf : wf_world w';
  pe_len : List.length out = List.length fs;
  pe_states : Forall keys_increasing out;
  pe_path : forall y n a, reaches w r y -> node_attr w y n a -> first_assigned w r (path y) y;
  pe_out : forall i s k a, nth_error out i = Some s ->
    (dget k s = Some a <-> exists y n, reaches w r y /\ node_attr w y n a /\ k = join_path (path y ++ [n]) /\ first_match fs i k a);
  pe_left : forall y o, get_obj w y = Some o -> exists d, get_obj w' y = Some (set_vars o d) /\
    forall n a, dget n d = Some a <-> dget n (m_vars o) = Some a /\
      ~ (reaches w r y /\ node_attr w y n a /\ exists i, first_match fs i (join_path (path y ++ [n])) a);
  pe_frame : forall y, ~ reaches w r y -> get_obj w' y = get_obj w y;
  pe_global : w_uuid w' = w_uuid w /\ w_trace w' = w_trace w /\ w_nodes w' = w_nodes w /\ List.length (w_heap w') = List.length (w_heap w)
}.

(** The [is_initializing] flag of every module below [r] is set to [b]; nothing
    else changes. *)
Record flags_set (b : bool) (w : world) (r : nat) (w1 : world) : Prop := {
  fl_global : w_uuid w1 = w_uuid w /\ w_trace w1 = w_trace w /\ w_nodes w1 = w_nodes w /\ List.length (w_heap w1) = List.length (w_heap w);
  fl_below : forall x o, get_obj w x = Some o -> reaches w r x -> In "Module" (m_cls o) -> get_obj w1 x = Some (set_init o b);
  fl_other : forall x o, get_obj w x = Some o -> ~ (reaches w r x /\ In "Module" (m_cls o)) -> get_obj w1 x = Some o
}.

(** what merging a partition of [r] into the world [wb] gives: the module [m] in [wb'] *)
Record faithful_copy (w : world) (r : nat) (wb wb' : world) (m : nat) : Prop := {
  fc_look : forall p, look wb' m p = look w r p;
  fc_defined : forall p, (exists x, follow wb' m p = Some x) <-> (exists x, follow w r p = Some x);
  fc_alias : forall p q, follow wb' m p = follow wb' m q <-> follow w r p = follow w r q;
  fc_state : w_nodes wb = w_nodes w -> wf_world wb -> get_state wb' m = get_state w r;
  fc_def : w_nodes wb = w_nodes w -> wf_world wb -> get_module_def wb' m = get_module_def w r;
  fc_kept : forall y o, get_obj wb y = Some o -> get_obj wb' y = Some o;
  fc_new : forall y, reaches wb' m y -> get_obj wb y = None;
  fc_trace : forall y o, reaches wb' m y -> get_obj wb' y = Some o -> m_trace o = w_trace wb;
  fc_wf : wf_world wb -> wf_world wb' /\ m < List.length (w_heap wb');
  fc_names : w_nodes wb = w_nodes w -> names_ok w r -> names_ok wb' m
}.

(** what merging the definition of [r] with States that hold, together, the
    entries [U] gives: the module [m] in [wb'], shaped like [r], whose node
    attributes are [U] and nothing else *)
Record refilled_copy (w : world) (r : nat) (U : state) (wb wb' : world) (m : nat) : Prop := {
  rc_state : get_state wb' m = Ok U;
  rc_def : get_module_def wb' m = get_module_def w r;
  rc_defined : forall p, (exists y, follow wb' m p = Some y) <-> (exists x, follow w r p = Some x);
  rc_alias : forall p q, follow wb' m p = follow wb' m q <-> follow w r p = follow w r q;
  rc_module : forall p c i, look wb' m p = SModule c i <-> look w r p = SModule c i;
  rc_static : forall p x y n a, follow w r p = Some x -> follow wb' m p = Some y -> (static_attr wb' y n a <-> static_attr w x n a);
  rc_kept : forall y o, get_obj wb y = Some o -> get_obj wb' y = Some o;
  rc_new : forall y, reaches wb' m y -> get_obj wb y = None;
  rc_trace : forall y o, reaches wb' m y -> get_obj wb' y = Some o -> m_trace o = w_trace wb;
  rc_wf : wf_world wb' /\ m < List.length (w_heap wb') /\ names_ok wb' m
}.
