(** Specification vocabulary for copies made by python's [copy] module. *)
From Verif Require Import PyBase ValuesM Spec_Eq StateM ModuleM Spec_Module.
Local Open Scope list_scope.

(** The modules mentioned by a value: itself, or inside tuples and containers. *)
Fixpoint val_mods (v : pyval) : list nat :=
  match v with
  | PyMod r => [r]
  | PyTuple l => flat_map val_mods l
  | _ => []
  end.
Definition attr_mods (a : attr) : list nat :=
  match a with
  | ARaw v => val_mods v
  | ACont c => flat_map (fun kv => val_mods (snd kv)) (c_meta c) ++ val_mods (c_val c)
  end.
Definition mentions (w : world) (x y : nat) : Prop :=
  exists o n a, get_obj w x = Some o /\ In (n, a) (m_vars o) /\ In y (attr_mods a).
(** [x] is [r] or mentioned, directly or not, by [r]. *)
Inductive touches (w : world) (r : nat) : nat -> Prop :=
| t_self : touches w r r
| t_step x y : touches w r x -> mentions w x y -> touches w r y.
(** everything mentioned exists *)
Definition closed (w : world) (r : nat) : Prop :=
  forall x, touches w r x -> x < List.length (w_heap w).

(** The same value with every module [x] replaced by [f x]. *)
Fixpoint val_ren (f : nat -> nat) (v : pyval) : pyval :=
  match v with
  | PyMod r => PyMod (f r)
  | PyTuple l => PyTuple (map (val_ren f) l)
  | _ => v
  end.
Definition attr_ren (f : nat -> nat) (a : attr) : attr :=
  match a with
  | ARaw v => ARaw (val_ren f v)
  | ACont c => ACont (mkCont (c_cls c) (map (fun kv => (fst kv, val_ren f (snd kv))) (c_meta c)) (val_ren f (c_val c)))
  end.

(** The same for what is seen along a path. *)
Definition seen_ren (f : nat -> nat) (s : seen) : seen := match s with SValue a => SValue (attr_ren f a) | _ => s end.

(** [m] in [w'] is a deep copy of [r] in [w]; [f] gives the copy of each module. *)
Record deep_copy (w : world) (r : nat) (w' : world) (m : nat) (f : nat -> nat) : Prop := {
  dc_root : f r = m;
  dc_kept : forall y o, get_obj w y = Some o -> get_obj w' y = Some o;
  dc_fresh : forall x, touches w r x -> get_obj w (f x) = None;
  dc_inj : forall x y, touches w r x -> touches w r y -> f x = f y -> x = y;
  dc_same : forall x o, touches w r x -> get_obj w x = Some o ->
      exists o', get_obj w' (f x) = Some o' /\ m_cls o' = m_cls o /\ m_init o' = m_init o /\
                 m_vars o' = map (fun na => (fst na, attr_ren f (snd na))) (m_vars o);
  dc_only : forall y o, get_obj w' y = Some o -> get_obj w y = None -> exists x, touches w r x /\ f x = y;
  dc_ids : forall y y' o o', get_obj w' y = Some o -> get_obj w' y' = Some o' -> get_obj w y = None ->
      w_uuid w < m_id o <= w_uuid w' /\ (m_id o = m_id o' -> get_obj w y' = None -> y = y');
  dc_world : w_trace w' = w_trace w /\ w_nodes w' = w_nodes w
}.

(** Modules occur only as attributes of modules, not inside tuples or containers. *)
Definition plain_below (w : world) (r : nat) : Prop :=
  forall x o n a, reaches w r x -> get_obj w x = Some o -> dget n (m_vars o) = Some a -> is_submodule a = false -> attr_mods a = [].
