(** JitCacheM: the compilation cache behind [nnx.jit] (transforms.py:35-75).  [jax.jit]
    is not in the repository; it is modelled by its contract.  A call flattens its
    argument, the PureModule, into a treedef and leaves.  If an earlier call had an equal
    treedef and leaves of the same abstract values, the function traced then is run on
    the new leaves; the result is that of the python function on the argument rebuilt
    from the OLD treedef and the new leaves.  Otherwise the function is traced on the
    argument, and remembered unless tracing raised. *)
From Verif Require Import PyBase ValuesM FiltersM StateM ModuleM TransformM.
Local Open Scope string_scope.
Local Open Scope list_scope.

Section Cache.
(** Equality of the treedefs and abstract values (shape, dtype, ...) of two values. *)
Variable same_aval : pyval -> pyval -> bool.

(** containers.py:112-124 *)
Definition attr_val (a : attr) : pyval := match a with ARaw v => v | ACont c => c_val c end.

(** State entries: a NodeBase container has its class in the treedef and its metadata
    as auxiliary data (containers.py:108-138); anything else is a leaf (or a pytree of
    its own). *)
Definition attr_key_eqb (a b : attr) : bool :=
  match a, b with
  | ARaw _, ARaw _ => true
  | ACont c, ACont d => cls_eqb (c_cls c) (c_cls d) && dict_eqb (c_meta c) (c_meta d)
  | _, _ => false
  end && same_aval (attr_val a) (attr_val b).
(** state.py:145-163: the keys, in order, are auxiliary data. *)
Fixpoint state_key_eqb (s t : state) : bool :=
  match s, t with
  | [], [] => true
  | (k, a) :: s', (k', b) :: t' => String.eqb k k' && attr_key_eqb a b && state_key_eqb s' t'
  | _, _ => false
  end.
(** jax's comparison of treedefs at transforms.py:59-74 *)
Fixpoint states_key_eqb (l m : list state) : bool :=
  match l, m with
  | [], [] => true
  | s :: l', t :: m' => state_key_eqb s t && states_key_eqb l' m'
  | _, _ => false
  end.
(** jax's comparison of treedefs at transforms.py:59-74 *)
Definition sts_key_eqb (x y : sts) : bool :=
  match x, y with
  | One s, One t => state_key_eqb s t
  | Many l, Many m => states_key_eqb l m
  | _, _ => false
  end.
(** module.py:166-189: the five fields of the ModuleDef are auxiliary data, compared with
    [==]; nested ModuleDefs are compared by [ModuleDef.__eq__] (114-121). *)
Definition def_key_eqb (d e : mdef) : bool :=
  match d, e with
  | MDef c i subs st ini, MDef c' i' subs' st' ini' =>
      cls_eqb c c' && Nat.eqb i i' &&
      (fix go (x y : list (string * mdef)) : bool :=
         match x, y with
         | [], [] => true
         | (n, d) :: x', (m, e) :: y' => String.eqb n m && mdef_eqb d e && go x' y'
         | _, _ => false
         end) subs subs' &&
      statics_eqb st st' && Bool.eqb ini ini'
  | _, _ => false
  end.
(** module.py:366-375 *)
Definition pure_key_eqb (p q : pure) : bool :=
  sts_key_eqb (p_states p) (p_states q) && def_key_eqb (p_def p) (p_def q).

(** [tree_unflatten(treedef of p0, leaves of p)]. (state.py:152-163, module.py:365-372) *)
Fixpoint rebuild_state (s0 s : state) : state :=
  match s0, s with
  | (k, a0) :: s0', (_, a) :: s' => (k, with_value a0 (attr_val a)) :: rebuild_state s0' s'
  | _, _ => []
  end.
(** state.py:152-163, module.py:365-372 *)
Fixpoint rebuild_states (l0 l : list state) : list state :=
  match l0, l with
  | s0 :: l0', s :: l' => rebuild_state s0 s :: rebuild_states l0' l'
  | _, _ => []
  end.
(** state.py:152-163, module.py:365-372 *)
Definition rebuild_sts (x0 x : sts) : sts :=
  match x0, x with
  | One s0, One s => One (rebuild_state s0 s)
  | Many l0, Many l => Many (rebuild_states l0 l)
  | _, _ => x
  end.
(** state.py:152-163, module.py:365-372 *)
Definition rebuild (p0 p : pure) : pure := mkPure (rebuild_sts (p_states p0) (p_states p)) (p_def p0).

(** One call of the compiled function for the python function [g]. ([jax.jit]'s cache at transforms.py:59-74) *)
Definition cached_call {B} (g : pure -> result B) (cache : list pure) (p : pure) : list pure * result B :=
  match find (fun p0 => pure_key_eqb p0 p) cache with
  | Some p0 => (cache, g (rebuild p0 p))
  | None => match g p with
            | Ok b => (p :: cache, Ok b)
            | Err e => (cache, Err e)
            end
  end.
(** A sequence of calls. ([jax.jit]'s cache at transforms.py:59-74) *)
Fixpoint cached_calls {B} (g : pure -> result B) (cache : list pure) (ps : list pure) : list (result B) :=
  match ps with
  | [] => []
  | p :: t => let '(cache', r) := cached_call g cache p in r :: cached_calls g cache' t
  end.
End Cache.
