(** TracersM: models the trace guard (nnx/tracers.py) under nested jax and nnx
    transforms: which tracers programs can store in Modules.  Values are reduced to
    "no tracer" or "a tracer of this main trace"; what jax does is taken from jax
    0.4.13's [jax.core] (see [find_top_trace], [enter], [lowered]). *)
From Verif Require Import PyBase.
Local Open Scope string_scope.
Local Open Scope nat_scope.
Local Open Scope list_scope.

(** A jax MainTrace: an object with an identity and a level.  Level 0 is evaluation. (jax's MainTrace as read at tracers.py:20-49) *)
Record main := mkMain { mt_id : nat; mt_level : nat }.
(** A leaf: an array, or a tracer of a main trace.  What a tracer wraps has a lower
    level and is left out: it lives at least as long. (jax as called at tracers.py:20-42) *)
Inductive leaf : Type := Conc | Tr (m : main).
(** jax as called at tracers.py:20-42 *)
Inductive pytree : Type := PLeaf (x : leaf) | PNode (l : list pytree).

(** [jax.tree_util.tree_leaves]. (jax as called at tracers.py:20-42) *)
Fixpoint tree_leaves (t : pytree) : list leaf :=
  match t with
  | PLeaf x => [x]
  | PNode l => (fix go (l : list pytree) : list leaf := match l with [] => [] | t :: r => tree_leaves t ++ go r end) l
  end.
(** [jax.core.find_top_trace]: the first tracer of greatest level, or the dynamic trace
    if its level is greater. (jax as called at tracers.py:20-42) *)
Fixpoint top_tracer (xs : list leaf) : option main :=
  match xs with
  | [] => None
  | Conc :: r => top_tracer r
  | Tr m :: r => match top_tracer r with
                 | Some t => if mt_level m <? mt_level t then Some t else Some m
                 | None => Some m
                 end
  end.
(** jax as called at tracers.py:20-42 *)
Definition find_top_trace (dyn : main) (xs : list leaf) : main :=
  match top_tracer xs with
  | None => dyn
  | Some t => if mt_level t <? mt_level dyn then dyn else t
  end.
(** tracers.py:20-25 [get_top_trace] *)
Definition get_top_trace (dyn : main) (t : pytree) : main :=
  match t with
  | PLeaf (Tr m) => m
  | _ => find_top_trace dyn (tree_leaves t)
  end.

(** A Module: its TraceState (tracers.py:75-80) and its node attributes.  Simplification:
    attributes that are Modules are left out. *)
Record tmod := mkTmod { tm_jax : main; tm_nnx : main; tm_vars : dict leaf }.
(** [ts_mains]: jax's stack of main traces, innermost first; [ts_dyn]: its dynamic trace;
    [ts_nnx]: tracers.py:52-59 [nnx_trace_stack], innermost first; [ts_next]: identities
    not used yet.  Not part of the program: [ts_idle], true once some call of nnx.grad had
    nothing to differentiate; [ts_escaped], true once jax met a tracer of a trace that is
    over. *)
Record tstate := mkTs { ts_mains : list main; ts_dyn : main; ts_nnx : list main; ts_next : nat;
                        ts_heap : list tmod; ts_idle : bool; ts_escaped : bool }.
(** tracers.py:28-30 [current_jax_trace] *)
Definition current_jax_trace (s : tstate) : main := get_top_trace (ts_dyn s) (PNode []).
(** tracers.py:71-72 [current_nnx_trace] *)
Definition current_nnx_trace (s : tstate) : option main := hd_error (ts_nnx s).
(** [a is b] on main traces. (tracers.py:90-94) *)
Definition is_main (a b : main) : bool := Nat.eqb (mt_id a) (mt_id b).
(** tracers.py:90-94 [TraceState.is_valid] *)
Definition is_valid (s : tstate) (o : tmod) : bool :=
  is_main (tm_jax o) (current_jax_trace s) &&
  match current_nnx_trace s with Some t => is_main (tm_nnx o) t | None => false end.

(** Errors: [Unbound] of a local variable; [Escaped] is jax's UnexpectedTracerError, for
    a tracer of a trace that is over. (the outcome of a user program, see errors.py:1-2) *)
Inductive terr : Type := TraceGuard | NoAttribute | BadType | Unbound | Escaped | NoTrace.
(** the outcome of a user program, see errors.py:1-2 *)
Inductive tres : Type := Done | Raised (e : terr).

(** Transforms.  [KDynamic]: those of jax that start a dynamic trace (jax.jit, lax.scan,
    jax.checkpoint, jax.eval_shape); [KLocal]: those that do not (jax.vmap, jax.grad,
    jax.jvp; jax.grad's two main traces are one here); nnx.jit; nnx.scan and nnx.remat;
    nnx.grad. (jax's and nnx's transforms, transforms.py:35-203, 492-690, 850-891) *)
Inductive kind : Type := KDynamic | KLocal | KNnxJit | KNnxDynamic | KNnxGrad.
(** jax's and nnx's transforms, transforms.py:35-203, 492-690, 850-891 *)
Definition dynamic (k : kind) : bool :=
  match k with KDynamic | KNnxJit | KNnxDynamic => true | KLocal | KNnxGrad => false end.
(** jax's and nnx's transforms, transforms.py:35-203, 492-690, 850-891 *)
Definition takes_module (k : kind) : bool :=
  match k with KDynamic | KLocal => false | _ => true end.
(** How an attribute of the module gets into the transform: traced, not traced (static,
    or broadcast by a scan, or not differentiated), or selected by nnx.grad's [wrt] but
    an integer and so not traced. (jax's and nnx's transforms, transforms.py:35-203, 492-690, 850-891) *)
Inductive passing : Type := Traced | Untraced | Selected.

(** user programs; no code in /repo *)
Definition var : Type := string.
(** user programs; no code in /repo *)
Inductive tvar : Type := XVal (x : leaf) | XMod (r : nat).
(** user programs; no code in /repo *)
Definition env : Type := dict tvar.

(** Programs.  [TCall k stateful body m args self sel outs pick]: the transform [k] of a function
    called with the module [m] (bound to [self] inside; [stateful]: updated afterwards) and arguments, each with the
    name of the parameter and whether it is traced; the function sees the variables around
    it, and what it binds is gone afterwards but for [outs], its results with the
    names they are given outside. (user programs; no code in /repo) *)
Inductive tprog : Type :=
| TSkip
| TSeq (p q : tprog)
| TTry (p q : tprog)
| TNew (x : var)
| TRead (x m : var) (a : string)
| TWrite (m : var) (a : string) (x : var)
| TOp (x : var) (ys : list var) (low : option nat)
| TCall (k : kind) (stateful : bool) (body : tprog) (m : option var) (args : list (var * var * bool)) (self : var)
        (sel : string -> passing) (outs : list (var * var)) (pick : nat).

(** A value of a main trace. (jax's operations on tracers; no code in /repo) *)
Definition leaf_of (m : main) : leaf := if Nat.eqb (mt_level m) 0 then Conc else Tr m.
(** jax's operations on tracers; no code in /repo *)
Definition live (s : tstate) (x : leaf) : bool :=
  match x with Conc => true | Tr m => existsb (is_main m) (ts_mains s) end.
(** jax's operations on tracers; no code in /repo *)
Fixpoint values (e : env) (xs : list var) : option (list leaf) :=
  match xs with
  | [] => Some []
  | x :: r => match dget x e, values e r with
              | Some (XVal v), Some vs => Some (v :: vs)
              | _, _ => None
              end
  end.

(** A jax operation: a value of the top trace, or, since jax takes the wrapped value where
    a tracer does nothing ([full_lower]), of the [low]-th main trace if it is lower. (jax's operations on tracers; no code in /repo) *)
Definition op_result (s : tstate) (vs : list leaf) (low : option nat) : leaf :=
  let top := find_top_trace (ts_dyn s) vs in
  match low with
  | None => leaf_of top
  | Some i => match nth_error (ts_mains s) i with
              | Some m => if mt_level m <? mt_level top then leaf_of m else leaf_of top
              | None => leaf_of top
              end
  end.

(** module.py:436-446 [Module._setattr], for a value. *)
Definition set_heap (s : tstate) (h : list tmod) : tstate :=
  mkTs (ts_mains s) (ts_dyn s) (ts_nnx s) (ts_next s) h (ts_idle s) (ts_escaped s).
(** a marker of the model for tracers stored outside their trace; no code in /repo *)
Definition escape (s : tstate) : tstate :=
  mkTs (ts_mains s) (ts_dyn s) (ts_nnx s) (ts_next s) (ts_heap s) (ts_idle s) true.
(** module.py:455-468 *)
Definition tsetattr (s : tstate) (r : nat) (a : string) (x : leaf) : tstate * tres :=
  match nth_error (ts_heap s) r with
  | None => (s, Raised BadType)
  | Some o =>
      if is_valid s o
      then (set_heap s (list_set r (mkTmod (tm_jax o) (tm_nnx o) (dset a x (tm_vars o))) (ts_heap s)), Done)
      else (s, Raised TraceGuard)
  end.
(** module.py:924-940 [_update_module] of [module.update_state(updates)] after a
    transform (transforms.py:73, 195, 690, 889). *)
Fixpoint twrite_back (s : tstate) (r : nat) (d : dict leaf) : tstate * tres :=
  match d with
  | [] => (s, Done)
  | (a, x) :: t => match tsetattr s r a x with
                   | (s', Done) => twrite_back s' r t
                   | (s', Raised e) => (s', Raised e)
                   end
  end.

(** What a transform returns for a leaf of its result: a value of a main trace of the
    caller ([pick], whatever jax makes it), or, if [pick] is none of them, the leaf itself,
    unless it is a tracer of the trace that is over, and then what it wraps. (the results of jax's transforms as called at transforms.py:62-74, 181-200) *)
Definition lowered (outer : list main) (m : main) (pick : nat) (x : leaf) : leaf :=
  match nth_error outer pick with
  | Some t => leaf_of t
  | None => match x with Tr t => if is_main t m then Conc else x | Conc => Conc end
  end.
(** the results of jax's transforms as called at transforms.py:62-74, 181-200 *)
Fixpoint results (outer : list main) (m : main) (pick : nat) (inner : env) (outs : list (var * var)) (e : env) : option env :=
  match outs with
  | [] => Some e
  | (x, y) :: r => match dget x inner with
                   | Some (XVal v) => results outer m pick inner r (dset y (XVal (lowered outer m pick v)) e)
                   | _ => None      (* unbound, or a Module: no valid jax type *)
                   end
  end.

(** the arguments of jax's transforms as called at transforms.py:62-74, 181-200, 492-690, 850-891 *)
Definition pass (m : main) (sel : string -> passing) (kv : string * leaf) : string * leaf :=
  (fst kv, match sel (fst kv) with Traced => Tr m | _ => snd kv end).
(** the arguments of jax's transforms as called at transforms.py:62-74, 181-200, 492-690, 850-891 *)
Definition pass_arg (k : kind) (m : main) (ev : bool * leaf) : leaf :=
  match k with
  | KNnxGrad => snd ev                       (* transforms.py:152, argnums=0 *)
  | _ => if fst ev then Tr m else snd ev
  end.
(** transforms.py:152-200 *)
Definition is_selected (sel : string -> passing) (kv : string * leaf) : bool :=
  match sel (fst kv) with Untraced => false | _ => true end.
(** transforms.py:152-200 *)
Definition is_traced (sel : string -> passing) (kv : string * leaf) : bool :=
  match sel (fst kv) with Traced => true | _ => false end.

(** The state inside: [jax.core.new_main] pushes a main trace, which is the dynamic one
    for some transforms; transforms.py:48-49 (nnx.jit) and 162 (nnx.grad) push an nnx
    trace; nnx.scan and nnx.remat (574-609, 865-885) do not. *)
Definition inner_nnx (k : kind) (dyn : main) (args : list leaf) (diff : list leaf) (nnx : list main) : list main :=
  match k with
  | KNnxJit => get_top_trace dyn (PNode [PNode (map PLeaf args); PNode []]) :: nnx
  | KNnxGrad => get_top_trace dyn (PNode (map PLeaf diff)) :: nnx
  | _ => nnx
  end.
(** transforms.py:44-57, 156-174, tracers.py:63-68 *)
Definition enter (s : tstate) (k : kind) (m : main) (args : list leaf) (diff : list leaf) (idle : bool) : tstate :=
  let dyn := if dynamic k then m else ts_dyn s in
  mkTs (m :: ts_mains s) dyn (inner_nnx k dyn args diff (ts_nnx s)) (S (ts_next s)) (ts_heap s) (ts_idle s || idle) (ts_escaped s).
(** The state outside, with jax's and nnx's context managers left (also by an exception). (transforms.py:44-57, 156-174, tracers.py:63-68) *)
Definition leave (s : tstate) (k : kind) (dyn : main) : tstate :=
  mkTs (tl (ts_mains s)) dyn (match k with KNnxJit | KNnxGrad => tl (ts_nnx s) | _ => ts_nnx s end)
       (ts_next s) (ts_heap s) (ts_idle s) (ts_escaped s).

(** transforms.py:44-74, 156-200 *)
Fixpoint bind_args (ps : list var) (vs : list leaf) (e : env) : env :=
  match ps, vs with
  | p :: ps, v :: vs => bind_args ps vs (dset p (XVal v) e)
  | _, _ => e
  end.

(** The start of a call: the state and the variables inside, the new main trace and the
    module with its copy. (transforms.py:44-74, 156-200) *)
Definition enter_call (s : tstate) (e : env) (k : kind) (m : option var) (args : list (var * var * bool)) (self : var)
    (sel : string -> passing) : (terr + tstate * env * main * option (nat * nat)) :=
  match values e (map (fun a => fst (fst a)) args) with
  | None => inl Unbound
  | Some vs =>
      let t := mkMain (ts_next s) (List.length (ts_mains s)) in
      let inner := map (pass_arg k t) (combine (map snd args) vs) in
      let e1 := bind_args (map (fun a => snd (fst a)) args) inner e in
      match takes_module k, m with
      | false, None => inr (enter s k t inner [] false, e1, t, None)
      | false, Some _ => inl BadType             (* a Module is no valid jax type *)
      | true, None => inl BadType
      | true, Some m =>
          match dget m e with
          | None => inl Unbound
          | Some (XVal _) => inl BadType
          | Some (XMod r) =>
              match nth_error (ts_heap s) r with
              | None => inl BadType
              | Some o =>
                  let given := map (pass t sel) (tm_vars o) in
                  let diff := map snd (filter (is_selected sel) given) in
                  let idle := match k with KNnxGrad => negb (existsb (is_traced sel) given) | _ => false end in
                  let s1 := enter s k t inner diff idle in
                  match current_nnx_trace s1 with
                  | None => inl NoTrace
                  | Some n =>
                      (* module.py:386-389, in [ModuleDef.merge] *)
                      let copy := List.length (ts_heap s) in
                      inr (set_heap s1 (ts_heap s ++ [mkTmod (current_jax_trace s1) n given]),
                           dset self (XMod copy) e1, t, Some (r, copy))
                  end
              end
          end
      end
  end.
(** [module.get_state()] of the copy, as it comes out of the transform. (transforms.py:52-57, 62-74) *)
Definition updates (s : tstate) (outer : list main) (t : main) (pick : nat) (copy : nat) : dict leaf :=
  match nth_error (ts_heap s) copy with
  | Some c => map (fun kv => (fst kv, lowered outer t pick (snd kv))) (tm_vars c)
  | None => []
  end.

(** running a user program that calls transforms.py:35-203, module.py:417-468 *)
Fixpoint trun (p : tprog) (s : tstate) (e : env) : tstate * env * tres :=
  match p with
  | TSkip => (s, e, Done)
  | TSeq p q => match trun p s e with
                | (s1, e1, Done) => trun q s1 e1
                | r => r
                end
  | TTry p q => match trun p s e with
                | (s1, e1, Done) => (s1, e1, Done)
                | (s1, e1, Raised _) => trun q s1 e1
                end
  | TNew x =>
      (* module.py:386-389 *)
      match current_nnx_trace s with
      | Some n => (set_heap s (ts_heap s ++ [mkTmod (current_jax_trace s) n []]), dset x (XMod (List.length (ts_heap s))) e, Done)
      | None => (s, e, Raised NoTrace)
      end
  | TRead x m a =>
      match dget m e with
      | Some (XMod r) =>
          match nth_error (ts_heap s) r with
          | Some o => match dget a (tm_vars o) with
                      | Some v => (s, dset x (XVal v) e, Done)
                      | None => (s, e, Raised NoAttribute)
                      end
          | None => (s, e, Raised BadType)
          end
      | Some (XVal _) => (s, e, Raised NoAttribute)
      | None => (s, e, Raised Unbound)
      end
  | TWrite m a x =>
      match dget m e, dget x e with
      | Some (XMod r), Some (XVal v) => let (s', r) := tsetattr s r a v in (s', e, r)
      | Some _, Some _ => (s, e, Raised BadType)
      | _, _ => (s, e, Raised Unbound)
      end
  | TOp x ys low =>
      match values e ys with
      | None => (s, e, Raised Unbound)
      | Some vs => if forallb (live s) vs then (s, dset x (XVal (op_result s vs low)) e, Done)
                   else (escape s, e, Raised Escaped)
      end
  | TCall k stateful body m args self sel outs pick =>
      match enter_call s e k m args self sel with
      | inl x => (s, e, Raised x)
      | inr (s2, e2, t, target) =>
          match trun body s2 e2 with
          | (s3, _, Raised x) => (leave s3 k (ts_dyn s), e, Raised x)
          | (s3, e3, Done) =>
              let s4 := leave s3 k (ts_dyn s) in
              match results (ts_mains s) t pick e3 outs e with
              | None => (s4, e, Raised BadType)
              | Some e4 =>
                  match target, stateful with
                  | Some (r, copy), true =>
                      match twrite_back s4 r (updates s3 (ts_mains s) t pick copy) with
                      | (s5, Done) => (s5, e4, Done)
                      | (s5, Raised x) => (s5, e, Raised x)
                      end
                  | _, _ => (s4, e4, Done)
                  end
              end
          end
      end
  end.

(** A python process: jax's evaluation trace is the only one (tracers.py:55). *)
Definition base : main := mkMain 0 0.
(** tracers.py:52-60 *)
Definition start : tstate := mkTs [base] base [base] 1 [] false false.
