(** What C105 compares: the programs of C90 that also take values out again with
    [pop_state], such as intermediate values that a call has stored in the module;
    on the module taken apart, and on the module itself. *)
From Verif Require Import PyBase ValuesM FiltersM StateM ModuleM PureM Spec_Module Spec_Path Spec_Prog TransformM Spec_Functional.
Local Open Scope string_scope.
Local Open Scope list_scope.

Inductive step (A : Type) : Type :=
| Stmt (s : stmt A)                            (** a statement of C90 *)
| Pop (f : filt) (fs : list filt).             (** [out, p = p.pop_state(f, *fs)]; on the module, [out = m.pop_state(f, *fs)] *)
Arguments Stmt {A}. Arguments Pop {A}.

(** What a step gives: the output of a statement, or the States taken out. *)
Definition outcome (A : Type) : Type := (option A + sts)%type.

(** One step on the parts; one that raises leaves the variable [p] as it was. *)
Definition step_on_parts {A} (v : world) (p : pure) (s : step A) : world * pure * result (outcome A) :=
  match s with
  | Stmt s => let '(v1, p1, x) := on_parts v p s in (v1, p1, rmap inl x)
  | Pop f fs => match pure_pop_state p f fs with
                | Ok (x, q) => (v, q, Ok (inr x))
                | Err e => (v, p, Err e)
                end
  end.
Fixpoint run_on_parts {A} (l : list (step A)) (v : world) (p : pure) : world * pure * list (result (outcome A)) :=
  match l with
  | [] => (v, p, [])
  | s :: l => let '(v1, p1, x) := step_on_parts v p s in
              let '(v2, p2, xs) := run_on_parts l v1 p1 in (v2, p2, x :: xs)
  end.

(** One step on the module [r].  The recursion is given one level per object. *)
Definition step_on_module {A} (r : nat) (w : world) (s : step A) : world * result (outcome A) :=
  match s with
  | Stmt s => let (w1, x) := on_module r w s in (w1, rmap inl x)
  | Pop f fs => let (w1, x) := pop_state (S (List.length (w_heap w))) w r (f :: fs) in (w1, rmap inr x)
  end.
Fixpoint run_on_module {A} (r : nat) (l : list (step A)) (w : world) : world * list (result (outcome A)) :=
  match l with
  | [] => (w, [])
  | s :: l => let (w1, x) := step_on_module r w s in
              let (w2, xs) := run_on_module r l w1 in (w2, x :: xs)
  end.

(** [Module.pop_state] names a Module by the first path in order of assignment,
    [get_state] by the first in order of names: they are the same path. *)
Definition same_names (w : world) (r : nat) : Prop :=
  forall p q y, first_assigned w r p y -> first_path w r q y -> p = q.

(** What is asked of a step run on the module in [w].  Of [pop_state]: no cycle
    below the module, the same names on both sides, and no [...] among the filters;
    the filters may be wrong. *)
Definition good_step {A} (r : nat) (w : world) (s : step A) : Prop :=
  match s with
  | Stmt s => good_stmt r w s
  | Pop f fs => acyclic w r /\ same_names w r /\ forall g, In g (f :: fs) -> g <> FEllipsis
  end.
Fixpoint good_steps {A} (r : nat) (w : world) (l : list (step A)) : Prop :=
  match l with
  | [] => True
  | s :: l => good_step r w s /\ good_steps r (fst (step_on_module r w s)) l
  end.
