(** What C90 compares: a program that keeps a module taken apart (States and a
    definition, as [Pure] holds them) and works on it with [apply], [call],
    [partition] and [jax.tree_map], and the same program written on the module
    itself. *)
From Verif Require Import PyBase ValuesM FiltersM StateM ModuleM PureM Spec_Module Spec_Prog TransformM.
Local Open Scope string_scope.
Local Open Scope list_scope.

(** One statement of such a program.  [t] is the trace the statement runs in: the
    current one, or that of a jax.jit around it. *)
Inductive stmt (A : Type) : Type :=
| Apply (t : trace_state) (keep : bool) (f : prog A)   (** [y, p = p.apply( ... )]; with [keep], [y, (states, _) = moduledef.apply( *states )] *)
| Call (t : trace_state) (f : prog A)                  (** [y = p.call( ... )] *)
| Split (fs : list filt)                       (** [p = p.partition( *fs )] *)
| Map (g : string -> attr -> attr).            (** [states = jax.tree_map(g, states)] *)
Arguments Apply {A}. Arguments Call {A}. Arguments Split {A}. Arguments Map {A}.

(** The entries of a State rewritten one by one. *)
Definition on_values (g : string -> attr -> attr) (s : state) : state := map (fun ka => (fst ka, g (fst ka) (snd ka))) s.
Definition on_states (g : string -> attr -> attr) (x : sts) : sts :=
  match x with One s => One (on_values g s) | Many l => Many (map (on_values g) l) end.

(** The program on the parts: the world, the parts held, what the statement
    returned ([None]: nothing).  A statement that raises leaves the variable [p]
    as it was. *)
Definition on_parts {A} (v : world) (p : pure) (s : stmt A) : world * pure * result (option A) :=
  match s with
  | Apply t keep f =>
      match mdef_apply (set_trace v t) (p_def p) (sts_list (p_states p)) (user_fun f) with
      | (v2, Ok (y, q)) => (set_trace v2 (w_trace v), if keep then mkPure (p_states q) (p_def p) else q, Ok (Some y))
      | (v2, Err e) => (set_trace v2 (w_trace v), p, Err e)
      end
  | Call t f =>
      let (v2, res) := pure_call (set_trace v t) p (user_fun f) in
      (set_trace v2 (w_trace v), p, rmap Some res)
  | Split fs =>
      match pure_partition p fs with
      | Ok q => (v, q, Ok None)
      | Err e => (v, p, Err e)
      end
  | Map g => (v, mkPure (on_states g (p_states p)) (p_def p), Ok None)
  end.
Fixpoint functionally {A} (l : list (stmt A)) (v : world) (p : pure) : world * pure * list (result (option A)) :=
  match l with
  | [] => (v, p, [])
  | s :: l => let '(v1, p1, x) := on_parts v p s in
              let '(v2, p2, xs) := functionally l v1 p1 in (v2, p2, x :: xs)
  end.

(** The same program on the module [r]: [y = f(m)], undone if it raises; [f] on
    a copy; nothing to do for [partition]; [m.update_state( ... )]. *)
Definition on_module {A} (r : nat) (w : world) (s : stmt A) : world * result (option A) :=
  match s with
  | Apply _ _ f => match run f w [r] with (w1, Ok y) => (w1, Ok (Some y)) | (_, Err e) => (w, Err e) end
  | Call _ f => (w, rmap Some (snd (run f w [r])))
  | Split fs => (w, rmap (fun _ => None) (module_partition w r fs))
  | Map g => match get_state w r with
             | Ok s => let (w1, res) := update_state w r (UStates (One (on_values g s))) in (w1, rmap (fun _ => None) res)
             | Err e => (w, Err e)
             end
  end.
Fixpoint imperatively {A} (r : nat) (l : list (stmt A)) (w : world) : world * list (result (option A)) :=
  match l with
  | [] => (w, [])
  | s :: l => let (w1, x) := on_module r w s in
              let (w2, xs) := imperatively r l w1 in (w2, x :: xs)
  end.

(** The parts [p] are those of the module [r]: its definition, and States that
    hold together its state. *)
Definition parts_of (p : pure) (w : world) (r : nat) : Prop :=
  get_module_def w r = Ok (p_def p) /\ get_state w r = pure_get_state p.

(** What is asked of a statement run on the module in [w]: user code writes
    proper values; what it leaves has attribute names that paths can be made of;
    a program that keeps the first definition must not need another one; a
    function mapped over the States turns node values into node values and
    leaves class and metadata of containers alone. *)
Definition well_behaved (w : world) (g : string -> attr -> attr) : Prop :=
  forall k a, plain_attr a -> node_value w a -> plain_attr (g k a) /\ node_value w (g k a) /\ overwrites a (g k a) (g k a).
Definition good_stmt {A} (r : nat) (w : world) (s : stmt A) : Prop :=
  match s with
  | Apply _ keep f => ok_prog f /\ forall w1 y, run f w [r] = (w1, Ok y) ->
      names_ok w1 r /\ (keep = true -> get_module_def w1 r = get_module_def w r)
  | Call _ f => ok_prog f
  | Split _ => True
  | Map g => well_behaved w g
  end.
Fixpoint good {A} (r : nat) (w : world) (l : list (stmt A)) : Prop :=
  match l with
  | [] => True
  | s :: l => good_stmt r w s /\ good r (fst (on_module r w s)) l
  end.
