(** TrainM: models nnx/helpers.py:98-143, [TrainState], a Pytree object (PytreeM) whose
    fields hold a ModuleDef, States, an optax transformation and arrays; these are
    opaque values here ([pyval]). *)
From Verif Require Import PyBase ValuesM StateM ModuleM PytreeM.
Local Open Scope string_scope.
Local Open Scope list_scope.

(** helpers.py:98: not a dataclass, not mutable. *)
Definition TrainState_cls : pclass := mkPcls ["TrainState"; "Pytree"; "Representable"; "Generic"; "object"] false None.
(** pytreelib.py:19-20. *)
Definition TreeNode_cls : cls := ["TreeNode"; "NodeBase"; "Container"; "Representable"; "Generic"; "object"].

(** Statements on a heap that may raise: the heap changes made before the exception stay. (Python's sequencing of statements, for helpers.py:101-143) *)
Definition hbind {A B} (x : pheap * result A) (f : pheap -> A -> pheap * result B) : pheap * result B :=
  match x with (h, Ok a) => f h a | (h, Err e) => (h, Err e) end.
(** An expression that does not change the heap. (Python's sequencing of statements, for helpers.py:101-143) *)
Definition heval {A B} (h : pheap) (e : result A) (f : A -> pheap * result B) : pheap * result B :=
  match e with Ok a => f a | Err e => (h, Err e) end.

(** [obj.name] used as a value. (helpers.py:120-143) *)
Definition pread (h : pheap) (r : nat) (name : string) : result pyval :=
  do f <- pgetattr h r name;
  match f with FAttr (ARaw v) => Ok v | _ => Err OutOfModel end.
(** [pytreelib.TreeNode(v)]. (pytreelib.py:19-20) *)
Definition tree_node (v : pyval) : result attr := rmap ACont (container_call TreeNode_cls (CVal v) []).

Section Train.
(** optax and jax.numpy: [tx.init(params)], [tx.update(grads, opt_state, params)],
    [optax.apply_updates(params, updates)], [jnp.asarray(x)] and [x + 1] are arbitrary
    functions that may raise. *)
Variable tx_init : pyval -> pyval -> result pyval.
Variable tx_update : pyval -> pyval -> pyval -> pyval -> result (pyval * pyval).
Variable apply_updates : pyval -> pyval -> result pyval.
Variable asarray : pyval -> result pyval.
Variable add_one : pyval -> result pyval.

(** helpers.py:100-115 [__init__], run by [PytreeMeta.call].  A keyword that is also
    the name of a parameter cannot be in [kwargs]: python raises a TypeError at the
    call. *)
Definition train_params : list string := ["self"; "moduledef"; "params"; "tx"; "step"].
(** helpers.py:101-116 *)
Definition train_init (r : nat) (mdef params tx step : pyval) (kwargs : dict attr) (h : pheap)
  : pheap * result unit :=
  hbind (psetattr h r "moduledef" (ARaw mdef)) (fun h _ =>
  heval h (tree_node params) (fun n =>
  hbind (psetattr h r "params" n) (fun h _ =>
  hbind (psetattr h r "tx" (ARaw tx)) (fun h _ =>
  heval h (pread h r "params") (fun p =>
  heval h (tx_init tx p) (fun s =>
  heval h (tree_node s) (fun n =>
  hbind (psetattr h r "opt_state" n) (fun h _ =>
  heval h (asarray step) (fun s =>
  heval h (tree_node s) (fun n =>
  hbind (psetattr h r "step" n) (fun h _ =>
  set_all r kwargs h))))))))))).
(** helpers.py:101-116, pytreelib.py:47-67 *)
Definition train_new (h : pheap) (mdef params tx step : pyval) (kwargs : dict attr) : pheap * result unit :=
  if existsb (fun n => dmem n kwargs) train_params then (h, Err TypeError)
  else pnew TrainState_cls (train_init (List.length h) mdef params tx step kwargs) h.

(** helpers.py:133-143 [apply_gradients]; the new object is at index [length h].  A
    keyword given twice is a TypeError, raised when [replace] is called (137-142). *)
Definition apply_gradients (h : pheap) (r : nat) (grads : pyval) (kwargs : dict attr) : pheap * result unit :=
  if existsb (fun n => dmem n kwargs) ["self"; "grads"] then (h, Err TypeError) else
  heval h (pread h r "tx") (fun tx =>
  heval h (pread h r "opt_state") (fun opt =>
  heval h (pread h r "params") (fun params =>
  heval h (tx_update tx grads opt params) (fun uo =>
  heval h (pread h r "params") (fun params =>
  heval h (apply_updates params (fst uo)) (fun params' =>
  heval h (pread h r "step") (fun step =>
  heval h (add_one step) (fun step' =>
  if existsb (fun n => dmem n kwargs) ["params"; "opt_state"; "step"] then (h, Err TypeError)
  else preplace h r (("params", ARaw params') :: ("opt_state", ARaw (snd uo)) :: ("step", ARaw step') :: kwargs))))))))).

(** A loop of updates: [ts = ts.apply_gradients(g, **kw)] for each of the given
    gradients, from the object at [r]; returns the last object. (user code calling helpers.py:134-143 repeatedly) *)
Fixpoint train_loop (h : pheap) (r : nat) (gs : list (pyval * dict attr)) : pheap * result nat :=
  match gs with
  | [] => (h, Ok r)
  | (g, kw) :: t => hbind (apply_gradients h r g kw) (fun h' _ => train_loop h' (List.length h) t)
  end.

(** What the ModuleDef and State objects are. *)
Variable as_def : pyval -> option mdef.
Variable as_state : pyval -> option state.

(** helpers.py:122-131 [apply]: an argument is a State or the name of a field. *)
Inductive state_arg : Type := SName (n : string) | SState (s : state).
(** helpers.py:123-132 *)
Definition resolve (h : pheap) (r : nat) (a : state_arg) : result state :=
  match a with
  | SState s => Ok s
  | SName n => do v <- pread h r n;
               match as_state v with Some s => Ok s | None => Err OutOfModel end
  end.
(** helpers.py:123-132 *)
Definition train_apply {A} (h : pheap) (w : world) (r : nat) (args : list state_arg)
    (body : world -> nat -> world * result A) : world * result (A * pure) :=
  match (do d <- pread h r "moduledef";
         do ss <- rmapM (resolve h r) args;
         match as_def d with Some d => Ok (d, ss) | None => Err OutOfModel end) with
  | Ok (d, ss) => mdef_apply w d ss body
  | Err e => (w, Err e)
  end.
End Train.
