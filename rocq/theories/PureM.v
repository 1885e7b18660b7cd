(** PureM: the methods of [Pure] (module.py:192-348) other than merge/apply/call
    (in ModuleM), and the delayed accessors behind [apply], [call] and [init]
    (module.py:30-60). *)
From Verif Require Import PyBase ValuesM FiltersM StateM ModuleM.
Local Open Scope string_scope.
Local Open Scope list_scope.

(** module.py:230-233 [Pure.get_state].  [State.merge()] without arguments is a
    TypeError. *)
Definition pure_get_state (p : pure) : result state :=
  match p_states p with
  | One s => Ok s
  | Many (x :: xs) => Ok (state_merge x xs)
  | Many [] => Err TypeError
  end.

(** module.py:253-262 [Pure.filter]. *)
Definition pure_filter (p : pure) (f : filt) (fs : list filt) : result sts :=
  do s <- pure_get_state p; state_filter s f fs.

(** module.py:282-297 [Pure.partition]. *)
Definition pure_partition (p : pure) (fs : list filt) : result pure :=
  do s <- pure_get_state p;
  do x <- partition_state s fs;
  Ok (mkPure x (p_def p)).

(** module.py:315-328 [Pure.pop_state]: the last output of
    [state.partition( *filters, ...)] is the rest. *)
Definition unpack (l : list state) : sts := match l with [s] => One s | _ => Many l end.
(** module.py:315-328 *)
Definition pure_pop_state (p : pure) (f : filt) (fs : list filt) : result (sts * pure) :=
  do s <- pure_get_state p;
  do x <- state_partition s f (fs ++ [FEllipsis]);
  Ok (unpack (removelast (sts_list x)), mkPure (One (last (sts_list x) [])) (p_def p)).

(** module.py:330-363 [Pure.update_state].  Updates that are none of the listed
    types are not modelled. *)
Definition updates_states (w : world) (u : updates) : result (list state) :=
  match u with
  | UModule r => do s <- get_state w r; Ok [s]
  | UPure p => Ok (sts_list (p_states p))
  | UStates x => Ok (sts_list x)
  end.
(** module.py:330-362 *)
Definition pure_update_state (w : world) (p : pure) (u : updates) : result pure :=
  do us <- updates_states w u;
  match us ++ sts_list (p_states p) with
  | x :: xs => Ok (mkPure (One (state_merge x xs)) (p_def p))
  | [] => Err TypeError
  end.

(** ** Delayed accessors *)

(** one access in a chain such as [m.apply.a["k"].b]. (module.py:35-42, 53-60) *)
Inductive access : Type := GetAttr (n : string) | GetItem (k : string).

(** module.py:49-60 [DelayedAccessor]: [accessor] is the function applied to the
    module; it is represented by the accesses it performs.  The lambda built by
    [__getattr__] and [__getitem__] performs only the new access: [self.accessor]
    does not occur in it. *)
Definition accessor : Type := list access.
(** module.py:45-51 *)
Definition accessor_identity : accessor := [].
(** module.py:56-60 *)
Definition accessor_step (self : accessor) (a : access) : accessor := [a].

(** module.py:30-42 [CallableProxy]: each access is forwarded to the delayed
    accessor; the names [_proxy_context], [_proxy_callable] and [accessor], which
    are real attributes of the proxy objects, are not modelled. *)
Definition proxy (chain : list access) : accessor := fold_left accessor_step chain accessor_identity.

(** Applying the accessor to an object; [get] is Python's [getattr]/[getitem] on
    objects of any kind. (module.py:53-54) *)
Definition run_accessor {O} (get : O -> access -> result O) (acc : accessor) (x : O) : result O :=
  fold_left (fun r a => do y <- r; get y a) acc (Ok x).

(** module.py:157-161, 224-227, 509-512, 629-633: [fn = accessor(module);
    fn( *args )]: what [apply], [call] and [init] call. *)
Definition called {O} (get : O -> access -> result O) (chain : list access) (m : O) : result O :=
  run_accessor get (proxy chain) m.
