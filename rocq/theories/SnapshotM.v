(** SnapshotM: models [Module.get_state], [Module.get_module_def] and [Module.partition]
    (module.py:541-562, 771-834) called by a thread while other threads go on.

    The traversals share memory with the others only where they read
    [vars(module).items()] (module.py:795, 828; [sorted] copies the items in one step)
    and [module._module__state] (module.py:786, 808, 823, 826).  Between two such reads
    other threads may do anything. *)
From Verif Require Import PyBase ValuesM FiltersM StateM ModuleM.
Local Open Scope string_scope.
Local Open Scope list_scope.

(** The memory and what the other threads will do to it: the actions before the first
    read to come, before the second, and so on.  (threads around module.py:771-834) *)
Record running := mkRun { ru_world : world; ru_acts : list (list (world -> world)) }.
(** The other threads run until the next read. (threads around module.py:771-834) *)
Definition others_act (s : running) : running :=
  match ru_acts s with
  | [] => s
  | now :: later => mkRun (fold_left (fun w act => act w) now (ru_world s)) later
  end.

(** module.py:828-834: the loop of [_iter_state_recursive] over the items that were read. *)
Fixpoint iter_fields_during (rec : running -> nat -> list nat -> list string -> result (list (string * attr) * list nat * running))
    (nt : list string) (l : list (string * attr)) (s : running) (seen : list nat) (parts : list string)
  : result (list (string * attr) * list nat * running) :=
  match l with
  | [] => Ok ([], seen, s)
  | (name, a) :: t =>
      match a with
      | ARaw (PyMod r) =>
          do (xs, seen1, s1) <- rec s r seen (parts ++ [name]);
          do (ys, seen2, s2) <- iter_fields_during rec nt t s1 seen1 parts;
          Ok (xs ++ ys, seen2, s2)
      | _ =>
          do (ys, seen2, s2) <- iter_fields_during rec nt t s seen parts;
          if is_node nt a then Ok ((join_path (parts ++ [name]), a) :: ys, seen2, s2)
          else Ok (ys, seen2, s2)
      end
  end.
(** module.py:820-834 [_iter_state_recursive]; the id of a module never changes. *)
Fixpoint iter_state_during (fuel : nat) (s : running) (r : nat) (seen : list nat) (parts : list string)
  {struct fuel} : result (list (string * attr) * list nat * running) :=
  match fuel with
  | 0 => Err RecursionError
  | S n =>
      let s1 := others_act s in
      match get_obj (ru_world s1) r with
      | None => Err OutOfModel
      | Some o =>
          if nmem (m_id o) seen then Ok ([], seen, s1)
          else iter_fields_during (iter_state_during n) (w_nodes (ru_world s1)) (sort_by_key (m_vars o)) s1
                                  (seen ++ [m_id o]) parts
      end
  end.
(** module.py:767-768 [_get_module_state] / 559 [Module.get_state]. *)
Definition get_state_during (fuel : nat) (s : running) (r : nat) : result (state * running) :=
  do (xs, _, s1) <- iter_state_during fuel s r [] []; Ok (mk_state xs, s1).

(** module.py:795-801: the loop of [_make_module_def_recursive]. *)
Fixpoint make_fields_during (rec : running -> nat -> list nat -> result (mdef * list nat * running)) (nt : list string)
    (l : list (string * attr)) (s : running) (mi : list nat)
  : result (list (string * mdef) * list (string * attr) * list nat * running) :=
  match l with
  | [] => Ok ([], [], mi, s)
  | (name, a) :: t =>
      match a with
      | ARaw (PyMod r) =>
          do (d, mi1, s1) <- rec s r mi;
          do (subs, st, mi2, s2) <- make_fields_during rec nt t s1 mi1;
          Ok ((name, d) :: subs, st, mi2, s2)
      | _ =>
          do (subs, st, mi2, s2) <- make_fields_during rec nt t s mi;
          if negb (is_node nt a) && negb (starts_with "_module__" name)
          then Ok (subs, (name, a) :: st, mi2, s2)
          else Ok (subs, st, mi2, s2)
      end
  end.
(** module.py:781-810 [_make_module_def_recursive]: [is_initializing] is read after the
    submodules (808). *)
Fixpoint make_def_during (fuel : nat) (s : running) (r : nat) (mi : list nat) {struct fuel}
  : result (mdef * list nat * running) :=
  match fuel with
  | 0 => Err RecursionError
  | S n =>
      let s1 := others_act s in
      match get_obj (ru_world s1) r with
      | None => Err OutOfModel
      | Some o =>
          match index_of (m_id o) mi with
          | Some i => Ok (MRef i, mi, s1)
          | None =>
              do (subs, st, mi', s2) <- make_fields_during (make_def_during n) (w_nodes (ru_world s1))
                                                           (sort_by_key (m_vars o)) s1 (mi ++ [m_id o]);
              let s3 := others_act s2 in
              match get_obj (ru_world s3) r with
              | None => Err OutOfModel
              | Some o3 => Ok (MDef (m_cls o) (List.length mi) subs st (m_init o3), mi', s3)
              end
          end
      end
  end.
(** module.py:771-778 [_get_module_def] / 562 [get_module_def]. *)
Definition get_module_def_during (fuel : nat) (s : running) (r : nat) : result (mdef * running) :=
  do (d, _, s1) <- make_def_during fuel s r [];
  match d with MDef _ _ _ _ _ => Ok (d, s1) | MRef _ => Err AssertionError end.

(** module.py:541-557 [Module.partition]: the definition first, then the state. *)
Definition partition_during (fuel : nat) (s : running) (r : nat) (fs : list filt) : result (pure * running) :=
  do (d, s1) <- get_module_def_during fuel s r;
  do (st, s2) <- get_state_during fuel s1 r;
  do x <- partition_state st fs;
  Ok (mkPure x d, s2).

(** [module.name = value] by the thread that owns the module, or whatever thread: if it
    raises nothing is changed. (module.py:458-468) *)
Definition assign (r : nat) (name : string) (v : attr) (w : world) : world :=
  match setattr w r name v with Ok w' => w' | Err _ => w end.
