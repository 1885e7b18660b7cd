(** RematArgsM: models the arguments of a rematerialised function and the class
    [Remat] (nnx/transforms.py:753-929).  [ScanM.remat_apply] has the part of
    remat that deals with the module and the context.

    [jax.checkpoint] is taken by its contract.  [static_argnums] are positions
    among all arguments it is called with; a negative one counts from the end, one
    that is out of range is refused (ValueError).  A static argument is passed as
    it is, hashable or not.  The leaves of all other arguments must be arrays or
    numbers (TypeError).  The function runs under another trace, and the leaves of
    its result must be arrays or numbers (TypeError).  Which values are saved
    ([prevent_cse], [policy]) does not change results. *)
From Coq Require Import ZArith.
From Verif Require Import PyBase ValuesM FiltersM StateM ModuleM ContextM TransformM JitArgsM ScanM.
Local Open Scope string_scope.
Local Open Scope list_scope.

(** transforms.py:783: [static_argnums: int | tuple[int, ...]] *)
Inductive argnums : Type := NumInt (z : Z) | NumTuple (l : list Z).

(** transforms.py:786-791: [RematOptions.__post_init__] *)
Definition remat_options (a : argnums) : list Z :=
  map (fun x => if (0 <=? x)%Z then (x + 2)%Z else x) (match a with NumInt z => [z] | NumTuple l => l end).

(** jax.checkpoint, called with [n] arguments: is argument [i] static? ([jax.checkpoint] as called at transforms.py:882-891) *)
Definition in_range (n : nat) (d : Z) : bool := ((- Z.of_nat n <=? d) && (d <? Z.of_nat n))%Z.
(** [jax.checkpoint] as called at transforms.py:882-891 *)
Definition static_at (nums : list Z) (n i : nat) : bool := existsb (fun d => Z.eqb (d mod Z.of_nat n) (Z.of_nat i)) nums.
(** the leaves of the arguments from position [i] on that are not static. ([jax.checkpoint] as called at transforms.py:882-891) *)
Fixpoint dyn_leaves (nums : list Z) (n i : nat) (ls : list (list leaf)) : list leaf :=
  match ls with
  | [] => []
  | l :: ls' => (if static_at nums n i then [] else l) ++ dyn_leaves nums n (S i) ls'
  end.

(** The user function: positional arguments, the context (see [scanned] in ScanM),
    world, module. (transforms.py:850-891) *)
Definition rematted : Type := list arg -> option pctx -> world -> nat -> world * result arg.

(** transforms.py:861-867: the context and its keys *)
Definition remat_keys (pc : option pctx) : list leaf :=
  match pc with None => [] | Some pc => map (fun nk => LKey (snd nk)) (pc_keys pc) end.

(** transforms.py:849-891 [remat_apply], with the arguments.  [nums] is
    [options.static_argnums]; jax.checkpoint is called with [state], [keys] and
    [args]. *)
Definition remat_args (nums : list Z) (t : trace_state) (fn : rematted)
    (w : world) (r : nat) (args : list arg) (ctx : option context) (ss : list stream)
  : world * list stream * result arg :=
  match module_partition w r [] with
  | Err e => (w, ss, Err e)
  | Ok p =>
      match (match ctx with
             | None => (Ok None, ss)
             | Some x => match context_partition (w_trace w) x ss with
                         | (Err e, ss') => (Err e, ss')
                         | (Ok pc, ss') => (Ok (Some pc), ss')
                         end
             end) with
      | (Err e, ss') => (w, ss', Err e)
      | (Ok pc, ss') =>
          let given := flat_map state_leaves (sts_list (p_states p)) :: remat_keys pc :: map arg_leaves args in
          if negb (forallb (in_range (List.length given)) nums) then (w, ss', Err ValueError)
          else if negb (forallb leaf_ok (dyn_leaves nums (List.length given) 0 given)) then (w, ss', Err TypeError)
          else match pure_merge (set_trace w t) p with
               | Err e => (w, ss', Err e)
               | Ok (m, w1) =>
                   match fn args pc w1 m with
                   | (w2, Err e) => (set_trace w2 (w_trace w), ss', Err e)
                   | (w2, Ok out) =>
                       match module_partition w2 m [] with
                       | Err e => (set_trace w2 (w_trace w), ss', Err e)
                       | Ok q =>
                           if negb (forallb leaf_ok (flat_map state_leaves (sts_list (p_states q)) ++ arg_leaves out))
                           then (set_trace w2 (w_trace w), ss', Err TypeError)
                           else match update_state (set_trace w2 (w_trace w)) r (UStates (p_states q)) with
                                | (w3, Err e) => (w3, ss', Err e)
                                | (w3, Ok _) => (w3, ss', Ok out)
                                end
                       end
                   end
               end
      end
  end.

(** transforms.py:753-816: [nnx.Remat(M, static_argnums=...)( *args, **kwargs)]: [RematMeta.__call__],
    [ModuleMeta._meta_call] (module.py:417-420) and [Remat.__init__].  [ctor] is
    [M] with the arguments; [cv] and [ov] are the values of [module_constructor] and [options]. *)
Definition Remat_cls : cls := ["Remat"; "Module"; "Representable"; "Generic"; "object"].
(** transforms.py:754-775, 796-814 *)
Definition remat_new (ctor : world -> world * result nat) (cv ov : pyval) (w : world) : world * result nat :=
  let (r, w0) := new_module w Remat_cls in
  match (do w1 <- setattr w0 r "options" (ARaw ov); setattr w1 r "module_constructor" (ARaw cv)) with
  | Err e => (w0, Err e)
  | Ok w1 =>
      match ctor w1 with
      | (w2, Err e) => (w2, Err e)
      | (w2, Ok m) =>
          match setattr w2 r "remat_module" (ARaw (PyMod m)) with
          | Err e => (w2, Err e)
          | Ok w3 => (w3, Ok r)
          end
      end
  end.

(** transforms.py:818-846: [remat( *args, ctx=ctx)] and [remat.call.method( *args, ctx=ctx)] *)
Definition remat_call (a : argnums) (t : trace_state) (fn : rematted) (w : world) (r : nat)
    (args : list arg) (ctx : option context) (ss : list stream) : world * list stream * result arg :=
  match getattr w r "remat_module" with
  | Err e => (w, ss, Err e)
  | Ok (RVal (PyMod m)) => remat_args (remat_options a) t fn w m args ctx ss
  | Ok _ => (w, ss, Err OutOfModel)
  end.
