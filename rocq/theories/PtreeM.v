(** PtreeM: models jax flattening and flax serialization of Pytree values
    (nnx/pytreelib.py:150-227).  Values are trees here: a Pytree object is given with
    its fields in full, so sharing between objects is not represented. *)
From Verif Require Import PyBase ValuesM PytreeM.
Local Open Scope string_scope.
Local Open Scope list_scope.

(** [TVal]: a value that is not looked into (None, numbers, arrays, ...; tuples and
    lists are opaque too, a simplification).  [TBox]: a container.  [TNames]: the
    list of names in [_pytree__sorted_fields]. (the fields of pytreelib.py:70-260) *)
Inductive ptree : Type :=
| TVal (v : pyval)
| TNames (l : list string)
| TBox (c : cls) (meta : dict pyval) (x : ptree)
| TDict (d : list (string * ptree))
| TObj (k : pclass) (vars : list (string * ptree)).

(** nodes.py:14-15, for the node types registered by nnx. *)
Definition cls_of_tree (t : ptree) : cls :=
  match t with
  | TVal v => cls_of_val v
  | TNames _ => ["list"; "object"]
  | TBox c _ _ => c
  | TDict _ => ["dict"; "object"]
  | TObj k _ => k_cls k
  end.
(** nodes.py:14-15 *)
Definition is_node_t (t : ptree) : bool :=
  existsb (fun n => smem n (cls_of_tree t)) default_node_types.

(** A jax treedef. (jax's flattening, registered at pytreelib.py:102-151, containers.py:109-136, 180-188) *)
Inductive tdef : Type :=
| DLeaf
| DNone
| DBox (c : cls) (meta : dict pyval) (d : tdef)
| DStatic (x : ptree)
| DDict (ds : list (string * tdef))
| DObj (k : pclass) (ds : list (string * tdef)) (static : dict ptree).

(** jax's flattening, registered at pytreelib.py:102-151, containers.py:109-136, 180-188 *)
Definition flat : Type := list ptree * tdef.

(** pytreelib.py:163-176: the loop over the field names.  [fl] has for every
    variable its value and, computed ahead, its flattening, which is looked at for
    nodes only. *)
Fixpoint gather (sel : ptree -> bool) (names : list string) (fl : dict (ptree * result flat))
  : result (list ptree * list (string * tdef) * list (string * ptree)) :=
  match names with
  | [] => Ok ([], [], [])
  | n :: r =>
      match dget n fl with
      | None => Err KeyError
      | Some (v, fv) =>
          if sel v then
            do ld <- fv;
            do g <- gather sel r fl;
            Ok (fst ld ++ fst (fst g), (n, snd ld) :: snd (fst g), snd g)
          else
            do g <- gather sel r fl;
            Ok (fst (fst g), snd (fst g), (n, v) :: snd g)
      end
  end.

(** containers.py:107-138: [__init_subclass__] registers every proper subclass of
    NodeBase with jax. *)
Definition registered (c : cls) : bool := smem "NodeBase" (tl c).

(** [jax.tree_util.tree_flatten]: None has no leaves; dicts are flattened in key
    order; proper subclasses of NodeBase as registered in containers.py:107-138; a
    Static (but no subclass of it) has no leaves, its value is part of the treedef
    (containers.py:180-188); Pytree subclasses with [_pytree__flatten] (pytreelib.py:150-178); everything else is a leaf. *)
Fixpoint flatten (t : ptree) : result flat :=
  match t with
  | TVal PyNone => Ok ([], DNone)
  | TVal _ => Ok ([t], DLeaf)
  | TNames _ => Ok ([t], DLeaf)
  | TBox c m x => if registered c then do ld <- flatten x; Ok (fst ld, DBox c m (snd ld))
                  else if cls_eqb c Static_cls then Ok ([], DStatic x)
                  else Ok ([t], DLeaf)
  | TDict d =>
      let fl := (fix go (d : list (string * ptree)) : dict (ptree * result flat) :=
                   match d with [] => [] | (n, v) :: r => (n, (v, flatten v)) :: go r end) d in
      do g <- gather (fun _ => true) (keys (sort_by_key d)) fl;
      Ok (fst (fst g), DDict (snd (fst g)))
  | TObj k d =>
      let fl := (fix go (d : list (string * ptree)) : dict (ptree * result flat) :=
                   match d with [] => [] | (n, v) :: r => (n, (v, flatten v)) :: go r end) d in
      match dget F_SORTED d with
      | Some (TNames names) =>
          do g <- gather is_node_t names fl;
          Ok (fst (fst g), DObj k (snd (fst g)) (dict_of (snd g)))
      | Some _ => Err OutOfModel
      | None => Err AttributeError
      end
  end.

(** containers.py:26-41: a container class called with a value and metadata. *)
Definition box_call (c : cls) (md : dict pyval) (x : ptree) : result ptree :=
  do m <- init_meta c md;
  match x with
  | TBox c' m' y => if cls_eqb c' c && dict_eqb m' m then Ok (TBox c m y) else Err ValueError
  | _ => Ok (TBox c m x)
  end.

(** [jax.tree_util.tree_unflatten]: takes its leaves from the front of the list. (pytreelib.py:180-189, containers.py:126-129, 184-185) *)
Fixpoint unflatten (d : tdef) (ls : list ptree) : result (ptree * list ptree) :=
  match d with
  | DLeaf => match ls with [] => Err ValueError | x :: r => Ok (x, r) end
  | DNone => Ok (TVal PyNone, ls)
  | DBox c m d => do xr <- unflatten d ls; do b <- box_call c m (fst xr); Ok (b, snd xr)
  | DStatic x => do b <- box_call Static_cls [] x; Ok (b, ls)   (* containers.py:184-185 *)
  | DDict ds =>
      do cr <- (fix go (ds : list (string * tdef)) (ls : list ptree) : result (dict ptree * list ptree) :=
                  match ds with
                  | [] => Ok ([], ls)
                  | (n, d) :: r => do xr <- unflatten d ls; do cr <- go r (snd xr); Ok ((n, fst xr) :: fst cr, snd cr)
                  end) ds ls;
      Ok (TDict (dict_of (fst cr)), snd cr)
  | DObj k ds st =>
      (* pytreelib.py:180-190 *)
      do cr <- (fix go (ds : list (string * tdef)) (ls : list ptree) : result (dict ptree * list ptree) :=
                  match ds with
                  | [] => Ok ([], ls)
                  | (n, d) :: r => do xr <- unflatten d ls; do cr <- go r (snd xr); Ok ((n, fst xr) :: fst cr, snd cr)
                  end) ds ls;
      Ok (TObj k (dupdate (dict_of (fst cr)) st), snd cr)
  end.

(** ** flax serialization.  [flax.serialization] itself is not in the repository; it is
    modelled by its documented behaviour: dicts and registered classes (all Pytree
    subclasses) are converted, values of any other class are returned as they are. *)
(** pytreelib.py:192-201 [_to_flax_state_dict]: [getattr] unwraps a container. *)
Fixpoint to_sd (t : ptree) : ptree :=
  match t with
  | TDict d =>
      TDict ((fix go (d : list (string * ptree)) : dict ptree :=
                match d with [] => [] | (n, v) :: r => (n, to_sd v) :: go r end) d)
  | TObj k d =>
      TDict ((fix go (d : list (string * ptree)) : dict ptree :=
                match d with
                | [] => []
                | (n, v) :: r => if is_node_t v
                                 then (n, match v with TBox _ _ x => to_sd x | _ => to_sd v end) :: go r
                                 else go r
                end) d)
  | _ => t
  end.

(** pytreelib.py:87-102 [_setattr] on a copy under way, for a field that is there. *)
Definition tset (d : dict ptree) (n : string) (v : ptree) : result (dict ptree) :=
  match dget n d with
  | Some (TBox c m _) =>
      match v with
      | TBox c' m' y => if cls_eqb c c' && dict_eqb m m'
                        then do b <- box_call c m y; Ok (dset n b d) else Err ValueError
      | _ => do b <- box_call c m v; Ok (dset n b d)
      end
  | Some _ =>
      match v with
      | TBox c' m' y => do b <- box_call c' m' y; Ok (dset n b d)
      | _ => Ok (dset n v d)
      end
  | None => Err AttributeError
  end.
(** pytreelib.py:233-255 *)
Fixpoint tset_all (kw : list (string * ptree)) (d : dict ptree) : result (dict ptree) :=
  match kw with [] => Ok d | (n, v) :: t => do d1 <- tset d n v; tset_all t d1 end.
(** The constructor of a dataclass, and the container functions after it. (pytreelib.py:47-67) *)
Fixpoint tmake (fs : list (string * option cfn)) (ups : dict ptree) (d : dict ptree) : result (dict ptree) :=
  match fs with
  | [] => Ok []
  | (n, f) :: t =>
      do a <- match dget n ups with
              | Some a => Ok a
              | None => match dget n d with
                        | Some (TBox _ _ x) => Ok x
                        | Some x => Ok x
                        | None => Err AttributeError
                        end
              end;
      do b <- match f with
              | None => match a with TBox c m y => box_call c m y | _ => Ok a end
              | Some g => box_call (f_cls g) (f_md g) a
              end;
      do r <- tmake t ups d; Ok ((n, b) :: r)
  end.
(** pytreelib.py:229-253 [replace] with names of existing fields. *)
Definition treplace (k : pclass) (d : dict ptree) (ups : dict ptree) : result ptree :=
  match k_fields k with
  | None => do d' <- tset_all ups d; Ok (TObj k d')
  | Some fs =>
      if forallb (fun n => smem n (keys fs)) (keys ups) then
        do new <- tmake fs ups d;
        Ok (TObj k ((F_SORTED, TNames (keys (sort_by_key ((F_SORTED, TNames []) :: new)))) :: new))
      else Err TypeError
  end.

(** pytreelib.py:203-227 [_from_flax_state_dict] and [flax.serialization.from_state_dict].
    Restoring a Pytree from something that is no dict is outside the model. *)
Fixpoint from_sd (t : ptree) (s : ptree) : result ptree :=
  match t with
  | TDict d =>
      match s with
      | TDict st =>
          if forallb (fun n => dmem n st) (keys d) then
            do r <- (fix go (d : list (string * ptree)) : result (dict ptree) :=
                       match d with
                       | [] => Ok []
                       | (n, v) :: r =>
                           match dget n st with
                           | None => Err KeyError
                           | Some s' => do x <- from_sd v s'; do l <- go r; Ok ((n, x) :: l)
                           end
                       end) d;
            Ok (TDict r)
          else Err ValueError
      | _ => Err OutOfModel
      end
  | TObj k d =>
      match s with
      | TDict st =>
          do ur <- (fix go (d : list (string * ptree)) (st : dict ptree) : result (dict ptree * dict ptree) :=
                      match d with
                      | [] => Ok ([], st)
                      | (n, v) :: r =>
                          if is_node_t v then
                            match dget n st with
                            | None => Err ValueError
                            | Some s' => do x <- from_sd v s'; do l <- go r (ddel n st); Ok ((n, x) :: fst l, snd l)
                            end
                          else go r st
                      end) d st;
          match snd ur with
          | [] => treplace k d (fst ur)
          | _ => Err ValueError
          end
      | _ => Err OutOfModel
      end
  | _ => Ok s
  end.
