(** Spec_ModRepr: what [repr(module)] should print. *)
From Verif Require Import PyBase ValuesM Spec_Eq FiltersM StateM ModuleM TlsM ModReprM.
Local Open Scope string_scope.
Local Open Scope list_scope.

(** The class name and how an object is laid out: [Name(k=v, ...)] over several lines
    indented by two blanks, or [Name(...)]. *)
Definition class_name (c : cls) : string := hd "" c.
Definition in_full (n : string) : rconfig := mkConfig n "(" ")" "=" "  " "".
Definition in_dots (n : string) : rconfig := mkConfig n "(" ")" "=" "  " "...".
(** The attributes that are listed: all submodules, and of the rest those that are not
    part of the State and whose name does not start with an underscore. *)
Definition listed (nt : list string) (na : string * attr) : bool :=
  match na with
  | (_, ARaw (PyMod _)) => true
  | (n, a) => negb (is_node nt a || prefix "_" n)
  end.

Section Shows.
Variable leaf : pyval -> result string.
Variable w : world.

(** [shows r occs o]: [o] describes the module [r].  It is either the name of the class
    with dots for a body, or lists every [listed] attribute in the order of [vars], each
    described in turn.  [occs] are the modules described, in the order of the text; the
    mark is [true] for those listed in full. *)
Inductive shows : nat -> list (nat * bool) -> robj -> Prop :=
| shows_dots r ob :
    get_obj w r = Some ob ->
    shows r [(r, false)] (RObj (in_dots (class_name (m_cls ob))) [])
| shows_full r ob occs its :
    get_obj w r = Some ob ->
    shows_items (filter (listed (w_nodes w)) (m_vars ob)) occs its ->
    shows r ((r, true) :: occs) (RObj (in_full (class_name (m_cls ob))) its)
with shows_items : list (string * attr) -> list (nat * bool) -> list ritem -> Prop :=
| si_nil : shows_items [] [] []
| si_cons n a t o1 o2 v its :
    shows_val a o1 v -> shows_items t o2 its ->
    shows_items ((n, a) :: t) (o1 ++ o2) (RiAttr n "" "" v :: its)
with shows_val : attr -> list (nat * bool) -> rval -> Prop :=
| sv_mod r occs o : shows r occs o -> shows_val (ARaw (PyMod r)) occs (RvObj o)
| sv_str s : shows_val (ARaw (PyStr s)) [] (RvStr s)
| sv_other v occs ps :
    (forall r, v <> PyMod r) -> (forall s, v <> PyStr s) ->
    shows_pieces v occs ps -> shows_val (ARaw v) occs (RvOther ps)
| sv_cont c occs its :
    shows_fields (c_meta c ++ [("value", c_val c)]) occs its ->
    shows_val (ACont c) occs (RvObj (RObj (in_full (class_name (c_cls c))) its))
with shows_fields : list (string * pyval) -> list (nat * bool) -> list ritem -> Prop :=
| sf_nil : shows_fields [] [] []
| sf_cons n v t o1 o2 ps its :
    shows_pieces v o1 ps -> shows_fields t o2 its ->
    shows_fields ((n, v) :: t) (o1 ++ o2) (RiAttr n "" "" (RvOther ps) :: its)
with shows_pieces : pyval -> list (nat * bool) -> list rpiece -> Prop :=
| sp_mod r occs o : shows r occs o -> shows_pieces (PyMod r) occs [RpObj o]
| sp_unit : shows_pieces (PyTuple []) [] [RpText "()"]
| sp_single v occs ps :
    shows_pieces v occs ps -> shows_pieces (PyTuple [v]) occs (RpText "(" :: ps ++ [RpText ",)"])
| sp_tuple v u l o1 o2 ps qs :
    shows_pieces v o1 ps -> shows_rest (u :: l) o2 qs ->
    shows_pieces (PyTuple (v :: u :: l)) (o1 ++ o2) (RpText "(" :: ps ++ qs ++ [RpText ")"])
| sp_leaf v s :
    (forall r, v <> PyMod r) -> (forall l, v <> PyTuple l) ->
    leaf v = Ok s -> shows_pieces v [] [RpText s]
with shows_rest : list pyval -> list (nat * bool) -> list rpiece -> Prop :=
| sr_nil : shows_rest [] [] []
| sr_cons v l o1 o2 ps qs :
    shows_pieces v o1 ps -> shows_rest l o2 qs -> shows_rest (v :: l) (o1 ++ o2) (RpText ", " :: ps ++ qs).

(** A module is listed in full exactly where it is first mentioned. *)
Definition first_in_full (occs : list (nat * bool)) : Prop :=
  forall before r full after,
  occs = before ++ (r, full) :: after -> (full = true <-> ~ In r (map fst before)).

(** The modules a value, an attribute, a module mention. *)
Inductive mentions : pyval -> nat -> Prop :=
| mn_mod r : mentions (PyMod r) r
| mn_tuple l v r : In v l -> mentions v r -> mentions (PyTuple l) r.
Definition attr_mentions (a : attr) (r : nat) : Prop :=
  match a with
  | ARaw v => mentions v r
  | ACont c => mentions (c_val c) r \/ exists k v, In (k, v) (c_meta c) /\ mentions v r
  end.
Definition prints (x y : nat) : Prop :=
  exists ob na, get_obj w x = Some ob /\ In na (m_vars ob) /\
                listed (w_nodes w) na = true /\ attr_mentions (snd na) y.
Inductive connected (r : nat) : nat -> Prop :=
| cn_refl : connected r r
| cn_step x y : connected r x -> prints x y -> connected r y.

(** Every mentioned module exists, and modules have distinct ids (C20). *)
Definition all_exist : Prop := forall x y, prints x y -> exists ob, get_obj w y = Some ob.
Definition distinct_ids : Prop :=
  forall x y ox oy, get_obj w x = Some ox -> get_obj w y = Some oy -> m_id ox = m_id oy -> x = y.

(** Python values other than tuples and Modules whose [repr] returns. *)
Definition leaves_print : Prop :=
  forall v, (forall r, v <> PyMod r) -> (forall l, v <> PyTuple l) -> exists s, leaf v = Ok s.

(** ** Histories *)
(** The text (or exception) when nothing was printed before. *)
Definition fresh (r : nat) : result string := fst (fst (run (repr_prog leaf w r) None)).
(** Histories in which the traceback of a repr that raised is dropped before the next
    repr. *)
Inductive dropped : list event -> Prop :=
| dr_nil : dropped []
| dr_drop t : dropped t -> dropped (EvDrop :: t)
| dr_ok r s t : fresh r = Ok s -> dropped t -> dropped (EvRepr r :: t)
| dr_raise r t : dropped t -> dropped (EvRepr r :: EvDrop :: t)
| dr_last r : dropped [EvRepr r].
End Shows.
(** The modules printed in a history. *)
Fixpoint reprs (es : list event) : list nat :=
  match es with [] => [] | EvRepr r :: t => r :: reprs t | EvDrop :: t => reprs t end.
