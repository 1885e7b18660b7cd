(** What C91 is about: the same constructor run twice, with other arrays (another
    random key, another process, or tracers under [jax.eval_shape]). *)
From Verif Require Import PyBase ValuesM StateM ModuleM Spec_Eq Spec_Module Spec_Prog.
Local Open Scope string_scope.
Local Open Scope list_scope.

(** Two attributes that differ at most in the array they hold: the same static
    value; two node values; two Variables of the same class with the same
    metadata.  [nt] are the registered node types.  A container that is not a
    node (a Static) is not alike anything: see C91_static_refuted. *)
Definition a_node (nt : list string) (a : attr) : Prop := exists t, In t nt /\ In t (cls_of_attr a).
Inductive alike (nt : list string) : attr -> attr -> Prop :=
| alike_static v : alike nt (ARaw v) (ARaw v)
| alike_node v u : is_submodule (ARaw v) = false -> is_submodule (ARaw u) = false ->
    a_node nt (ARaw v) -> a_node nt (ARaw u) -> alike nt (ARaw v) (ARaw u)
| alike_cont c meta v u : wf_attr (ACont (mkCont c meta v)) -> wf_attr (ACont (mkCont c meta u)) ->
    a_node nt (ACont (mkCont c meta v)) -> alike nt (ACont (mkCont c meta v)) (ACont (mkCont c meta u)).

(** the same keys in the same order, with alike values *)
Definition alike_dict (nt : list string) : list (string * attr) -> list (string * attr) -> Prop :=
  Forall2 (fun x y => fst x = fst y /\ alike nt (snd x) (snd y)).
Definition alike_sts (nt : list string) (x y : sts) : Prop :=
  match x, y with
  | One s, One u => alike_dict nt s u
  | Many l, Many k => Forall2 (alike_dict nt) l k
  | _, _ => False
  end.

(** Two programs that do the same operations, with alike values, as long as they
    get alike answers: what they do next does not depend on the contents of the
    arrays. *)
Inductive alike_cmd (nt : list string) : cmd -> cmd -> Prop :=
| alike_same c : (forall i n a, c <> CSet i n a) -> (forall i x, c <> CUpdate i x) -> alike_cmd nt c c
| alike_set i n a b : alike nt a b -> alike_cmd nt (CSet i n a) (CSet i n b)
| alike_update i x y : alike_sts nt x y -> alike_cmd nt (CUpdate i x) (CUpdate i y).
Inductive alike_ans (nt : list string) : ans -> ans -> Prop :=
| alike_ans_same a : (forall v, a <> AValue v) -> (forall s, a <> AState s) -> alike_ans nt a a
| alike_value a b : alike nt a b -> alike_ans nt (AValue a) (AValue b)
| alike_state s u : alike_dict nt s u -> alike_ans nt (AState s) (AState u).
Definition same_outcome {A} (x y : result A) : Prop :=
  match x, y with Ok _, Ok _ => True | Err e, Err f => e = f | _, _ => False end.
Inductive same_steps (nt : list string) {A} : prog A -> prog A -> Prop :=
| same_finish x y : same_outcome x y -> same_steps nt (Finish x) (Finish y)
| same_do c c' k k' : alike_cmd nt c c' -> (forall a a', alike_ans nt a a' -> same_steps nt (k a) (k' a')) ->
    same_steps nt (Do c k) (Do c' k').

(** [m = C( ... )]: a new, empty module of class [c], on which [__init__] runs.
    The world afterwards, the module, and how [__init__] ended. *)
Definition construct (w : world) (c : cls) (init : prog unit) : world * nat * result unit :=
  let (m, w1) := new_module w c in
  let (w2, x) := run init w1 [m] in (w2, m, x).
