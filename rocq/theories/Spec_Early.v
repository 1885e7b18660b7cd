(** Spec_Early: the history of a training run, and which of its moments is the best. *)
From Verif Require Import PyBase ValuesM StateM ModuleM Spec_Module Spec_Prog Spec_TrainLoop.
Local Open Scope string_scope.
Local Open Scope list_scope.

(** [history kept r w epochs log w' res]: the epochs that were finished are listed in [log],
    with their score and the world after each; the run ended in [w'], without exception or
    with that of an epoch which raised, at any point of it.  [kept w w1 r] says what an
    epoch may do to the model; they may do anything else to other objects. *)
Inductive history (kept : world -> world -> nat -> Prop) (r : nat) : world -> list (prog pyval) -> list (pyval * world) -> world -> result unit -> Prop :=
| hi_done w : history kept r w [] [] w (Ok tt)
| hi_raised w f l w1 e : ok_prog f -> run f w [r] = (w1, Err e) -> kept w w1 r -> history kept r w (f :: l) [] w1 (Err e)
| hi_epoch w f l w1 score log w' res : ok_prog f -> run f w [r] = (w1, Ok score) -> kept w w1 r ->
    history kept r w1 l log w' res -> history kept r w (f :: l) ((score, w1) :: log) w' res.

(** No score of the log is better than that of number [i], and [i] is the first such. *)
Definition first_best (better : pyval -> pyval -> bool) (log : list (pyval * world)) (i : nat) (score : pyval) (w : world) : Prop :=
  nth_error log i = Some (score, w) /\
  (forall j s v, nth_error log j = Some (s, v) -> better s score = false) /\
  (forall j s v, j < i -> nth_error log j = Some (s, v) -> better score s = true).
(** "better" is a strict order in which incomparable scores count as equal (like < on
    numbers). *)
Definition ranks (better : pyval -> pyval -> bool) : Prop :=
  (forall a b, better a b = true -> better b a = false) /\
  (forall a b c, better a b = false -> better b c = false -> better a c = false).

(** The model at [r] in [w'] is what it was in [w]: every path reads the same, the same
    paths lead to the same Modules. *)
Definition as_in (w : world) (r : nat) (w' : world) : Prop :=
  (forall q, look w' r q = look w r q) /\ (forall q q', follow w' r q = follow w' r q' <-> follow w r q = follow w r q') /\
  get_state w' r = get_state w r /\ get_module_def w' r = get_module_def w r.
(** The rest is as it was in [w]: the Modules of the model are in place, other objects
    untouched. *)
Definition rest_as_in (w : world) (r : nat) (w' : world) : Prop :=
  (forall q, follow w' r q = follow w r q) /\ (forall x o, get_obj w x = Some o -> ~ reaches w r x -> get_obj w' x = Some o) /\ w_trace w' = w_trace w.

(** Between [w] and [w1] the Modules below [r] kept their classes, flags, submodules and
    static attributes.  Node attributes may have got new values (arrays stay arrays,
    Variables keep class and metadata), and node attributes may have been added.
    [adding]: and the names are still usable in paths. *)
Definition values_written (w w1 : world) (r : nat) : Prop :=
  w_nodes w1 = w_nodes w /\
  forall x, reaches w r x -> exists o o1, get_obj w x = Some o /\ get_obj w1 x = Some o1 /\
    m_cls o1 = m_cls o /\ m_init o1 = m_init o /\
    forall n, match dget n (m_vars o), dget n (m_vars o1) with
              | Some a, Some b => a = b \/ (node_attr w x n a /\ node_attr w1 x n b /\ same_shape a b)
              | None, Some b => node_attr w1 x n b
              | None, None => True
              | Some _, None => False
              end.
Definition adding (w w1 : world) (r : nat) : Prop := values_written w w1 r /\ names_ok w1 r.
(** Every Module below [r] has back in [w2] every attribute it had in [w]; those it has got
    since then are as in [w1].  The Modules are the same objects. *)
Definition has_back (w w1 : world) (r : nat) (w2 : world) : Prop :=
  forall x o, reaches w r x -> get_obj w x = Some o ->
    exists o1 o2, get_obj w1 x = Some o1 /\ get_obj w2 x = Some o2 /\
      m_cls o2 = m_cls o1 /\ m_id o2 = m_id o1 /\ m_init o2 = m_init o1 /\ m_trace o2 = m_trace o1 /\
      forall n, dget n (m_vars o2) = match dget n (m_vars o) with Some a => Some a | None => dget n (m_vars o1) end.
(** The same as one reads it: what was there in [w] reads as in [w], anything else as in
    [w1], and the submodules are the same objects at the same paths. *)
Definition reads_back (w w1 : world) (r : nat) (w2 : world) : Prop :=
  (forall q, look w r q <> SNothing -> look w2 r q = look w r q) /\
  (forall q, look w r q = SNothing -> look w2 r q = look w1 r q) /\
  (forall q, follow w2 r q = follow w r q).

(** Between [w] and [w1] the Modules below [r] kept their submodules, under the same names.
    All their other attributes may have been written, added or deleted. *)
Definition linked (w w1 : world) (r : nat) : Prop :=
  w_nodes w1 = w_nodes w /\
  forall x, reaches w r x -> exists o o1, get_obj w x = Some o /\ get_obj w1 x = Some o1 /\
    forall n y, dget n (m_vars o1) = Some (ARaw (PyMod y)) <-> dget n (m_vars o) = Some (ARaw (PyMod y)).
Definition relinked (w w1 : world) (r : nat) : Prop := linked w w1 r /\ names_ok w1 r.
(** Where [w] has a node attribute, [w1] may have nothing, an array, a static value or that
    Variable with another value; but not another kind of Variable. *)
Definition takes (w w1 : world) (r : nat) : Prop :=
  forall x n a o1 c, reaches w r x -> node_attr w x n a -> get_obj w1 x = Some o1 -> dget n (m_vars o1) = Some (ACont c) -> same_shape a (ACont c).
(** In [w2] the node attributes of [w] are back, everything else is as in [w1]; the State
    lists the nodes of both. *)
Definition nodes_back (w w1 : world) (r : nat) (w2 : world) : Prop :=
  (forall p x n a, follow w r p = Some x -> node_attr w x n a -> look w2 r (p ++ [n]) = SValue a) /\
  (forall p x n, follow w r p = Some x -> (forall a, ~ node_attr w x n a) -> look w2 r (p ++ [n]) = look w1 r (p ++ [n])) /\
  (forall q, follow w2 r q = follow w r q) /\
  exists s s1 s2, get_state w r = Ok s /\ get_state w1 r = Ok s1 /\ get_state w2 r = Ok s2 /\
    forall k, dget k s2 = match dget k s with Some a => Some a | None => dget k s1 end.
