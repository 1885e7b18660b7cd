(** User code that works on modules, and what it means for it to change only
    node attributes.

    A program is an interaction tree: it performs one operation at a time on the
    modules it holds (numbered; number 0 is the module it was given, the others
    are those it has read or created, in order), and what it does next is any
    Gallina function of the answers it has got so far.  Answers never reveal
    memory addresses; identity of two modules can be asked ([is]).  Exceptions
    are answers, so that a program may catch them. *)
From Verif Require Import PyBase ValuesM Spec_Eq StateM ModuleM Spec_Module.
Local Open Scope string_scope.
Local Open Scope list_scope.

Inductive cmd : Type :=
| CGet (i : nat) (name : string)               (** m.name, also as stored in vars(m) *)
| CSet (i : nat) (name : string) (a : attr)    (** m.name = a, not a module *)
| CLink (i : nat) (name : string) (j : nat)    (** m.name = other *)
| CDel (i : nat) (name : string)               (** del m.name *)
| CNew (c : cls)                               (** a new module of class c, empty *)
| CInfo (i : nat)                              (** type(m), m.is_initializing *)
| CSame (i j : nat)                            (** m is other *)
| CState (i : nat)                             (** m.get_state() *)
| CUpdate (i : nat) (x : sts).                 (** m.update_state(x) *)

Inductive ans : Type :=
| ADone
| AValue (a : attr)
| AModule                                      (** a module, which gets the next number *)
| ABool (b : bool)
| AInfo (c : cls) (init : bool)
| AState (s : state)
| ARaised (e : exn).

Inductive prog (A : Type) : Type :=
| Finish (res : result A)
| Do (c : cmd) (k : ans -> prog A).
Arguments Finish {A}. Arguments Do {A}.

(** one operation: the new world, the modules held afterwards, the answer.
    Putting a module inside a Variable is left out. *)
Definition exec (w : world) (env : list nat) (c : cmd) : world * list nat * ans :=
  let stuck := (w, env, ARaised OutOfModel) in
  match c with
  | CGet i n =>
      match nth_error env i with
      | Some x => match get_obj w x with
                  | Some o => match dget n (m_vars o) with
                              | Some (ARaw (PyMod y)) => (w, env ++ [y], AModule)
                              | Some a => (w, env, AValue a)
                              | None => (w, env, ARaised AttributeError)
                              end
                  | None => stuck
                  end
      | None => stuck
      end
  | CSet i n a =>
      match nth_error env i with
      | Some x => match setattr w x n a with
                  | Ok w' => (w', env, ADone)
                  | Err e => (w, env, ARaised e)
                  end
      | None => stuck
      end
  | CLink i n j =>
      match nth_error env i, nth_error env j with
      | Some x, Some y =>
          match get_obj w x with
          | Some o => match dget n (m_vars o) with
                      | Some (ACont _) => stuck
                      | _ => match setattr w x n (ARaw (PyMod y)) with
                             | Ok w' => (w', env, ADone)
                             | Err e => (w, env, ARaised e)
                             end
                      end
          | None => stuck
          end
      | _, _ => stuck
      end
  | CDel i n =>
      match nth_error env i with
      | Some x => match delattr w x n with
                  | Ok w' => (w', env, ADone)
                  | Err e => (w, env, ARaised e)
                  end
      | None => stuck
      end
  | CNew c => let (y, w') := new_module w c in (w', env ++ [y], AModule)
  | CInfo i =>
      match nth_error env i with
      | Some x => match get_obj w x with
                  | Some o => (w, env, AInfo (m_cls o) (m_init o))
                  | None => stuck
                  end
      | None => stuck
      end
  | CSame i j =>
      match nth_error env i, nth_error env j with
      | Some x, Some y => (w, env, ABool (Nat.eqb x y))
      | _, _ => stuck
      end
  | CState i =>
      match nth_error env i with
      | Some x => match get_state w x with
                  | Ok s => (w, env, AState s)
                  | Err e => (w, env, ARaised e)
                  end
      | None => stuck
      end
  | CUpdate i x =>
      match nth_error env i with
      | Some m => match update_state w m (UStates x) with
                  | (w', Ok _) => (w', env, ADone)
                  | (w', Err e) => (w', env, ARaised e)
                  end
      | None => stuck
      end
  end.

Fixpoint run {A} (p : prog A) (w : world) (env : list nat) {struct p} : world * result A :=
  match p with
  | Finish res => (w, res)
  | Do c k => match exec w env c with (w', env', a) => run (k a) w' env' end
  end.

(** the user function [f(m)] given by a program *)
Definition user_fun {A} (p : prog A) : world -> nat -> world * result A := fun w r => run p w [r].

(** the values a program writes are well-formed and are not modules smuggled in
    as raw references (modules are assigned with [CLink]); the objects it makes
    are of Module classes *)
Definition plain_attr (a : attr) : Prop := wf_attr a /\ is_submodule a = false.
Definition plain_sts (x : sts) : Prop := Forall (fun s : state => Forall (fun ka => plain_attr (snd ka)) s) (sts_list x).
Definition ok_cmd (c : cmd) : Prop :=
  match c with
  | CSet _ _ a => plain_attr a
  | CUpdate _ x => plain_sts x
  | CNew c => In "Module" c
  | _ => True
  end.
Definition ok_ans (a : ans) : Prop :=
  match a with
  | AValue a => plain_attr a
  | AState s => Forall (fun ka => plain_attr (snd ka)) s
  | _ => True
  end.
Inductive ok_prog {A} : prog A -> Prop :=
| ok_finish res : ok_prog (Finish res)
| ok_do c k : ok_cmd c -> (forall a, ok_ans a -> ok_prog (k a)) -> ok_prog (Do c k).

(** ** Changing only node attributes

    Between [w] and [w1] the modules below [r] kept their classes, flags,
    submodules and static attributes; node attributes may have got new values
    (a Variable keeping its class and metadata) and new node attributes may have
    appeared, none disappeared. *)
Definition nodes_only (w w1 : world) (r : nat) : Prop :=
  w_nodes w1 = w_nodes w /\
  forall x, reaches w r x -> exists o o1, get_obj w x = Some o /\ get_obj w1 x = Some o1 /\
    m_cls o1 = m_cls o /\ m_init o1 = m_init o /\
    forall n, match dget n (m_vars o), dget n (m_vars o1) with
              | Some a, Some b => a = b \/ (node_attr w x n a /\ node_attr w1 x n b /\ overwrites a b b)
              | None, Some b => node_attr w1 x n b
              | None, None => True
              | Some _, None => False
              end.

(** the objects that existed in [w] are all unchanged in [w'] *)
Definition all_unchanged (w w' : world) : Prop := forall x o, get_obj w x = Some o -> get_obj w' x = Some o.
