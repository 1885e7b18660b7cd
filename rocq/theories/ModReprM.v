(** ModReprM: [repr(module)] (module.py:378 and 473-497 on top of reprlib's [get_repr],
    TlsM).  The set of modules already printed is one global variable of the process,
    [SEEN_MODULES_REPR]; unlike the indentation stack it is not thread-local. *)
From Verif Require Import PyBase ValuesM FiltersM StateM ModuleM TlsM.
Local Open Scope string_scope.
Local Open Scope list_scope.

(** ** Programs over the global variable *)

(** module.py:378.  [None], or the set object, whose elements are ids. *)
Notation global := (option (list nat)).

(** What [__nnx_repr__] does to the global, one bytecode-level access each (476
    [is None], 477 [= set()], 482 [in], 487 [.add], 497 [= None]).  Between two accesses
    other threads may run.  Simplification: loading the variable and calling [in] or
    [.add] on the set is one access. (module.py:473-497, as accesses to the global of module.py:378) *)
Inductive prog (A : Type) : Type :=
| Ret (a : A)
| IsNone (k : bool -> prog A)
| NewSet (k : prog A)
| Member (i : nat) (k : result bool -> prog A)
| Add (i : nat) (k : result unit -> prog A)
| Clear (k : prog A).
Arguments Ret {A}. Arguments IsNone {A}. Arguments NewSet {A}.
Arguments Member {A}. Arguments Add {A}. Arguments Clear {A}.

(** module.py:473-497, as accesses to the global of module.py:378 *)
Fixpoint bind {A B} (p : prog A) (f : A -> prog B) : prog B :=
  match p with
  | Ret a => f a
  | IsNone k => IsNone (fun b => bind (k b) f)
  | NewSet k => NewSet (bind k f)
  | Member i k => Member i (fun m => bind (k m) f)
  | Add i k => Add i (fun m => bind (k m) f)
  | Clear k => Clear (bind k f)
  end.
Notation "x <-- p ;; f" := (bind p (fun x => f)) (at level 60, p at next level, right associativity).

(** One access: [i in None] raises TypeError, [None.add] AttributeError. (the interpreter executing module.py:473-497) *)
Definition access {A} (p : prog A) (g : global) : prog A * global :=
  match p with
  | Ret a => (Ret a, g)
  | IsNone k => (k (match g with None => true | Some _ => false end), g)
  | NewSet k => (k, Some [])
  | Member i k => (k (match g with None => Err TypeError | Some s => Ok (nmem i s) end), g)
  | Add i k => match g with
               | None => (k (Err AttributeError), None)
               | Some s => (k (Ok tt), Some (if nmem i s then s else s ++ [i]))
               end
  | Clear k => (k, None)
  end.
(** Without other threads. (the interpreter executing module.py:473-497) *)
Fixpoint run {A} (p : prog A) (g : global) {struct p} : A * global :=
  match p with
  | Ret a => (a, g)
  | IsNone k => run (k (match g with None => true | Some _ => false end)) g
  | NewSet k => run k (Some [])
  | Member i k => run (k (match g with None => Err TypeError | Some s => Ok (nmem i s) end)) g
  | Add i k => match g with
               | None => run (k (Err AttributeError)) None
               | Some s => run (k (Ok tt)) (Some (if nmem i s then s else s ++ [i]))
               end
  | Clear k => run k None
  end.
(** With other threads: the schedule names the thread that makes the next access. (the interpreter executing module.py:473-497) *)
Fixpoint interleave {A} (sched : list nat) (ts : list (prog A)) (g : global) : list (prog A) * global :=
  match sched with
  | [] => (ts, g)
  | i :: t => match nth_error ts i with
              | None => interleave t ts g
              | Some p => let '(p', g') := access p g in interleave t (list_set i p' ts) g'
              end
  end.

(** ** [Module.__nnx_repr__] *)

(** How a repr ended.  When the repr of an attribute raises, the generators of the
    enclosing modules stay suspended at their [yield] (491-494): their [finally] runs
    only when the generator objects are freed, that is when the traceback of the
    exception is.  [Raised true]: one of them will then clear the global. *)
Inductive status : Type := Done | Raised (clears : bool).

Section Repr.
(** [repr] of a value other than a tuple, a Module or a container; may raise. *)
Variable leaf : pyval -> result string.
Variable w : world.

(** [type(self).__name__], module.py:473-497 *)
Definition cls_name (c : cls) : string := match c with [] => "" | n :: _ => n end.
(** reprlib.py:16-23, module.py:483 and 486. *)
Definition block (n : string) : rconfig := mkConfig n "(" ")" "=" "  " "".
(** module.py:482-484 *)
Definition stub (n : string) : rconfig := mkConfig n "(" ")" "=" "  " "...".

(** module.py:491-493: the attributes printed.  (["_module__state"] is in [vars(self)] but
    is no Module and its name starts with an underscore.) *)
Definition printed (nt : list string) (na : string * attr) : bool :=
  match snd na with
  | ARaw (PyMod _) => true
  | a => negb (is_node nt a) && negb (starts_with "_" (fst na))
  end.

(** [repr(v)]: the text, with the Representables in it.  A tuple prints its elements;
    a one-element tuple has a trailing comma. (Python's [repr] of values, called at reprlib.py:59-90) *)
Fixpoint pieces (rec : nat -> prog (robj * status)) (v : pyval) : prog (list rpiece * status) :=
  match v with
  | PyMod r => os <-- rec r;; Ret ([RpObj (fst os)], snd os)
  | PyTuple l =>
      match l with
      | [] => Ret ([RpText "()"], Done)
      | v0 :: rest =>
          p0 <-- pieces rec v0;;
          match snd p0 with
          | Raised c => Ret (RpText "(" :: fst p0, Raised c)
          | Done =>
              ps <-- (fix go (l : list pyval) : prog (list rpiece * status) :=
                        match l with
                        | [] => Ret ([], Done)
                        | u :: t =>
                            p1 <-- pieces rec u;;
                            match snd p1 with
                            | Raised c => Ret (RpText ", " :: fst p1, Raised c)
                            | Done => p2 <-- go t;; Ret (RpText ", " :: fst p1 ++ fst p2, snd p2)
                            end
                        end) rest;;
              Ret (RpText "(" :: fst p0 ++ fst ps ++ [RpText (match rest with [] => ",)" | _ => ")" end)], snd ps)
          end
      end
  | _ => match leaf v with
         | Ok s => Ret ([RpText s], Done)
         | Err e => Ret ([RpRaise e], Raised false)
         end
  end.

(** containers.py:101-104 [Container.__nnx_repr__]: the fields of [vars(self)], with
    ["value"] last; the text of a field is the [repr] of its value. *)
Fixpoint fields (rec : nat -> prog (robj * status)) (l : list (string * pyval)) : prog (list ritem * status) :=
  match l with
  | [] => Ret ([], Done)
  | (n, v) :: t =>
      p <-- pieces rec v;;
      match snd p with
      | Raised c => Ret ([RiAttr n "" "" (RvOther (fst p))], Raised c)
      | Done => q <-- fields rec t;; Ret (RiAttr n "" "" (RvOther (fst p)) :: fst q, snd q)
      end
  end.

(** The value of one [Attr] (reprlib.py:68-77): a str is printed as it is. *)
Definition value (rec : nat -> prog (robj * status)) (a : attr) : prog (rval * status) :=
  match a with
  | ARaw (PyMod r) => os <-- rec r;; Ret (RvObj (fst os), snd os)
  | ARaw (PyStr s) => Ret (RvStr s, Done)
  | ARaw v => p <-- pieces rec v;; Ret (RvOther (fst p), snd p)
  | ACont c =>
      q <-- fields rec (c_meta c ++ [("value", c_val c)]);;
      Ret (RvObj (RObj (block (cls_name (c_cls c))) (fst q)), snd q)
  end.

(** module.py:490-494 *)
Fixpoint items (rec : nat -> prog (robj * status)) (l : list (string * attr)) : prog (list ritem * status) :=
  match l with
  | [] => Ret ([], Done)
  | (n, a) :: t =>
      v <-- value rec a;;
      match snd v with
      | Raised c => Ret ([RiAttr n "" "" (fst v)], Raised c)
      | Done => q <-- items rec t;; Ret (RiAttr n "" "" (fst v) :: fst q, snd q)
      end
  end.

(** module.py:473-497 [Module.__nnx_repr__], run by [get_repr]: what it yields.  The
    fuel bounds the nesting of modules. *)
Fixpoint nnx_repr (fuel : nat) (r : nat) : prog (robj * status) :=
  match fuel with
  | O => Ret (RFail OutOfModel, Raised false)
  | S f =>
      match get_obj w r with
      | None => Ret (RFail OutOfModel, Raised false)
      | Some o =>
          IsNone (fun clear =>
          (fun k => if clear then NewSet k else k)
          (Member (m_id o) (fun m =>
             match m with
             | Err e => Ret (RFail e, Raised false)
             | Ok true => Ret (RObj (stub (cls_name (m_cls o))) [], Done)
             | Ok false =>
                 Add (m_id o) (fun added =>
                   match added with
                   | Err e => Ret (RObj (block (cls_name (m_cls o))) [RiRaise e], Raised false)
                   | Ok _ =>
                       q <-- items (nnx_repr f) (filter (printed (w_nodes w)) (m_vars o));;
                       let ob := RObj (block (cls_name (m_cls o))) (fst q) in
                       match snd q with
                       | Raised c => Ret (ob, Raised (c || clear))
                       | Done => if clear then Clear (Ret (ob, Done)) else Ret (ob, Done)
                       end
                   end)
             end)))
      end
  end.

(** [repr(module)] (reprlib.py:41-42, 59-90) in a thread with a fresh indentation
    stack: the text depends on the stack and the yielded items only. *)
Definition text (os : robj * status) : result string := fst (get_repr (fst os) [""]).
(** [repr(module)], reprlib.py:41-42, module.py:473-497 *)
Definition enough : nat := S (List.length (w_heap w)).
(** [repr(module)], reprlib.py:41-42, module.py:473-497 *)
Definition repr_prog (r : nat) : prog (result string * status) :=
  os <-- nnx_repr enough r;; Ret (text os, snd os).

(** ** Histories of one thread *)

(** The traceback of a raised exception is kept (in an [except] block, by a debugger, or
    as [sys.last_traceback] in an interactive session) until it is dropped. (programs printing modules, module.py:473-497) *)
Inductive event : Type := EvRepr (r : nat) | EvDrop.
(** The state is the global and whether a kept traceback will clear it. (programs printing modules, module.py:473-497) *)
Definition event_step (e : event) (s : global * bool) : option (result string) * (global * bool) :=
  let '(g, kept) := s in
  match e with
  | EvDrop => (None, (if kept then None else g, false))
  | EvRepr r =>
      let '((t, st), g') := run (repr_prog r) g in
      (Some t, (g', match st with Done => kept | Raised c => kept || c end))
  end.
(** programs printing modules, module.py:473-497 *)
Fixpoint history (es : list event) (s : global * bool) : list (result string) * (global * bool) :=
  match es with
  | [] => ([], s)
  | e :: t => let '(o, s1) := event_step e s in
              let '(os, s2) := history t s1 in
              (match o with Some x => x :: os | None => os end, s2)
  end.
End Repr.
