(** TlsM: models the thread-local dynamic contexts and their context managers:
    nnx/tracers.py (trace stack), nnx/spmd.py (axis rules), nnx/reprlib.py
    (indentation), and reprlib's [get_repr]. *)
From Verif Require Import PyBase SpmdM.
Local Open Scope string_scope.
Local Open Scope list_scope.

(** One thread's dynamic contexts: tracers.py:52-59 [TraceContext], spmd.py:108-117
    [_AxisRules], reprlib.py:8-13 [ReprContext].  All three classes derive from
    [threading.local]: no thread sees another's. *)
Record tls := mkTls { l_traces : list nat; l_rules : logical_rules; l_indent : list string }.

(** [stack[-1]]: IndexError on an empty stack. (used at tracers.py:71-72, reprlib.py:55-56) *)
Definition top {A} (l : list A) : result A :=
  match rev l with [] => Err IndexError | x :: _ => Ok x end.
(** [stack.pop()]. (used at tracers.py:63-68, reprlib.py:46-52) *)
Definition pop {A} (l : list A) : result (list A) :=
  match l with [] => Err IndexError | _ => Ok (removelast l) end.

(** A [with] statement: tracers.py:62-68, spmd.py:130-138, reprlib.py:45-52. *)
Inductive block : Type :=
| BTrace (t : nat)            (* with nnx_trace(t) *)
| BRules (r : logical_rules)  (* with logical_axis_rules(r) *)
| BIndent (s : string).       (* with add_indent(s) *)

(** Entering: the new contexts. (tracers.py:63-68, reprlib.py:46-52, spmd.py:130-137) *)
Definition enter (b : block) (l : tls) : result tls :=
  match b with
  | BTrace t => Ok (mkTls (l_traces l ++ [t]) (l_rules l) (l_indent l))
  | BRules r => Ok (mkTls (l_traces l) r (l_indent l))
  | BIndent s => do i <- top (l_indent l); Ok (mkTls (l_traces l) (l_rules l) (l_indent l ++ [(i ++ s)%string]))
  end.
(** The [finally] clause; [l0] are the contexts seen on entry ([old_rules] is a
    local variable of the generator). (tracers.py:63-68, reprlib.py:46-52, spmd.py:130-137) *)
Definition leave (b : block) (l0 l : tls) : result tls :=
  match b with
  | BTrace _ => do s <- pop (l_traces l); Ok (mkTls s (l_rules l) (l_indent l))
  | BRules _ => Ok (mkTls (l_traces l) (l_rules l0) (l_indent l))
  | BIndent _ => do s <- pop (l_indent l); Ok (mkTls (l_traces l) (l_rules l) s)
  end.

(** What is read: tracers.py:71-72 [current_nnx_trace], spmd.py:125-127
    [get_logical_axis_rules], reprlib.py:55-56 [get_indent]. *)
Definition observe (l : tls) : result (nat * logical_rules * string) :=
  do t <- top (l_traces l); do i <- top (l_indent l); Ok (t, l_rules l, i).

(** Programs: anything that runs blocks, raises, catches and reads. (user programs over tracers.py:63-72, reprlib.py:46-90, spmd.py:119-137) *)
Inductive prog : Type :=
| PSkip
| PRaise (e : exn)
| PSeq (p q : prog)
| PTry (p handler : prog)        (* try: p except: handler *)
| PFinally (p q : prog)          (* try: p finally: q *)
| PWith (b : block) (p : prog)
| PSetRules (r : logical_rules)  (* set_logical_axis_rules(r), spmd.py:120-122 *)
| PRead                          (* read all three and log them *)
| PLoop (n : nat) (p : prog).    (* for _ in range(n): p *)

Notation obs := (nat * logical_rules * string)%type.
(** Final contexts, log and outcome. *)
Notation run_result := (tls * list obs * result unit)%type.

(** user programs over tracers.py:63-72, reprlib.py:46-90, spmd.py:119-137 *)
Definition then_ (x : run_result) (k : tls -> run_result) : run_result :=
  match x with
  | (l, o, Ok _) => let '(l', o', r) := k l in (l', (o ++ o')%list, r)
  | (l, o, Err e) => (l, o, Err e)
  end.
(** user programs over tracers.py:63-72, reprlib.py:46-90, spmd.py:119-137 *)
Fixpoint repeat_run (n : nat) (k : tls -> run_result) (l : tls) : run_result :=
  match n with O => (l, [], Ok tt) | S n => then_ (k l) (repeat_run n k) end.
(** user programs over tracers.py:63-72, reprlib.py:46-90, spmd.py:119-137 *)
Fixpoint exec (p : prog) (l : tls) : run_result :=
  match p with
  | PSkip => (l, [], Ok tt)
  | PRaise e => (l, [], Err e)
  | PSeq p q => then_ (exec p l) (exec q)
  | PTry p h => match exec p l with
                | (l1, o, Err _) => let '(l2, o', r) := exec h l1 in (l2, (o ++ o')%list, r)
                | x => x
                end
  | PFinally p q => let '(l1, o, r) := exec p l in
                    match exec q l1 with
                    | (l2, o', Ok _) => (l2, (o ++ o')%list, r)
                    | (l2, o', Err e) => (l2, (o ++ o')%list, Err e)
                    end
  | PWith b p => match enter b l with
                 | Err e => (l, [], Err e)
                 | Ok l1 => let '(l2, o, r) := exec p l1 in
                            match leave b l l2 with
                            | Ok l3 => (l3, o, r)
                            | Err e => (l2, o, Err e)
                            end
                 end
  | PSetRules r => (mkTls (l_traces l) r (l_indent l), [], Ok tt)
  | PRead => match observe l with Ok x => (l, [x], Ok tt) | Err e => (l, [], Err e) end
  | PLoop n p => repeat_run n (exec p) l
  end.

(** A fresh thread: tracers.py:54-56 (one trace), spmd.py:112, reprlib.py:10. *)
Definition fresh_tls (t : nat) : tls := mkTls [t] [] [""].

(** ** repr *)

(** reprlib.py:16-23 [Object]; a class given as [type] is its name. *)
Record rconfig := mkConfig { g_type : string; g_start : string; g_end : string; g_sep : string;
                             g_indent : string; g_empty : string }.
(** What [__nnx_repr__] yields after the first item: reprlib.py:26-31 [Attr], an
    item of another type, or an exception raised by the generator.  A value is a
    str, a Representable, or any other object, whose own [repr] is text mixed with
    the reprs of the Representables in it (a tuple of Modules, say) and may raise. *)
Inductive rval : Type :=
| RvStr (s : string)
| RvObj (o : robj)
| RvOther (pieces : list rpiece)
with rpiece : Type :=
| RpText (s : string)
| RpObj (o : robj)
| RpRaise (e : exn)
with ritem : Type :=
| RiAttr (key start end_ : string) (v : rval)
| RiOther
| RiRaise (e : exn)
with robj : Type :=
| RObj (c : rconfig) (items : list ritem)
| RNoConfig            (* the first item is not an Object *)
| RFail (e : exn).     (* [next(iterator)] raises *)

(** Python's [value.replace("\n", "\n" + indent)]. (reprlib.py:59-90) *)
Definition newline : ascii := Ascii.ascii_of_nat 10.
(** reprlib.py:59-90 *)
Fixpoint replace_nl (indent s : string) : string :=
  match s with
  | EmptyString => EmptyString
  | String c t => if Ascii.eqb c newline then String newline (indent ++ replace_nl indent t)%string
                  else String c (replace_nl indent t)
  end.
(** reprlib.py:59-90 *)
Definition has_nl (s : string) : bool := has_char newline s.

(** reprlib.py:68-77 [_repr_elem] and 59-90 [get_repr], on the indentation stack:
    the text (or the exception) and the stack afterwards. *)
Fixpoint get_repr (o : robj) (st : list string) {struct o} : result string * list string :=
  match o with
  | RFail e => (Err e, st)
  | RNoConfig => (Err TypeError, st)
  | RObj c items =>
      match top st with
      | Err e => (Err e, st)
      | Ok i =>
          let '(r, st2) :=
            (fix elems (l : list ritem) (st : list string) {struct l} : result (list string) * list string :=
               match l with
               | [] => (Ok [], st)
               | it :: t =>
                   let '(r1, st1) := repr_item (g_sep c) it st in
                   match r1 with
                   | Err e => (Err e, st1)
                   | Ok x => let '(r2, st2) := elems t st1 in (rmap (cons x) r2, st2)
                   end
               end) items (st ++ [(i ++ g_indent c)%string]) in
          match pop st2 with
          | Err e => (Err e, st2)
          | Ok st3 =>
              match r with
              | Err e => (Err e, st3)
              | Ok es =>
                  match join (String "," (String newline "")) es with
                  | EmptyString => (Ok (g_type c ++ g_start c ++ g_empty c ++ g_end c)%string, st3)
                  | body =>
                      match top st3 with
                      | Err e => (Err e, st3)
                      | Ok j => (Ok (g_type c ++ g_start c ++
                                     String newline (body ++ String newline j) ++ g_end c)%string, st3)
                      end
                  end
              end
          end
      end
  end
with repr_item (sep : string) (it : ritem) (st : list string) {struct it} : result string * list string :=
  match it with
  | RiRaise e => (Err e, st)
  | RiOther => (Err TypeError, st)
  | RiAttr key start end_ v =>
      let '(r, st1) := repr_val v st in
      match r with
      | Err e => (Err e, st1)
      | Ok value =>
          match top st1 with
          | Err e => (Err e, st1)
          | Ok i => (Ok (i ++ start ++ key ++ sep ++ value ++ end_)%string, st1)
          end
      end
  end
with repr_val (v : rval) (st : list string) {struct v} : result string * list string :=
  match v with
  | RvStr s => match top st with
               | Err e => (Err e, st)
               | Ok i => (Ok (if has_nl s then replace_nl i s else s), st)
               end
  | RvObj o => get_repr o st
  | RvOther ps =>
      let '(r, st1) :=
        (fix pieces (l : list rpiece) (st : list string) {struct l} : result string * list string :=
           match l with
           | [] => (Ok "", st)
           | p :: t =>
               let '(r1, st1) := repr_piece p st in
               match r1 with
               | Err e => (Err e, st1)
               | Ok x => let '(r2, st2) := pieces t st1 in (rmap (fun y => x ++ y)%string r2, st2)
               end
           end) ps st in
      match r with
      | Err e => (Err e, st1)
      | Ok s => match top st1 with
                | Err e => (Err e, st1)
                | Ok i => (Ok (if has_nl s then replace_nl i s else s), st1)
                end
      end
  end
with repr_piece (p : rpiece) (st : list string) {struct p} : result string * list string :=
  match p with
  | RpText s => (Ok s, st)
  | RpRaise e => (Err e, st)
  | RpObj o => get_repr o st
  end.
