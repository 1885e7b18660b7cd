(** Spec_Tls: the intended scoping of dynamic contexts, and what repr should print. *)
From Verif Require Import PyBase SpmdM TlsM.
Local Open Scope string_scope.
Local Open Scope list_scope.

(** Lexical scoping.  The current trace [t] and indentation [i] are parameters: a
    block passes other values to its body and nothing has to be restored.  The axis
    rules can also be set, so they are threaded through; a [logical_axis_rules]
    block hands back the rules it started with. *)
Notation scoped_result := (logical_rules * list obs * result unit)%type.
Definition sthen (x : scoped_result) (k : logical_rules -> scoped_result) : scoped_result :=
  match x with
  | (r, o, Ok _) => let '(r', o', res) := k r in (r', (o ++ o')%list, res)
  | (r, o, Err e) => (r, o, Err e)
  end.
Fixpoint sloop (n : nat) (k : logical_rules -> scoped_result) (r : logical_rules) : scoped_result :=
  match n with O => (r, [], Ok tt) | S n => sthen (k r) (sloop n k) end.
Fixpoint scoped (p : prog) (t : nat) (i : string) (r : logical_rules) : scoped_result :=
  match p with
  | PSkip => (r, [], Ok tt)
  | PRaise e => (r, [], Err e)
  | PSeq p q => sthen (scoped p t i r) (scoped q t i)
  | PTry p h => match scoped p t i r with
                | (r1, o, Err _) => let '(r2, o', res) := scoped h t i r1 in (r2, (o ++ o')%list, res)
                | x => x
                end
  | PFinally p q => let '(r1, o, res) := scoped p t i r in
                    match scoped q t i r1 with
                    | (r2, o', Ok _) => (r2, (o ++ o')%list, res)
                    | (r2, o', Err e) => (r2, (o ++ o')%list, Err e)
                    end
  | PWith (BTrace t') p => scoped p t' i r
  | PWith (BIndent s) p => scoped p t (i ++ s)%string r
  | PWith (BRules r') p => let '(_, o, res) := scoped p t i r' in (r, o, res)
  | PSetRules r' => (r', [], Ok tt)
  | PRead => (r, [(t, r, i)], Ok tt)
  | PLoop n p => sloop n (scoped p t i) r
  end.

(** The program never calls [set_logical_axis_rules] outside a [logical_axis_rules] block. *)
Fixpoint no_bare_set (p : prog) : bool :=
  match p with
  | PSeq p q | PTry p q | PFinally p q => no_bare_set p && no_bare_set q
  | PWith (BRules _) _ => true
  | PWith _ p | PLoop _ p => no_bare_set p
  | PSetRules _ => false
  | _ => true
  end.

(** repr with the indentation as an argument. *)
Fixpoint render (i : string) (o : robj) {struct o} : result string :=
  match o with
  | RFail e => Err e
  | RNoConfig => Err TypeError
  | RObj c items =>
      do es <- (fix elems (l : list ritem) : result (list string) :=
                  match l with
                  | [] => Ok []
                  | it :: t => do x <- render_item (i ++ g_indent c)%string (g_sep c) it;
                               do xs <- elems t; Ok (x :: xs)
                  end) items;
      Ok (if String.eqb (join (String "," (String newline "")) es) ""
          then (g_type c ++ g_start c ++ g_empty c ++ g_end c)%string
          else (g_type c ++ g_start c ++
                String newline (join (String "," (String newline "")) es ++ String newline i) ++ g_end c)%string)
  end
with render_item (i sep : string) (it : ritem) {struct it} : result string :=
  match it with
  | RiRaise e => Err e
  | RiOther => Err TypeError
  | RiAttr key start end_ v => do x <- render_val i v; Ok (i ++ start ++ key ++ sep ++ x ++ end_)%string
  end
with render_val (i : string) (v : rval) {struct v} : result string :=
  match v with
  | RvStr s => Ok (replace_nl i s)
  | RvObj o => render i o
  | RvOther ps =>
      do s <- (fix pieces (l : list rpiece) : result string :=
                 match l with
                 | [] => Ok ""
                 | p :: t => do x <- render_piece i p; do y <- pieces t; Ok (x ++ y)%string
                 end) ps;
      Ok (replace_nl i s)
  end
with render_piece (i : string) (p : rpiece) {struct p} : result string :=
  match p with RpText s => Ok s | RpRaise e => Err e | RpObj o => render i o end.

(** Labels on one line: no newline in types, brackets, keys, separators, indents;
    keys are not empty. *)
Definition one_line (s : string) : Prop := has_nl s = false.
(** no Representable inside another object (a tuple of Modules, say) *)
Definition piece_ok (p : rpiece) : Prop := match p with RpObj _ => False | _ => True end.
Fixpoint labels_ok (o : robj) : Prop :=
  match o with
  | RObj c items => one_line (g_type c) /\ one_line (g_start c) /\ one_line (g_end c) /\ one_line (g_sep c) /\
      one_line (g_indent c) /\ one_line (g_empty c) /\
      (fix all (l : list ritem) : Prop := match l with [] => True | it :: t => item_ok it /\ all t end) items
  | _ => True
  end
with item_ok (it : ritem) : Prop :=
  match it with
  | RiAttr key start end_ v => key <> "" /\ one_line key /\ one_line start /\ one_line end_ /\ val_ok v
  | _ => True
  end
with val_ok (v : rval) : Prop :=
  match v with
  | RvStr _ => True
  | RvObj o => labels_ok o
  | RvOther ps => Forall piece_ok ps
  end.
