(** Prop_Tls: C35 (dynamic contexts) and C58 (repr). *)
From Verif Require Import PyBase SpmdM TlsM Spec_Tls Tls_proofs.
Local Open Scope string_scope.
Local Open Scope list_scope.

(** *** C35: every with-block undoes itself on every exit *)
(** Whatever the program (nesting, loops, exceptions raised and caught anywhere) and
    however it ends, all three contexts are afterwards what they were before. *)
Theorem C35_restored :
  forall (p : prog) (l : tls) (t : nat) (i : string),
  top (l_traces l) = Ok t -> top (l_indent l) = Ok i -> no_bare_set p = true ->
  forall l' o res, exec p l = (l', o, res) -> l' = l.
Proof. exact exec_restores. Qed.
Print Assumptions C35_restored.
(** With bare [set_logical_axis_rules] calls the two stacks still are. *)
Theorem C35_stacks :
  forall (p : prog) (l : tls) (t : nat) (i : string),
  top (l_traces l) = Ok t -> top (l_indent l) = Ok i ->
  forall l' o res, exec p l = (l', o, res) -> l_traces l' = l_traces l /\ l_indent l' = l_indent l.
Proof. exact exec_stacks. Qed.
Print Assumptions C35_stacks.
(** Every read anywhere sees the innermost enclosing block's value: running on the
    stacks gives the log and outcome of lexical scoping. *)
Theorem C35_innermost :
  forall (p : prog) (ts : list nat) (t : nat) (r : logical_rules) (is : list string) (i : string),
  exec p (mkTls (ts ++ [t]) r (is ++ [i])) =
  let '(r', o, res) := scoped p t i r in (mkTls (ts ++ [t]) r' (is ++ [i]), o, res).
Proof. exact exec_scoped. Qed.
Print Assumptions C35_innermost.

Definition ex_tls_prog : prog :=
  PSeq (PTry (PWith (BTrace 7) (PWith (BIndent "  ")
               (PSeq (PWith (BRules [("a", MAxis "x")]) (PSeq (PSetRules []) PRead)) (PSeq PRead (PRaise UserError))))) PRead)
       (PLoop 2 (PWith (BIndent "> ") (PFinally (PRaise ValueError) PRead))).
Example C35_example :
  no_bare_set ex_tls_prog = true /\ top (l_traces (fresh_tls 1)) = Ok 1 /\ top (l_indent (fresh_tls 1)) = Ok "" /\
  exec ex_tls_prog (fresh_tls 1) =
    (fresh_tls 1, [(7, [], "  "); (7, [], "  "); (1, [], ""); (1, [], "> ")], Err ValueError).
Proof. repeat split. Qed.

(** *** C58: repr *)
(** The text depends only on the object and the current indentation, and the stack
    is restored even when a generator or a nested repr raises. *)
Theorem C58_repr_pure :
  forall (o : robj) (st : list string) (i : string), get_repr o (st ++ [i]) = (render i o, st ++ [i]).
Proof. exact get_repr_render. Qed.
Print Assumptions C58_repr_pure.
(** Nested at indentation [i], an object prints as at top level with every line after
    the first indented by [i]. *)
Theorem C58_nested_partial :
  forall (o : robj) (i : string), labels_ok o -> render i o = rmap (replace_nl i) (render "" o).
Proof. exact render_nested. Qed.
Print Assumptions C58_nested_partial.

Definition cfg (n : string) := mkConfig n "(" ")" "=" "  " "".
Definition ex_inner := RObj (cfg "Inner") [RiAttr "a" "" "" (RvStr "1"); RiAttr "b" "" "" (RvOther [RpText (String "x" (String newline "y"))])].
Definition ex_outer := RObj (cfg "Outer") [RiAttr "k" "" "" (RvObj ex_inner); RiAttr "e" "" "" (RvObj (RObj (cfg "E") []))].
Example C58_example :
  labels_ok ex_outer /\ exists s, render "" ex_outer = Ok s /\ has_nl s = true.
Proof.
  split.
  - cbn. unfold one_line. repeat match goal with |- _ /\ _ => split end; try reflexivity; try discriminate; try exact I. repeat constructor.
  - eexists. split; vm_compute; reflexivity.
Qed.
(** The condition is needed: a Representable inside a tuple is indented twice. *)
Definition ex_tuple := RObj (cfg "T") [RiAttr "t" "" "" (RvOther [RpText "("; RpObj ex_inner; RpText ",)"])].
Theorem C58_in_tuple_refuted :
  exists (o : robj) (i s s' : string), render "" o = Ok s /\ render i o = Ok s' /\ s' <> replace_nl i s.
Proof. exists ex_tuple, "  ". do 2 eexists. split; [vm_compute; reflexivity|]. split; [vm_compute; reflexivity|]. vm_compute. discriminate. Qed.
Print Assumptions C58_in_tuple_refuted.
