(** Spec_JitLoop: calls of a jitted function in the course of a program. *)
From Verif Require Import PyBase ValuesM Spec_Eq FiltersM StateM ModuleM Spec_Module Spec_Prog TransformM Spec_JitCache JitLoopM.
Local Open Scope list_scope.

(** What is seen at the end of a path is the same up to [E]. *)
Definition seen_like (E : pyval -> pyval -> Prop) (a b : seen) : Prop :=
  match a, b with
  | SValue x, SValue y => attr_sim E x y
  | _, _ => a = b
  end.

(** [ok] holds of what the compiler takes as constants below [r]: the metadata of all
    Variables and the values of the static attributes. *)
Definition known_ok (ok : pyval -> Prop) (w : world) (r : nat) : Prop :=
  forall x o n a, reaches w r x -> get_obj w x = Some o -> dget n (m_vars o) = Some a ->
    match a with
    | ARaw v => static_attr w x n a -> ok v
    | ACont c => meta_ok ok (c_meta c) /\ (static_attr w x n a -> ok (c_val c))
    end.

(** A module one may call a jitted function with: in its own trace, of regular names,
    all of it in the same phase. *)
Record usable (nodes : list string) (ok : pyval -> Prop) (w : world) (r : nat) : Prop := {
  us_wf : wf_world w;
  us_valid : r < List.length (w_heap w);
  us_names : names_ok w r;
  us_live : live w r;
  us_phase : same_phase w r;
  us_nodes : w_nodes w = nodes;
  us_const : known_ok ok w r
}.

(** The caches a program can bring about: any number of calls, with any modules, each in
    any world; what happens between the calls is not restricted. *)
Inductive jit_made {A} (same_aval : pyval -> pyval -> bool) (stateful : bool) (t : trace_state)
    (fn : world -> nat -> world * result A) (nodes : list string) (ok : pyval -> Prop) : jit_cache -> Prop :=
| made_none : jit_made same_aval stateful t fn nodes ok []
| made_call cache w r cache' w' res :
    jit_made same_aval stateful t fn nodes ok cache -> usable nodes ok w r ->
    jit_loop_call same_aval stateful t fn cache w r = (cache', w', res) ->
    jit_made same_aval stateful t fn nodes ok cache'.

(** ** A program that calls a jitted function
    A list of steps on a module: [None] is a call of the jitted function, [Some g] is
    other code, run directly.  Every step's result is recorded; a step that raises does
    not stop the program (it may catch the exception). *)
Section Program.
Context {A : Type} (same_aval : pyval -> pyval -> bool) (stateful : bool) (t : trace_state) (f : prog A) (r : nat).
Fixpoint run_jitted (l : list (option (prog A))) (cache : jit_cache) (w : world) : world * list (result A) :=
  match l with
  | [] => (w, [])
  | None :: l' => let '(cache', w', x) := jit_loop_call same_aval stateful t (user_fun f) cache w r in
                  let (w2, xs) := run_jitted l' cache' w' in (w2, x :: xs)
  | Some g :: l' => let (w', x) := user_fun g w r in
                    let (w2, xs) := run_jitted l' cache w' in (w2, x :: xs)
  end.
(** The same program without jit: the function is called directly, except that when it
    raises, or jit is not stateful, the module stays as it was.  The premises say what
    jit needs of the module and of the function. *)
Inductive run_plainly (E : pyval -> pyval -> Prop) (nodes : list string) (ok : pyval -> Prop) :
    world -> list (option (prog A)) -> world -> list (result A) -> Prop :=
| rp_done w : run_plainly E nodes ok w [] w []
| rp_call w wd res l w2 xs :
    usable nodes ok w r -> user_fun f w r = (wd, res) ->
    (forall out, res = Ok out -> stateful = true -> nodes_only w wd r /\ names_ok wd r) ->
    run_plainly E nodes ok (match res with Ok _ => if stateful then wd else w | Err _ => w end) l w2 xs ->
    run_plainly E nodes ok w (None :: l) w2 (res :: xs)
| rp_code w g wd res l w2 xs :
    ok_prog g -> blind E (user_fun g) -> user_fun g w r = (wd, res) ->
    run_plainly E nodes ok wd l w2 xs ->
    run_plainly E nodes ok w (Some g :: l) w2 (res :: xs).
End Program.

(** ** Code that does not tell similar values apart
    Two programs that, given similar answers, do similar things and return the same. *)
Section Alike.
Variable E : pyval -> pyval -> Prop.
Inductive cmd_sim : cmd -> cmd -> Prop :=
| cs_same c : match c with CSet _ _ _ | CUpdate _ _ => False | _ => True end -> cmd_sim c c
| cs_set i n a b : attr_sim E a b -> cmd_sim (CSet i n a) (CSet i n b)
| cs_update i x y : sts_sim E x y -> cmd_sim (CUpdate i x) (CUpdate i y).
Inductive ans_sim : ans -> ans -> Prop :=
| as_same a : match a with AValue _ | AState _ => False | _ => True end -> ans_sim a a
| as_value a b : attr_sim E a b -> ans_sim (AValue a) (AValue b)
| as_state s t : dict_sim E s t -> ans_sim (AState s) (AState t).
Inductive prog_sim {A} : prog A -> prog A -> Prop :=
| ps_finish res : prog_sim (Finish res) (Finish res)
| ps_do c c' k k' : cmd_sim c c' -> (forall a b, ans_sim a b -> prog_sim (k a) (k' b)) -> prog_sim (Do c k) (Do c' k').
End Alike.
