(** Histories with transforms: everything of Spec_History at the current trace
    level, and calls of jit, grad, remat, scan, apply, init, constructors and
    deepcopy, whose functions may themselves do all of this, in any nesting and with
    any outcome. *)
From Coq Require Import ZArith.
From Verif Require Import PyBase ValuesM Spec_Eq FiltersM StateM ModuleM ContextM TransformM JitArgsM RematArgsM GradArgsM SpmdM ScanM ScanInitM ScanClassM HelpersM DataclassM CopyM.
From Verif Require Import Spec_Module Spec_History Spec_Scan Spec_Dataclass Spec_Copy.
Local Open Scope string_scope.
Local Open Scope list_scope.

(** what holds of the interpreter state whenever user code runs *)
Definition sound (w : world) : Prop := wf_world w /\ all_modules w.

(** A user function given a module, a constructor, a factory of a field: whatever they
    do is again a history [H]; what they return exists. *)
Definition runs {A} (H : world -> world -> Prop) (f : world -> nat -> world * result A) : Prop :=
  forall w r, sound w -> r < List.length (w_heap w) -> H w (fst (f w r)).
Definition makes (H : world -> world -> Prop) (c : world -> world * result nat) : Prop :=
  forall w, sound w -> H w (fst (c w)) /\ forall m, snd (c w) = Ok m -> m < List.length (w_heap (fst (c w))).
Definition yields (H : world -> world -> Prop) (g : factory) : Prop :=
  forall w, sound w -> H w (fst (g w)) /\ forall a, snd (g w) = Ok a -> attr_ok (fst (g w)) a.
(** a dataclass whose factories and [__post_init__] are such *)
Definition class_ok (H : world -> world -> Prop) (w : world) (d : dclass) : Prop :=
  In "Module" (d_cls d) /\ good_defaults w (d_fields d) /\
  (forall n f, In (n, f) (d_fields d) ->
     (forall g, f_default f = Factory g -> yields H g) /\ (forall c s, f_kind f = Some (KVar c s) -> variable_class c)) /\
  (forall p, d_post d = Some p -> runs H p).

Inductive history : world -> world -> Prop :=
| h_none w : history w w
| h_then w1 w2 w3 : history w1 w2 -> history w2 w3 -> history w1 w3
(** a basic call *)
| h_step w w' : step w w' -> w_trace w' = w_trace w -> history w w'
(** nnx.jit(f)(m, ...) *)
| h_jit static stateful t f w m args kw ss :
    (forall a k, runs history (f a k)) ->
    history w (fst (fst (jit_call_args static stateful t f w m args kw ss)))
(** nnx.grad(f)(m, ...) *)
| h_grad stateful has_aux holo ints ai wrt t lg f w m args :
    (forall a, runs history (f a)) ->
    history w (fst (grad_args stateful has_aux holo ints ai wrt t lg f w m args))
(** nnx.remat(f)(m, ...), and objects of class Remat *)
| h_remat nums t f w r args ctx ss :
    (forall a c, runs history (f a c)) ->
    history w (fst (fst (remat_args nums t f w r args ctx ss)))
| h_remat_new ctor cv ov w :
    makes history ctor -> not_module cv -> not_module ov ->
    history w (fst (remat_new ctor cv ov w))
(** nnx.scan(f)(m, ...), decorated constructors, and objects of class Scan *)
| h_scan J o t f w r c xs ctx ss :
    arrays_ok J -> (forall pc c xs, runs history (f pc c xs)) ->
    history w (fst (fst (scan_apply J o t f w r c xs ctx ss)))
| h_scan_init J o t ctor w ctx ss :
    arrays_ok J -> (forall pc, makes history (ctor pc)) ->
    history w (fst (fst (scan_init J o t ctor w ctx ss)))
| h_decorated J o t f w r ctx ss :
    arrays_ok J -> (forall pc, runs history (f pc)) -> r < List.length (w_heap w) ->
    history w (fst (fst (decorated_init J o t f w r ctx ss)))
| h_scan_new J o t ctor cv ov w ctx ss :
    arrays_ok J -> (forall pc, makes history (ctor pc)) -> not_module cv -> not_module ov ->
    history w (fst (fst (scan_new J o t ctor cv ov w ctx ss)))
(** m.init(...) and apply, of definitions and of modules *)
| h_init {A} (f : world -> nat -> world * result A) w r :
    runs history f -> r < List.length (w_heap w) -> history w (fst (init_call w r (fun w => f w r)))
| h_mdef_apply {A} (f : world -> nat -> world * result A) w d ss :
    runs history f -> wf_mdef d -> Forall plain_state ss -> history w (fst (mdef_apply w d ss f))
| h_module_apply {A} (f : world -> nat -> world * result A) w r :
    runs history f -> history w (fst (module_apply w r f))
| h_pure_call {A} (f : world -> nat -> world * result A) w p :
    runs history f -> wf_mdef (p_def p) -> Forall plain_state (sts_list (p_states p)) -> history w (fst (pure_call w p f))
(** constructors of Sequence, Dict and dataclasses *)
| h_sequence w xs r w' : Forall (attr_ok w) xs -> new_sequence w xs = Ok (r, w') -> history w w'
| h_dict w items r w' : Forall (fun ka => attr_ok w (snd ka)) items -> new_dict w items = Ok (r, w') -> history w w'
| h_dataclass d args kw w : class_ok history w d -> good_call w args kw -> history w (fst (construct d args kw w))
(** copy.deepcopy(m) *)
| h_deepcopy tc w r m w' : r < List.length (w_heap w) -> closed w r -> deepcopy tc w r = Ok (m, w') -> history w w'.
