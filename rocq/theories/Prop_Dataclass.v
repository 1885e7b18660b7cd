(** Prop_Dataclass: C80, Modules that are dataclasses. *)
From Coq Require Import Lia ZArith.
From Verif Require Import PyBase PyBaseFacts ValuesM Spec_Eq ValuesFacts FiltersM StateM ModuleM Spec_Module Graph_facts Clone_proofs DataclassM Spec_Dataclass Dataclass_proofs.
Local Open Scope string_scope.
Local Open Scope nat_scope.
Local Open Scope list_scope.

(** A call whose arguments do not match the parameters raises TypeError and changes no
    existing object. *)
Theorem C80_wrong_call w d args kw : NoDup (keys (d_fields d)) -> ~ correct_call d args kw ->
  exists w', construct d args kw w = (w', Err TypeError) /\ extends w w'.
Proof. apply bad_call. Qed.

(** Any other call makes a new object of the class, outside the existing ones, which it
    leaves alone.  Each field gets its argument or default ([gave]); a field declared
    with a container function then holds the declared container of that value, the others
    hold the value as given; nothing else is set.  The only failures are a field with a
    container function that the constructor does not set (KeyError), and an argument that
    is another container than the declared one (ValueError). *)
Theorem C80_construct w d args kw : wf_world w -> In "Module" (d_cls d) -> good_fields (d_fields d) -> good_defaults w (d_fields d) -> good_call w args kw ->
  d_post d = None -> correct_call d args kw ->
  exists w' res (gave : string -> option attr), construct d args kw w = (w', res) /\ extends w w' /\
    (forall n f, dget n (d_fields d) = Some f -> match gave n with Some a => field_gets w d args kw n f a | None => field_unset f end) /\
    match res with
    | Ok r => r = List.length (w_heap w) /\ wf_world w' /\ w_trace w' = w_trace w /\
        exists o, get_obj w' r = Some o /\ m_cls o = d_cls d /\ m_init o = false /\ m_trace o = w_trace w /\ m_id o = S (w_uuid w) /\
          forall n, match dget n (d_fields d) with
                    | None => dget n (m_vars o) = None
                    | Some f => match gave n with
                                | Some a => exists x, dget n (m_vars o) = Some x /\ field_holds f a x
                                | None => dget n (m_vars o) = None /\ f_kind f = None
                                end
                    end
    | Err e => exists n f k, dget n (d_fields d) = Some f /\ f_kind f = Some k /\
        ((e = KeyError /\ gave n = None) \/ (e = ValueError /\ exists a, gave n = Some a /\ ~ fits k a))
    end.
Proof. apply construct_run. Qed.

(** So every correct call with plain values succeeds, when the fields with container
    functions are all parameters or have factories that return plain values. *)
Theorem C80_succeeds w d args kw : wf_world w -> In "Module" (d_cls d) -> good_fields (d_fields d) -> good_defaults w (d_fields d) -> good_call w args kw ->
  d_post d = None -> correct_call d args kw ->
  (forall n f k, dget n (d_fields d) = Some f -> f_kind f = Some k -> ~ field_unset f /\ forall a, field_gets w d args kw n f a -> fits k a) ->
  exists w', construct d args kw w = (w', Ok (List.length (w_heap w))).
Proof.
  intros W Mo GF GD GC PO CC H. destruct (C80_construct w d args kw W Mo GF GD GC PO CC) as (w' & res & gave & E & _ & G & R).
  destruct res as [r|e]; [destruct R as (-> & _); eauto|]. exfalso. destruct R as (n & f & k & Gn & Fk & X). destruct (H n f k Gn Fk) as [U F]. specialize (G n f Gn).
  destruct X as [[_ X]|[_ (a & X & NF)]]; rewrite X in G; [contradiction|]. apply NF, F, G.
Qed.
(** Fields read as the value they were given, whether they are in a container or not. *)
Theorem C80_reads w d args kw w' r : wf_world w -> In "Module" (d_cls d) -> good_fields (d_fields d) -> good_defaults w (d_fields d) -> good_call w args kw ->
  d_post d = None -> construct d args kw w = (w', Ok r) ->
  forall n f a, dget n (d_fields d) = Some f -> argument d args kw n = Some a -> (forall c, a = ACont c -> f_kind f <> None \/ dget "unbox_fn" (c_meta c) = None) ->
  getattr w' r n = Ok (RVal (plain a)).
Proof.
  intros W Mo GF GD GC PO E n f a G A U.
  assert (ND : NoDup (keys (d_fields d))) by apply GF.
  assert (CC : correct_call d args kw).
  { destruct (dmem "self" kw) eqn:S1; [unfold construct in E; rewrite S1 in E; discriminate|]. apply dmem_false in S1. destruct (bind_call_spec d args kw ND S1) as [[X _]|[X _]]; [exact X|].
    destruct (bad_call w d args kw ND X) as (w2 & E2 & _). congruence. }
  destruct (C80_construct w d args kw W Mo GF GD GC PO CC) as (w2 & res & gave & E2 & _ & Gv & R). rewrite E in E2. injection E2 as <- <-.
  destruct R as (-> & _ & _ & o & O & _ & _ & _ & _ & H). specialize (H n). specialize (Gv n f G). rewrite G in H. unfold field_gets in Gv. rewrite A in Gv.
  destruct (gave n) as [b|].
  - subst b. destruct H as (x & Gx & FH). unfold getattr. rewrite O, Gx. f_equal. unfold field_holds in FH. destruct (f_kind f) as [k|].
    + destruct FH as [_ ->]. cbn [read_attr c_meta]. destruct k; reflexivity.
    + subst x. destruct a as [v|c]; [reflexivity|]. cbn [read_attr plain]. destruct (U c eq_refl) as [X|X]; [congruence|]. rewrite X. reflexivity.
  - exfalso. destruct Gv as [If _]. rewrite (argument_none d args kw n f ND G If) in A. discriminate.
Qed.
(** The new module is none of the existing ones, and no existing one has its id. *)
Theorem C80_new w d args kw w' r : wf_world w -> In "Module" (d_cls d) -> good_fields (d_fields d) -> good_defaults w (d_fields d) -> good_call w args kw ->
  d_post d = None -> correct_call d args kw -> construct d args kw w = (w', Ok r) ->
  forall x o, get_obj w x = Some o -> x <> r /\ get_obj w' x = Some o /\ forall o', get_obj w' r = Some o' -> m_id o' <> m_id o.
Proof.
  intros W Mo GF GD GC PO CC E x o O. destruct (C80_construct w d args kw W Mo GF GD GC PO CC) as (w2 & res & gave & E2 & X & _ & R). rewrite E in E2. injection E2 as <- <-.
  destruct R as (-> & _ & _ & o2 & O2 & _ & _ & _ & Id & _). split; [apply get_obj_lt in O; lia|]. split; [eapply extends_get; eauto|].
  intros o' O'. rewrite O2 in O'. injection O' as <-. rewrite Id. pose proof (wfo_id _ _ (wf_objs _ W _ _ O)). lia.
Qed.

(** Fields declared as nodes or variables are entries of the state under their name,
    with the declared container; static fields are not, whatever their value. *)
Theorem C80_state w d args kw w' r s : wf_world w -> In "Module" (d_cls d) -> good_fields (d_fields d) -> good_defaults w (d_fields d) -> good_call w args kw ->
  d_post d = None -> correct_call d args kw -> construct d args kw w = (w', Ok r) ->
  w_nodes w' = default_node_types -> names_ok w' r -> acyclic w' r -> get_state w' r = Ok s ->
  forall n f k, dget n (d_fields d) = Some f -> f_kind f = Some k -> has_char "/" n = false ->
  match k with
  | KStatic => dget n s = None
  | _ => exists a, field_gets w d args kw n f a /\ dget n s = Some (ACont (mkCont (kind_cls k) (kind_meta k) (plain a)))
  end.
Proof.
  intros W Mo GF GD GC PO CC E NT NO AC S1 n f k G Fk NC.
  destruct (C80_construct w d args kw W Mo GF GD GC PO CC) as (w2 & res & gave & E2 & X & Gv & R). rewrite E in E2. injection E2 as <- <-.
  destruct R as (-> & W' & _ & o & O & _ & _ & _ & _ & H). specialize (H n). specialize (Gv n f G). rewrite G in H.
  destruct (gave n) as [a|]; [|destruct H; congruence]. destruct H as (x & Gx & FH). unfold field_holds in FH. rewrite Fk in FH. destruct FH as [_ ->].
  pose proof (own_entries w' _ o s n W' NO AC O S1 NC) as OE.
  assert (ND : forall t, In t (kind_cls k) -> In t default_node_types -> dget n s = Some (ACont (mkCont (kind_cls k) (kind_meta k) (plain a)))).
  { intros t I J. apply OE. exists o. split; [exact O|]. split; [exact Gx|]. split; [reflexivity|]. exists t. rewrite NT. auto. }
  destruct k as [| |c sh].
  - exists a. split; [exact Gv|]. apply (ND "Node"); cbn; tauto.
  - destruct (dget n s) as [b|] eqn:Q; [|reflexivity]. exfalso. destruct (proj1 (OE b) eq_refl) as (o2 & O2 & Gb & _ & t & I & J). assert (o2 = o) by congruence. subst o2. rewrite Gx in Gb. injection Gb as <-.
    rewrite NT in I. cbn in I, J. intuition congruence.
  - exists a. split; [exact Gv|]. apply (ND "Node"); [|cbn; tauto]. destruct GF as (_ & _ & GF). destruct (GF n f (dget_In _ _ _ G)) as (_ & V). apply (V c sh Fk). cbn. tauto.
Qed.

(** The container functions run last: whatever [__init__] and [__post_init__] have left in
    a field is what goes into its container. *)
Theorem C80_post_init w d args kw w1 o1 w2 r : good_fields (d_fields d) -> ~ In "self" (keys kw) ->
  generated_init d args kw (snd (new_module w (d_cls d))) (List.length (w_heap w)) = (w1, Ok tt) -> wf_world w1 -> get_obj w1 (List.length (w_heap w)) = Some o1 ->
  construct d args kw w = (w2, Ok r) ->
  exists o2, get_obj w2 r = Some o2 /\ m_cls o2 = m_cls o1 /\
    (forall x, x <> r -> get_obj w2 x = get_obj w1 x) /\
    forall n, match dget n (d_fields d) with
              | Some f => match dget n (m_vars o1) with
                          | Some a => exists y, dget n (m_vars o2) = Some y /\ field_holds f a y
                          | None => f_kind f = None /\ dget n (m_vars o2) = None
                          end
              | None => dget n (m_vars o2) = dget n (m_vars o1)
              end.
Proof.
  intros (ND & _ & GF) NS I W1 O1 E. unfold construct in E. apply dmem_false in NS. rewrite NS in E. assert (NM : new_module w (d_cls d) = (List.length (w_heap w), snd (new_module w (d_cls d)))) by reflexivity. rewrite NM in E. rewrite I in E.
  destruct (wrap_run (List.length (w_heap w)) (d_fields d) ND) with (w := w1) (o := o1) as (vars & res & E2 & R).
  { intros n f k J Fk c s ->. destruct (GF n f J) as (_ & F2). eapply F2; eauto. }
  { exact O1. }
  { intros n a _ G. exact (wfo_attrs _ _ (wf_objs _ W1 _ _ O1) _ _ G). }
  rewrite E2 in E. destruct res as [[]|e]; [|discriminate]. injection E as <- <-. exists (set_vars o1 vars).
  split; [apply (get_put_same _ _ _ _ O1)|]. split; [reflexivity|]. split; [intros x Q; apply get_put_other; congruence|].
  intros n. specialize (R n). cbn [m_vars set_vars]. destruct (dget n (d_fields d)) as [f|]; [|exact R]. unfold field_holds. destruct (f_kind f) as [k|].
  - destruct R as (a & Ra & F & R). rewrite Ra. eexists. split; [exact R|]. auto.
  - rewrite R. destruct (dget n (m_vars o1)) as [a|]; [eauto|auto].
Qed.

(** The field functions: a container function of one's own in the metadata is refused, as
    are two defaults at once; otherwise the field is as declared. *)
Theorem C80_field_functions k dflt fac init md :
  (In "nnx_container_fn" md -> kind_field k dflt fac init md = Err ValueError) /\
  (forall v g, dflt = Some v -> fac = Some g -> kind_field k dflt fac init md = Err ValueError) /\
  (~ In "nnx_container_fn" md -> (dflt = None \/ fac = None) ->
     exists f, kind_field k dflt fac init md = Ok f /\ f_init f = init /\ f_kind f = Some k /\
       f_default f = match dflt, fac with Some v, _ => Default v | None, Some g => Factory g | None, None => NoDefault end).
Proof.
  unfold kind_field, field. split; [intros I; apply smem_In in I; rewrite I; reflexivity|]. split; [intros v g -> ->; destruct (smem _ md); reflexivity|].
  intros I H. apply smem_false in I. rewrite I. destruct dflt as [v|], fac as [g|]; [destruct H; discriminate|..]; eexists; split; reflexivity || (split; [reflexivity|split; reflexivity]).
Qed.
(** What each of the four functions puts around a plain value: a Node, a Static, the
    variable class with the sharding given, a Param without sharding. *)
Theorem C80_field_containers dflt fac init md f v :
  (node_field dflt fac init md = Ok f -> exists k, f_kind f = Some k /\ call_kind k (ARaw v) = Ok (mkCont Node_cls [] v)) /\
  (static_field dflt fac init md = Ok f -> exists k, f_kind f = Some k /\ call_kind k (ARaw v) = Ok (mkCont Static_cls [] v)) /\
  (forall c s, variable_class c -> var_field c s dflt fac init md = Ok f -> exists k, f_kind f = Some k /\ call_kind k (ARaw v) = Ok (mkCont c [("sharding", s)] v)) /\
  (param_field dflt fac init md = Ok f -> exists k, f_kind f = Some k /\ call_kind k (ARaw v) = Ok (mkCont Param_cls [("sharding", PyNone)] v)).
Proof.
  assert (K : forall k, kind_field k dflt fac init md = Ok f -> f_kind f = Some k).
  { intros k. unfold kind_field, field. destruct (smem _ md); [discriminate|]. destruct dflt, fac; intros [= <-]; reflexivity. }
  split; [intros H; exists KNode; split; [exact (K _ H)|reflexivity]|]. split; [intros H; exists KStatic; split; [exact (K _ H)|reflexivity]|]. split.
  - intros c s V H. exists (KVar c s). split; [exact (K _ H)|]. destruct (kind_call (KVar c s) (ARaw v)) as [[_ E]|[F _]]; [|exact Logic.I|exact E|exfalso; apply F; exact Logic.I].
    intros c' s' [= <- <-]. exact V.
  - intros H. exists (KVar Param_cls PyNone). split; [exact (K _ H)|reflexivity].
Qed.
(** A field declared again in a subclass replaces the inherited declaration; the class is
    refused exactly when a parameter without default follows one with. *)
Theorem C80_inherited bases own n : NoDup (keys own) ->
  dget n (collect (bases ++ [own])) = match dget n own with Some f => Some f | None => dget n (collect bases) end.
Proof.
  intros ND. unfold collect. rewrite fold_left_app. cbn [fold_left]. apply dget_dupdate. exact ND.
Qed.
Theorem C80_signature c bases own post : 
  match dataclass c bases own post with
  | Ok d => d = mkDcls c (collect (bases ++ [own])) post /\
            forall i j n f m g, i < j -> nth_error (params (d_fields d)) i = Some (n, f) -> nth_error (params (d_fields d)) j = Some (m, g) -> f_default f <> NoDefault -> f_default g <> NoDefault
  | Err e => e = TypeError /\ exists i j n f m g, i < j /\ nth_error (params (collect (bases ++ [own]))) i = Some (n, f) /\ nth_error (params (collect (bases ++ [own]))) j = Some (m, g) /\ f_default f <> NoDefault /\ f_default g = NoDefault
  end.
Proof.
  unfold dataclass. cbn zeta. generalize (collect (bases ++ [own])). intros fs. pose proof (signature_spec (params fs)) as X. destruct (signature_ok (params fs)); [split; [reflexivity|exact X]|split; [reflexivity|exact X]].
Qed.

(** A field with a container function, a plain default and [init=False] makes the class
    unusable: no call ever constructs an object, although the declaration is accepted. *)
Theorem C80_default_without_init w d args kw n f k v : wf_world w -> In "Module" (d_cls d) -> good_fields (d_fields d) -> good_defaults w (d_fields d) -> good_call w args kw ->
  d_post d = None -> dget n (d_fields d) = Some f -> f_kind f = Some k -> f_init f = false -> f_default f = Default v ->
  forall w' r, construct d args kw w <> (w', Ok r).
Proof.
  intros W Mo GF GD GC PO G Fk Fi Fd w' r E. assert (ND : NoDup (keys (d_fields d))) by apply GF.
  assert (CC : correct_call d args kw).
  { destruct (dmem "self" kw) eqn:S1; [unfold construct in E; rewrite S1 in E; discriminate|]. apply dmem_false in S1. destruct (bind_call_spec d args kw ND S1) as [[X _]|[X _]]; [exact X|].
    destruct (bad_call w d args kw ND X) as (w2 & E2 & _). congruence. }
  destruct (C80_construct w d args kw W Mo GF GD GC PO CC) as (w2 & res & gave & E2 & _ & Gv & R). rewrite E in E2. injection E2 as <- <-.
  destruct R as (_ & _ & _ & o & _ & _ & _ & _ & _ & H). specialize (H n). specialize (Gv n f G). rewrite G in H. destruct (gave n) as [a|]; [|destruct H; congruence].
  unfold field_gets in Gv. rewrite (argument_none d args kw n f ND G Fi), Fd in Gv. destruct Gv. congruence.
Qed.
Theorem C80_default_refuted : exists f, param_field (Some (PyInt 1%Z)) None false [] = Ok f /\
  forall w, wf_world w -> snd (construct (mkDcls ["M"; "Module"; "object"] [("a", f)] None) [] [] w) = Err KeyError.
Proof.
  eexists. split; [reflexivity|]. intros w W. unfold construct. cbn [dmem]. unfold new_module, generated_init. cbn [d_fields d_post d_cls params filter f_init snd bind_call bind_params forallb keys map init_fields].
  unfold init_field. cbn [f_init f_default wrap_vars f_kind]. unfold get_obj. cbn [w_heap]. rewrite nth_error_app2 by lia. rewrite Nat.sub_diag. reflexivity.
Qed.

(** Dropout (stochastic.py:11-27), a dataclass with one required field, and a class with a
    parameter, a static field, a variable and a factory. *)
Definition dropout_fields : dict fdecl :=
  [("rate", mkField true NoDefault None); ("broadcast_dims", mkField true (Default (PyTuple [])) None);
   ("deterministic", mkField true (Default PyNone) None); ("rng_collection", mkField true (Default (PyStr "dropout")) None)].
Definition Dropout_cls : cls := ["Dropout"; "Module"; "object"].
Definition ex_fields : dict fdecl :=
  [("a", mkField true NoDefault (Some (KVar Param_cls PyNone))); ("b", mkField true NoDefault (Some KStatic));
   ("c", mkField true (Default (PyInt 3%Z)) (Some (KVar BatchStat_cls (PyTuple [PyStr "x"])))); ("e", mkField true (Default (PyInt 5%Z)) None);
   ("g", mkField false (Factory (fun w => let '(r, w') := new_module w ["Sub"; "Module"; "object"] in (w', Ok (ARaw (PyMod r))))) None)].
Definition w_empty : world := mkWorld [] 0 (0, 0) default_node_types.
Definition ex_class : dclass := mkDcls ["Ex"; "Module"; "object"] ex_fields None.
Example C80_example :
  dataclass Dropout_cls [] dropout_fields None = Ok (mkDcls Dropout_cls dropout_fields None) /\
  snd (construct (mkDcls Dropout_cls dropout_fields None) [] [] w_empty) = Err TypeError /\
  (exists w', construct (mkDcls Dropout_cls dropout_fields None) [ARaw (PyInt 1%Z)] [("deterministic", ARaw (PyBool true))] w_empty = (w', Ok 0) /\
              getattr w' 0 "deterministic" = Ok (RVal (PyBool true)) /\ getattr w' 0 "rng_collection" = Ok (RVal (PyStr "dropout"))) /\
  wf_world w_empty /\ good_fields ex_fields /\ good_defaults w_empty ex_fields /\
  good_call w_empty [ARaw (PyInt 1%Z)] [("b", ARaw (PyStr "s"))] /\ correct_call ex_class [ARaw (PyInt 1%Z)] [("b", ARaw (PyStr "s"))] /\
  (exists w' s, construct ex_class [ARaw (PyInt 1%Z)] [("b", ARaw (PyStr "s"))] w_empty = (w', Ok 0) /\ get_state w' 0 = Ok s /\
     keys s = ["a"; "c"] /\ getattr w' 0 "b" = Ok (RVal (PyStr "s")) /\ getattr w' 0 "g" = Ok (RVal (PyMod 1))) /\
  snd (construct ex_class [ACont (mkCont BatchStat_cls [("sharding", PyNone)] PyNone); ARaw PyNone] [] w_empty) = Err ValueError /\
  snd (construct ex_class [ACont (mkCont Param_cls [("sharding", PyNone)] PyNone); ARaw PyNone] [] w_empty) = Ok 0.
Proof.
  split; [reflexivity|]. split; [reflexivity|]. split; [eexists; split; [reflexivity|split; reflexivity]|].
  split; [split; [constructor|intros [|r] o H; discriminate H]|].
  split.
  { split; [repeat constructor; cbn; intuition discriminate|]. split; [cbn; intuition discriminate|]. intros n f I. cbn in I.
    assert (V : forall b c, In b [Param_cls; BatchStat_cls] -> b = c -> variable_class c).
    { intros b c J <-. destruct J as [<-|[<-|[]]]; (split; [intros x J; cbn in J; cbn; tauto|cbn; intuition discriminate]). }
    repeat (destruct I as [I|I]; [injection I as <- <-; split; [intros g H; cbn [f_default] in H; try discriminate H|intros c s H; cbn [f_kind] in H; first [discriminate H|injection H as H1 <-; eapply V; [|exact H1]; cbn; tauto]]|]); try contradiction.
    injection H as <-. intros w W. eexists. eexists. split; [reflexivity|]. split; [eexists; reflexivity|]. split; [apply Prog_proofs.new_module_wf; [cbn; tauto|exact W]|].
    split; [|split; reflexivity]. split; [exact Logic.I|]. intros x E. injection E as <-. cbn [w_heap snd new_module]. rewrite app_length. cbn. lia. }
  split.
  { intros n f v I D. cbn in I. repeat (destruct I as [I|I]; [injection I as <- <-; cbn [f_default] in D; first [discriminate D|injection D as <-; split; [exact Logic.I|intros x X; discriminate X]]|]). destruct I. }
  split.
  { split; [repeat constructor; discriminate|]. intros k a H. apply dget_In in H. destruct H as [H|[]]. injection H as <- <-. split; [exact Logic.I|discriminate]. }
  split.
  { split; [cbn; lia|]. split; [intros k [<-|[]]; split; [discriminate|exists 1; split; [reflexivity|cbn; lia]]|].
    intros n f I G A. cbn in I. repeat (destruct I as [<-|I]; [cbn in G; injection G as <-; cbn in A; discriminate|]). destruct I as []. }
  split; [eexists; eexists; split; [reflexivity|split; [reflexivity|split; [reflexivity|split; reflexivity]]]|].
  split; reflexivity.
Qed.

Print Assumptions C80_wrong_call.
Print Assumptions C80_construct.
Print Assumptions C80_succeeds.
Print Assumptions C80_reads.
Print Assumptions C80_new.
Print Assumptions C80_state.
Print Assumptions C80_post_init.
Print Assumptions C80_field_functions.
Print Assumptions C80_field_containers.
Print Assumptions C80_inherited.
Print Assumptions C80_signature.
Print Assumptions C80_default_without_init.
Print Assumptions C80_default_refuted.
