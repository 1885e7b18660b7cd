(** Properties of nnx.Sequence and nnx.Dict: C44, C45, C60 and the Dict part of C10. *)
From Coq Require Import Permutation ZArith.
From Verif Require Import PyBase PyBaseFacts ValuesM Spec_Eq ValuesFacts FiltersM StateM ModuleM Spec_Module Graph_facts Dfs_proofs Write_proofs Clone_proofs Laws_proofs HelpersM Spec_Helpers
  Helpers_proofs Ex_Module.
Local Open Scope string_scope.
Local Open Scope list_scope.

(** *** C44: Sequence(xs) is the list xs, for every non-empty xs *)
Theorem C44_sequence :
  forall (w : world) (xs : list attr), wf_world w -> storable w xs -> xs <> [] ->
  exists r w', new_sequence w xs = Ok (r, w') /\ untouched w w' /\ wf_world w' /\ acts_as_list w' r reads_as xs.
Proof. exact sequence_list. Qed.

(** also after clone: elements that are submodules look the same *)
Theorem C44_clone :
  forall (w : world) (xs : list attr), wf_world w -> storable w xs -> xs <> [] ->
  (forall x, In (ARaw (PyMod x)) xs -> names_ok w x) ->
  exists r w' m w'', new_sequence w xs = Ok (r, w') /\ clone w' r = Ok (m, w'') /\ m <> r /\
    acts_as_list w'' m (fun a y => exists x, reads_as a x /\ same_read w' x w'' y) xs.
Proof. exact sequence_clone. Qed.

(** for the empty list it fails in every state: the length is 1 and neither
    indexing nor iteration behaves as for a list *)
Theorem C44_empty_refuted :
  forall w : world, wf_world w -> exists r w', new_sequence w [] = Ok (r, w') /\
    seq_len w' r = Ok 1 /\ seq_getitem w' r 0 = Err AttributeError /\ seq_iter w' r = Err AttributeError.
Proof.
  intros w Hw. destruct (new_sequence_constructed w [] Hw) as (w' & E & C); [constructor|].
  pose proof (constructed_len _ _ _ C) as L. cbn in L. exists (List.length (w_heap w)), w'. split; [exact E|]. split; [exact L|].
  pose proof (constructed_get _ _ _ _ (str_nat 0) C) as G. rewrite dget_seq_items in G. cbn [nth_error] in G.
  unfold seq_getitem, seq_iter. rewrite L. cbn [rbind seq rmapM Z.leb Z.of_nat]. change (str_int 0) with (str_nat 0). rewrite G. split; reflexivity.
Qed.
(** and negative indices, which a list accepts, never work on a new Sequence *)
Theorem C44_negative_index_refuted :
  forall (w : world) (xs : list attr) (z : Z), wf_world w -> storable w xs -> (z < 0)%Z ->
  exists r w', new_sequence w xs = Ok (r, w') /\ seq_getitem w' r z = Err AttributeError.
Proof.
  intros w xs z Hw Hx Hz. destruct (new_sequence_constructed w xs Hw Hx) as (w' & E & C). exists (List.length (w_heap w)), w'. split; [exact E|].
  unfold seq_getitem. rewrite (constructed_len _ _ _ C). cbn [rbind]. destruct (Z.leb_spec (Z.of_nat (last_index xs + 1)) z); [lia|].
  rewrite (constructed_get _ _ _ _ _ C). destruct z as [|p|p]; try lia. cbn [str_int]. unfold seq_items. rewrite dget_app.
  replace (dget (String "-" (str_nat (Pos.to_nat p))) (numbered 0 xs)) with (@None attr); [reflexivity|].
  symmetry. apply dget_None. rewrite keys_numbered. intros (j & _ & Q). apply str_nat_neq in Q; [exact Q|]. cbn. intuition discriminate.
Qed.

(** twelve elements (two-digit names), among them containers and submodules *)
Definition ex_elems : list attr :=
  [sub 1; param 30; ARaw (PyStr "x"); arr 31; sub 2; sub 1; ARaw PyNone; param 32; arr 33; arr 34; arr 35; sub 3].
Example C44_example : storable ex_cyc ex_elems /\ ex_elems <> [] /\ (forall x, In (ARaw (PyMod x)) ex_elems -> names_ok ex_cyc x).
Proof.
  split.
  { unfold storable, ex_elems. rewrite Forall_forall. intros a Ha. cbn in Ha.
    repeat (destruct Ha as [<-|Ha]; [split; [first [exact Logic.I|apply wf_containerb_ok; reflexivity]|intros x E; inversion E; subst; cbn; lia]|]). destruct Ha. }
  split; [discriminate|]. intros x _. apply names_okb_ok. vm_compute. reflexivity.
Qed.
Example C44_value : exists r w', new_sequence ex_cyc ex_elems = Ok (r, w') /\ seq_getitem w' r 11 = Ok (RVal (PyMod 3)) /\ seq_getitem w' r 7 = Ok (RVal (PyObj Array_cls 32)).
Proof. do 2 eexists. split; [vm_compute; reflexivity|]. split; vm_compute; reflexivity. Qed.

(** *** C45: item access of Dict(d) agrees with d *)
Theorem C45_getitem :
  forall (methods : list string) (w : world) (items : dict attr), wf_world w -> NoDup (keys items) -> ~ In "_module__state" (keys items) ->
  storable w (values items) ->
  exists r w', new_dict w items = Ok (r, w') /\ untouched w w' /\
    (forall k a, dget k items = Some a -> ~ In k ["init"; "is_initializing"; "apply"] ->
       exists v, dict_getitem methods w' r k = Ok (IStored v) /\ reads_as a v /\ dict_contains methods w' r k = Ok true) /\
    (forall k, dget k items = None -> ~ In k ("_module__state" :: "init" :: "is_initializing" :: "apply" :: methods) ->
       exists e, dict_getitem methods w' r k = Err e).
Proof.
  intros methods w items Hw Hn Hr Hx. destruct (new_dict_constructed w items Hw Hn Hr Hx) as (w' & E & C).
  exists (List.length (w_heap w)), w'. split; [exact E|]. pose proof C as (Ho & Hoth & _). split; [|split].
  - intros y o Hy. rewrite Hoth; [exact Hy|]. intros ->. apply get_obj_lt in Hy. lia.
  - intros k a Ha Hp. assert (G : dict_getitem methods w' (List.length (w_heap w)) k = Ok (IStored (read_attr a))).
    { unfold dict_getitem. rewrite Ho. rewrite (proj2 (smem_false k module_properties) Hp). cbn [m_vars]. now rewrite Ha. }
    exists (read_attr a). split; [exact G|]. split; [apply read_attr_reads|]. unfold dict_contains. now rewrite G.
  - intros k Ha Hp. exists AttributeError. unfold dict_getitem. rewrite Ho.
    rewrite (proj2 (smem_false k module_properties)) by (intros Q; apply Hp; cbn in Q |- *; tauto). cbn [m_vars]. rewrite Ha.
    destruct (String.eqb_spec k "_module__state") as [->|_]; [exfalso; apply Hp; now left|].
    rewrite (proj2 (smem_false k methods)); [reflexivity|]. intros Q. apply Hp. cbn. tauto.
Qed.

(** item assignment: the new item is read back (a container keeps its class and
    takes the value), the others are unchanged *)
Theorem C45_setitem :
  forall (methods : list string) (w w' : world) (r : nat) (k : string) (a : attr) (o : mobj),
  wf_world w -> get_obj w r = Some o -> attr_ok w a -> ~ In k ["init"; "is_initializing"; "apply"] -> dict_setitem w r k a = Ok w' ->
  (exists b v, dict_getitem methods w' r k = Ok (IStored v) /\ reads_as b v /\
     match dget k (m_vars o) with Some old => overwrites old a b | None => b = a end) /\
  (forall k', k' <> k -> dict_getitem methods w' r k' = dict_getitem methods w r k').
Proof.
  intros methods w w' r k a o Hw Ho Ha Hp E. apply setattr_inv in E as (o1 & b & Ho1 & Ht & Hn & Has & ->).
  assert (o1 = o) by congruence. subst o1. pose proof (wf_objs _ Hw _ _ Ho) as W. split.
  - exists b, (read_attr b). unfold dict_getitem. rewrite (get_put_same _ _ _ o) by exact Ho. rewrite (proj2 (smem_false k module_properties) Hp).
    cbn [m_vars set_vars]. rewrite dget_dset_same. split; [reflexivity|]. split; [apply read_attr_reads|].
    destruct (dget k (m_vars o)) as [[v|c]|] eqn:D.
    + cbn. destruct a as [u|c']; unfold assign_value in Has; [congruence|]. destruct Ha as [Ha _]. rewrite container_copy_id in Has by exact Ha. cbn in Has. congruence.
    + pose proof (wfo_attrs _ _ W _ _ D) as Wc. unfold assign_value in Has. rewrite replace_value in Has by exact Wc. cbn [overwrites]. destruct a as [u|c'].
      * cbn in Has. congruence.
      * destruct Ha as [Ha _]. destruct (is_equivalent c c') eqn:Q; [|discriminate]. apply (proj1 (is_equivalent_spec c c' Wc Ha)) in Q as [Q1 Q2].
        cbn in Has. split; [exact Q1|]. split; [exact Q2|]. congruence.
    + unfold assign_value in Has. destruct a as [u|c']; [congruence|]. destruct Ha as [Ha _]. rewrite container_copy_id in Has by exact Ha. cbn in Has. congruence.
  - intros k' Hk. unfold dict_getitem. rewrite (get_put_same _ _ _ o), Ho by exact Ho. cbn [m_vars set_vars]. now rewrite dget_dset_other.
Qed.

(** after clone the same keys are there and items read the same *)
Theorem C45_clone :
  forall (methods : list string) (w : world) (items : dict attr), wf_world w -> NoDup (keys items) ->
  (forall k, In k (keys items) -> has_char "/" k = false /\ starts_with "_module__" k = false) -> storable w (values items) ->
  (forall k x, dget k items = Some (ARaw (PyMod x)) -> names_ok w x) ->
  exists r w' m w'', new_dict w items = Ok (r, w') /\ clone w' r = Ok (m, w'') /\ m <> r /\
    (forall k a, dget k items = Some a -> ~ In k ["init"; "is_initializing"; "apply"] ->
       exists x y, dict_getitem methods w'' m k = Ok (IStored y) /\ reads_as a x /\ same_read w' x w'' y) /\
    (exists ks, dict_iter w'' m = Ok ks /\ Permutation ks ("_module__state" :: keys items)).
Proof.
  intros methods w items Hw Hn Hk Hx Hsub.
  assert (Hres : ~ In "_module__state" (keys items)) by (intros H; destruct (Hk _ H); discriminate).
  destruct (new_dict_constructed w items Hw Hn Hres Hx) as (w' & E & C). set (r := List.length (w_heap w)) in *.
  pose proof C as (Ho & Hoth & Hw' & Hext & _). fold r in Ho, Hoth.
  assert (Hnames : names_ok w' r).
  { apply (constructed_names w Dict_cls items w' Hw C); auto. intros n x Hd. apply dget_In in Hd. apply (in_map snd) in Hd.
    unfold storable in Hx. rewrite Forall_forall in Hx. destruct (Hx _ Hd) as [_ K]. now apply K. }
  assert (Hr : valid w' r) by (apply get_obj_lt in Ho; exact Ho).
  destruct (clone_faithful w' r Hw' Hr Hnames) as (m & w'' & Ec & F). destruct (fc_wf _ _ _ _ _ F Hw') as [Hw'' Hm].
  destruct (get_obj_ex _ _ Hm) as [o' Ho'].
  exists r, w', m, w''. split; [exact E|]. split; [exact Ec|]. split.
  { intros ->. assert (N : get_obj w' r = None). { apply (fc_new _ _ _ _ _ F). eapply reaches_refl; eauto. } congruence. }
  pose proof (fun k => look_getattr w' r w'' m k Hw' Hw'' Hr Hm (fc_look _ _ _ _ _ F)) as G. unfold getattr in G. rewrite Ho, Ho' in G. cbn [m_vars] in G. split.
  - intros k a Ha Hp. specialize (G k). rewrite Ha in G. unfold dict_getitem. rewrite Ho', (proj2 (smem_false k module_properties) Hp).
    destruct (dget k (m_vars o')) as [b|]; [|destruct G as (y & Q & _); discriminate]. destruct G as (y & Q & S). injection Q as <-.
    exists (read_attr a), (read_attr b). split; [reflexivity|]. split; [apply read_attr_reads|exact S].
  - unfold dict_iter. rewrite Ho'. eexists. split; [reflexivity|]. apply perm_skip.
    apply NoDup_Permutation; [apply (wf_objs _ Hw'' _ _ Ho')|exact Hn|]. intros k. specialize (G k). split; intros H.
    + destruct (dget k items) eqn:D; [now apply dget_In_keys in D|]. apply dget_Some_keys in H as [v Hv]. rewrite Hv in G. discriminate.
    + apply dget_Some_keys in H as [v Hv]. rewrite Hv in G. destruct (dget k (m_vars o')) eqn:D; [now apply dget_In_keys in D|]. destruct G as (y & Q & _). discriminate.
Qed.

(** len and iteration do not agree with d, for any d: the ModuleState is counted
    and listed *)
Theorem C45_len_iter_refuted :
  forall (w : world) (items : dict attr), wf_world w -> NoDup (keys items) -> ~ In "_module__state" (keys items) -> storable w (values items) ->
  exists r w', new_dict w items = Ok (r, w') /\ dict_len w' r = Ok (S (List.length items)) /\ dict_iter w' r = Ok ("_module__state" :: keys items).
Proof.
  intros w items Hw Hn Hr Hx. destruct (new_dict_constructed w items Hw Hn Hr Hx) as (w' & E & C). exists (List.length (w_heap w)), w'.
  split; [exact E|]. destruct C as (Ho & _). unfold dict_len, dict_iter. rewrite Ho. split; reflexivity.
Qed.
(** a missing key raises AttributeError, so that [in] and [get] raise as well *)
Theorem C45_missing_key_refuted :
  forall (methods : list string) (w : world) (items : dict attr) (k : string), wf_world w -> NoDup (keys items) -> ~ In "_module__state" (keys items) ->
  storable w (values items) -> ~ In k (keys items) -> ~ In k ("_module__state" :: "init" :: "is_initializing" :: "apply" :: methods) ->
  exists r w', new_dict w items = Ok (r, w') /\ dict_getitem methods w' r k = Err AttributeError /\
    dict_contains methods w' r k = Err AttributeError /\ forall d, dict_get methods w' r k d = Err AttributeError.
Proof.
  intros methods w items k Hw Hn Hr Hx Hk Hp. destruct (new_dict_constructed w items Hw Hn Hr Hx) as (w' & E & C).
  exists (List.length (w_heap w)), w'. split; [exact E|]. destruct C as (Ho & _).
  assert (G : dict_getitem methods w' (List.length (w_heap w)) k = Err AttributeError).
  { unfold dict_getitem. rewrite Ho. rewrite (proj2 (smem_false k module_properties)) by (intros Q; apply Hp; cbn in Q |- *; tauto). cbn [m_vars].
    rewrite (proj2 (dget_None k items) Hk). destruct (String.eqb_spec k "_module__state") as [->|_]; [exfalso; apply Hp; now left|].
    rewrite (proj2 (smem_false k methods)); [reflexivity|]. intros Q. apply Hp. cbn. tauto. }
  split; [exact G|]. unfold dict_contains, dict_get. rewrite G. split; reflexivity.
Qed.
(** an item called like a property of Module cannot be read back *)
Theorem C45_property_name_refuted :
  forall (methods : list string) (w : world) (items : dict attr) (k : string), wf_world w -> NoDup (keys items) -> ~ In "_module__state" (keys items) ->
  storable w (values items) -> In k ["init"; "is_initializing"; "apply"] ->
  exists r w', new_dict w items = Ok (r, w') /\ dict_getitem methods w' r k = Ok (IProperty k).
Proof.
  intros methods w items k Hw Hn Hr Hx Hp. destruct (new_dict_constructed w items Hw Hn Hr Hx) as (w' & E & C).
  exists (List.length (w_heap w)), w'. split; [exact E|]. destruct C as (Ho & _). unfold dict_getitem. rewrite Ho.
  now rewrite (proj2 (smem_In k module_properties) Hp).
Qed.
Definition ex_items : dict attr := [("b", sub 2); ("a", param 40); ("init", arr 41); ("c", ARaw (PyStr "s"))].
Example C45_example : NoDup (keys ex_items) /\ ~ In "_module__state" (keys ex_items) /\ storable ex_cyc (values ex_items) /\
  (forall k, In k (keys ex_items) -> has_char "/" k = false /\ starts_with "_module__" k = false) /\
  (forall k x, dget k ex_items = Some (ARaw (PyMod x)) -> names_ok ex_cyc x).
Proof.
  split; [apply nodupb_ok; reflexivity|]. split; [cbn; intuition discriminate|]. split.
  { unfold storable. rewrite Forall_forall. intros a Ha. cbn in Ha.
    repeat (destruct Ha as [<-|Ha]; [split; [first [exact Logic.I|apply wf_containerb_ok; reflexivity]|intros x E; inversion E; subst; cbn; lia]|]). destruct Ha. }
  split; [intros k H; cbn in H; repeat (destruct H as [<-|H]; [split; reflexivity|]); destruct H|].
  intros k x _. apply names_okb_ok. vm_compute. reflexivity.
Qed.

(** *** C10 for Dict items *)
Theorem C10_dict_setitem :
  forall (w : world) (r : nat) (k : string) (a : attr) (o : mobj),
  get_obj w r = Some o -> m_trace o <> w_trace w -> dict_setitem w r k a = Err TraceContextError.
Proof. exact setattr_guard. Qed.

(** *** C60: calling a Sequence calls its elements in order, each on the output of
    the one before (a tuple as positional arguments, a dict as keyword arguments,
    anything else as the only argument), passing ctx to those that take it.
    The first theorem is the case of one element; the second splits a longer
    Sequence anywhere. *)
Theorem C60_one :
  forall (V F S' : Type) (callable takes_ctx : F -> bool) (run : F -> S' -> list V -> dict V -> S' * result (output V))
    (ctx : option V) (f : F) (s : S') (args : list V) (kwargs : dict V),
  (callable f = false -> seq_call callable takes_ctx run ctx [f] s args kwargs = (s, Err TypeError)) /\
  (callable f = true -> forall s1 res,
     run f s args (match ctx with Some c => if takes_ctx f then dset "ctx" c kwargs else kwargs | None => kwargs end) = (s1, res) ->
     seq_call callable takes_ctx run ctx [f] s args kwargs = (s1, rmap Some res)).
Proof.
  intros V F S' callable takes_ctx run ctx f s args kwargs. unfold seq_call. cbn [call_loop]. split; intros Hc.
  - now rewrite Hc.
  - intros s1 res E. rewrite Hc. cbn [negb]. unfold call_stage. rewrite E. destruct res; reflexivity.
Qed.
Theorem C60_split :
  forall (V F S' : Type) (callable takes_ctx : F -> bool) (run : F -> S' -> list V -> dict V -> S' * result (output V))
    (ctx : option V) (fs gs : list F) (s : S') (args : list V) (kwargs : dict V), fs <> [] -> gs <> [] ->
  (forall s1 e, seq_call callable takes_ctx run ctx fs s args kwargs = (s1, Err e) ->
     seq_call callable takes_ctx run ctx (fs ++ gs) s args kwargs = (s1, Err e)) /\
  (forall s1 l, seq_call callable takes_ctx run ctx fs s args kwargs = (s1, Ok (Some (OTuple l))) ->
     seq_call callable takes_ctx run ctx (fs ++ gs) s args kwargs = seq_call callable takes_ctx run ctx gs s1 l []) /\
  (forall s1 d, seq_call callable takes_ctx run ctx fs s args kwargs = (s1, Ok (Some (ODict d))) ->
     seq_call callable takes_ctx run ctx (fs ++ gs) s args kwargs = seq_call callable takes_ctx run ctx gs s1 [] d) /\
  (forall s1 v, seq_call callable takes_ctx run ctx fs s args kwargs = (s1, Ok (Some (OOther v))) ->
     seq_call callable takes_ctx run ctx (fs ++ gs) s args kwargs = seq_call callable takes_ctx run ctx gs s1 [v] []).
Proof.
  intros V F S' callable takes_ctx run ctx fs gs s args kwargs Hf Hg. unfold seq_call. rewrite call_loop_app.
  repeat split; intros s1 x E; rewrite E; try reflexivity; now rewrite call_loop_some.
Qed.
(** whether ctx is passed is decided by the signature: by keyword only to a
    parameter of that name that can be given by keyword *)
Theorem C60_has_keyword_arg :
  forall (params : list (string * param_kind)) (name : string),
  has_keyword_arg params name = true <-> In (name, KEYWORD_ONLY) params \/ In (name, POSITIONAL_OR_KEYWORD) params.
Proof.
  intros params name. unfold has_keyword_arg. rewrite existsb_exists. split.
  - intros ([n k] & Hin & H). cbn in H. apply andb_prop in H as [H1 H2]. apply String.eqb_eq in H1 as ->. destruct k; try discriminate; auto.
  - intros [H|H]; eexists; (split; [exact H|]); cbn; now rewrite String.eqb_refl.
Qed.
(** three stages on numbers: a pair, a dict, a number; the second takes ctx *)
Definition ex_run (f : nat) (s : list nat) (args : list nat) (kwargs : dict nat) : list nat * result (output nat) :=
  (s ++ [f], match f with
             | 0 => Ok (OTuple (args ++ args))
             | 1 => Ok (ODict [("a", list_sum args); ("b", match dget "ctx" kwargs with Some c => c | None => 0 end)])
             | 2 => Ok (OOther (list_sum (values kwargs)))
             | _ => Err UserError
             end).
Example C60_example :
  seq_call (fun f => Nat.ltb f 9) (Nat.eqb 1) ex_run (Some 100) [0; 1; 2] [] [5] [] = ([0; 1; 2], Ok (Some (OOther 110))) /\
  seq_call (fun f => Nat.ltb f 9) (Nat.eqb 1) ex_run (Some 100) [0; 9; 2] [] [5] [] = ([0], Err TypeError).
Proof. split; vm_compute; reflexivity. Qed.
Print Assumptions C44_sequence.
Print Assumptions C44_clone.
Print Assumptions C44_empty_refuted.
Print Assumptions C44_negative_index_refuted.
Print Assumptions C45_getitem.
Print Assumptions C45_setitem.
Print Assumptions C45_clone.
Print Assumptions C45_len_iter_refuted.
Print Assumptions C45_missing_key_refuted.
Print Assumptions C45_property_name_refuted.
Print Assumptions C10_dict_setitem.
Print Assumptions C60_one.
Print Assumptions C60_split.
Print Assumptions C60_has_keyword_arg.
