(** Prop_AnyDef: C85, merging any ModuleDef, be it made by hand. *)
From Coq Require Import ZArith.
From Verif Require Import PyBase PyBaseFacts ValuesM Spec_Eq StateM Spec_State ModuleM Spec_Module Spec_History Graph_facts Dfs_proofs Mdef_proofs Ex_Module Spec_AnyDef AnyDef_proofs.
Local Open Scope string_scope.
Local Open Scope nat_scope.
Local Open Scope list_scope.

(** ** When it works *)
(** [merge] with an empty State succeeds exactly on the definitions in which no number is
    given twice and every reference comes after the part it refers to.  It fails with
    KeyError or AssertionError, whichever the reading meets first. *)
Theorem C85_merge_succeeds :
  forall w d, well_numbered d <-> exists m w', merge w d [[]] = Ok (m, w').
Proof.
  intros w d. change (merge w d [[]]) with (merge w d []). rewrite well_numbered_iff. pose proof (merge_any w d) as H. destruct (first_bad [] (tokens d)) as [e|]; split; try discriminate.
  - intros (m & w' & E). congruence.
  - intros _. destruct H as (m & w' & at_ & E & _). eauto.
  - reflexivity.
Qed.
Print Assumptions C85_merge_succeeds.
Theorem C85_merge_fails :
  forall w d e, merge w d [[]] = Err e <-> stops_at (tokens d) e.
Proof.
  intros w d e. change (merge w d [[]]) with (merge w d []). rewrite stops_at_iff. pose proof (merge_any w d) as H. destruct (first_bad [] (tokens d)) as [e'|].
  - rewrite H. split; congruence.
  - destruct H as (m & w' & at_ & E & _). rewrite E. split; discriminate.
Qed.
Print Assumptions C85_merge_fails.

(** ** What it makes *)
(** One new object per part, with the class, the static attributes and the submodules
    that the part says; a reference gives the object of the part with its number.  The
    other objects are as they were. *)
Theorem C85_merge :
  forall w d m w', merge w d [[]] = Ok (m, w') -> exists at_, merged w d at_ m w'.
Proof.
  intros w d m w' E. change (merge w d [[]]) with (merge w d []) in E. pose proof (merge_any w d) as H. destruct (first_bad [] (tokens d)) as [e'|]; [congruence|].
  destruct H as (m1 & w1 & at_ & E1 & M). rewrite E in E1. injection E1 as <- <-. eauto.
Qed.
Print Assumptions C85_merge.
(** A path of names leads to a module exactly if it leads to a part; two paths lead to one
    module exactly if they lead to parts with one number. *)
Theorem C85_paths :
  forall w d m w', merge w d [[]] = Ok (m, w') -> no_modules d ->
  (forall path, follow w' m path <> None <-> exists p, leads d d path p) /\
  (forall path1 path2 p1 p2, leads d d path1 p1 -> leads d d path2 p2 -> (follow w' m path1 = follow w' m path2 <-> number p1 = number p2)).
Proof.
  intros w d m w' E N. destruct (C85_merge _ _ _ _ E) as (at_ & M). assert (Wn : well_numbered d) by (apply (C85_merge_succeeds w); eauto).
  assert (Hd : In d (parts d)).
  { destruct d as [i|]; [|now left]. exfalso. destruct Wn as [_ H]. exact (H [] i [] eq_refl). }
  assert (F : forall path x, follow w' m path = Some x <-> exists q, leads d d path q /\ x = at_ (number q)).
  { intros path x. rewrite (mg_root _ _ _ _ _ M). now apply (follow_leads w d at_ m w'). }
  assert (P : forall p path q, leads d p path q -> In p (parts d) -> In q (parts d)) by (intros p path q L; induction L; auto).
  split.
  - intros path. destruct (follow w' m path) as [x|] eqn:Ex.
    + split; [|discriminate]. intros _. apply F in Ex as (q & L & _). eauto.
    + split; [congruence|]. intros (p & L) _. assert (follow w' m path = Some (at_ (number p))) by (apply F; eauto). congruence.
  - intros path1 path2 p1 p2 L1 L2. rewrite (proj2 (F path1 (at_ (number p1)))), (proj2 (F path2 (at_ (number p2)))) by eauto. split; [|intros ->; reflexivity].
    intros [= H]. apply (mg_inj _ _ _ _ _ M) in H; auto; apply parts_number; eauto.
Qed.
Print Assumptions C85_paths.

(** ** Back again *)
(** The module has the definition it was made from exactly if that is in normal form. *)
Theorem C85_roundtrip :
  forall w d m w', wf_world w -> wf_mdef d -> merge w d [[]] = Ok (m, w') ->
  (get_module_def w' m = Ok d <-> normal (w_nodes w) d).
Proof.
  intros w d m w' W D E. destruct (C85_merge _ _ _ _ E) as (at_ & M). assert (Wn : well_numbered d) by (apply (C85_merge_succeeds w); eauto).
  destruct (merged_wf w d m w' W D E) as [W' V]. split.
  - intros H. destruct (graph_exists w' m W' V) as (d' & L & G). rewrite (get_module_def_graph _ _ _ _ W' V G) in H. injection H as ->.
    rewrite <- (mg_nodes _ _ _ _ _ M). now apply (graph_normal w' m d L).
  - intros N. eapply get_module_def_graph; eauto. eapply merged_graph; eauto.
Qed.
Print Assumptions C85_roundtrip.
(** So the definitions that modules have are the normal and well numbered ones. *)
Theorem C85_definitions :
  forall nodes d, wf_mdef d ->
  ((exists w m, wf_world w /\ w_nodes w = nodes /\ get_module_def w m = Ok d) <-> normal nodes d /\ well_numbered d).
Proof.
  intros nodes d D. split.
  - intros (w & m & W & <- & H). destruct (get_obj w m) as [o|] eqn:Ho.
    + assert (V : valid w m) by (eapply get_obj_lt; eauto). destruct (graph_exists w m W V) as (d' & L & G).
      rewrite (get_module_def_graph _ _ _ _ W V G) in H. injection H as ->. now apply (graph_normal w m d L).
    + unfold get_module_def, dfs_fuel in H. cbn in H. rewrite Ho in H. discriminate.
  - intros [N Wn]. assert (W : wf_world (start (0, 0) nodes)) by (constructor; [constructor|]; intros [|r] o Ho; discriminate).
    destruct (proj1 (C85_merge_succeeds (start (0, 0) nodes) d) Wn) as (m & w' & E). exists w', m. split; [now apply (merged_wf _ _ _ _ W D E)|]. split.
    + destruct (C85_merge _ _ _ _ E) as (at_ & M). apply (mg_nodes _ _ _ _ _ M).
    + now apply (C85_roundtrip _ _ _ _ W D E).
Qed.
Print Assumptions C85_definitions.

(** ** Equal definitions *)
(** Equal definitions in normal form merge alike: both raise the same error, or both make
    modules of the same structure. *)
Definition shape (t : token) : option nat := match t with Defines _ => None | Refers i => Some i end.
Lemma equal_shape d : forall e, mdef_eqb d e = true -> map shape (tokens d) = map shape (tokens e).
Proof.
  induction d as [i|c i subs st b IH] using mdef_rect'; intros [j|c' i' subs' st' b'] H; try discriminate.
  - apply Nat.eqb_eq in H. now subst.
  - rewrite mdef_eqb_MDef, !andb_true_iff in H. destruct H as [[_ H] _]. cbn [tokens map shape]. f_equal. revert subs' H.
    induction IH as [|[n d] l Hd Hl IHl]; intros [|[m e] l'] H; cbn in H; try discriminate; [reflexivity|].
    rewrite !andb_true_iff in H. destruct H as [[_ H1] H2]. cbn [flat_map snd] in *. rewrite !map_app. f_equal; auto.
Qed.
Lemma shape_tokens l : forall l', map shape l = map shape l' -> numbers l = numbers l' -> l = l'.
Proof.
  induction l as [|[i|i] l IH]; intros [|[j|j] l'] S N; try discriminate; [reflexivity| |].
  - cbn in S, N. injection S as S. injection N as -> N. f_equal. auto.
  - cbn in S, N. injection S as -> S. f_equal. auto.
Qed.
Lemma shape_numbers l : forall l', map shape l = map shape l' -> List.length (numbers l) = List.length (numbers l').
Proof.
  induction l as [|[i|i] l IH]; intros [|[j|j] l'] S; try discriminate; [reflexivity| |]; cbn in *; injection S; intros; auto using f_equal.
Qed.
Theorem C85_equal :
  forall w w' d e, wf_world w -> wf_world w' -> wf_mdef d -> wf_mdef e -> normal (w_nodes w) d -> normal (w_nodes w') e -> mdef_eqb d e = true ->
  (exists x, merge w d [[]] = Err x /\ merge w' e [[]] = Err x) \/
  (exists m1 w1 m2 w2, merge w d [[]] = Ok (m1, w1) /\ merge w' e [[]] = Ok (m2, w2) /\ same_structure w1 m1 w2 m2).
Proof.
  intros w w' d e W W' D E Nd Ne Q.
  assert (T : tokens d = tokens e).
  { pose proof (equal_shape d e Q) as S. apply shape_tokens; [exact S|]. rewrite (proj2 Nd), (proj2 Ne). now rewrite (shape_numbers _ _ S). }
  destruct (merge w d [[]]) as [[m1 w1]|x] eqn:M1.
  - right. assert (Wn : well_numbered e) by (unfold well_numbered; rewrite <- T; apply (C85_merge_succeeds w); eauto).
    destruct (proj1 (C85_merge_succeeds w' e) Wn) as (m2 & w2 & M2). exists m1, w1, m2, w2. split; [reflexivity|]. split; [exact M2|].
    destruct (merged_wf _ _ _ _ W D M1) as [W1 _], (merged_wf _ _ _ _ W' E M2) as [W2 _].
    pose proof (proj2 (C85_roundtrip _ _ _ _ W D M1) Nd) as G1. pose proof (proj2 (C85_roundtrip _ _ _ _ W' E M2) Ne) as G2.
    exact (mdef_eqb_sound w1 m1 w2 m2 d e W1 W2 G1 G2 Q).
  - left. exists x. split; [reflexivity|]. apply C85_merge_fails. rewrite <- T. now apply (C85_merge_fails w).
Qed.
Print Assumptions C85_equal.
(** For other definitions this is false: [==] does not look at the numbers. *)
Definition A_cls : cls := ["A"; "Module"; "object"].
Definition ref_def (i : nat) : mdef := MDef A_cls i [("me", MRef 0)] [] false.
Theorem C85_equal_refuted :
  exists d e, mdef_eqb d e = true /\ well_numbered d /\ stops_at (tokens e) KeyError /\
    forall w, (exists m w', merge w d [[]] = Ok (m, w')) /\ merge w e [[]] = Err KeyError.
Proof.
  exists (ref_def 0), (ref_def 1).
  assert (G : well_numbered (ref_def 0)) by (apply well_numbered_iff; reflexivity). assert (H : stops_at (tokens (ref_def 1)) KeyError) by (apply stops_at_iff; reflexivity).
  split; [reflexivity|]. split; [exact G|]. split; [exact H|]. intros w. split; [now apply C85_merge_succeeds|now apply C85_merge_fails].
Qed.
Print Assumptions C85_equal_refuted.

(** ** The theorems meet *)
(** A hand-made definition that no module has: names out of order, a name twice, a part
    used by its parent and by its sibling, numbers of one's own choice. *)
Definition ex_leaf : mdef := MDef A_cls 7 [] [("n", ARaw (PyInt 3%Z))] false.
Definition ex_def : mdef :=
  MDef A_cls 4 [("z", ex_leaf); ("b", MDef A_cls 9 [("up", MRef 4); ("peer", MRef 7)] [] true); ("b", MRef 7)]
       [("z", ARaw (PyInt 1%Z)); ("k", ARaw (PyStr "x"))] false.
Definition ex_world : world := start (0, 0) default_node_types.
Example ex_well_numbered : well_numbered ex_def.
Proof. apply well_numbered_iff. reflexivity. Qed.
Example ex_wf : wf_mdef ex_def.
Proof.
  assert (C : In "Module" A_cls) by (right; now left).
  constructor; [exact C| |].
  - intros n e [[= <- <-]|[[= <- <-]|[[= <- <-]|[]]]]; (split; [discriminate|]); constructor; try exact C; cbn.
    + intros ? ? [].
    + intros n a [[= <- <-]|[]]. repeat split. discriminate.
    + intros n e [[= <- <-]|[[= <- <-]|[]]]; (split; [discriminate|constructor]).
    + intros ? ? [].
  - intros n a [[= <- <-]|[[= <- <-]|[]]]; repeat split; discriminate.
Qed.
Example ex_no_modules : no_modules ex_def.
Proof.
  intros c i subs st ini n a Hp Ha. cbn in Hp. destruct Hp as [[= <- <- <- <- <-]|[[= <- <- <- <- <-]|[[= <- <- <- <- <-]|[]]]]; cbn in Ha; intuition; match goal with H : (_, _) = (_, _) |- _ => injection H as <- <- end; reflexivity.
Qed.
(** the second [b] wins: [b] and [z] are one module *)
Example ex_shared : exists m w', merge ex_world ex_def [[]] = Ok (m, w') /\ follow w' m ["b"] = follow w' m ["z"] /\ follow w' m ["b"] <> None /\
  List.length (w_heap w') = 3 /\ get_module_def w' m <> Ok ex_def.
Proof. eexists _, _. split; [vm_compute; reflexivity|]. split; [reflexivity|]. split; [discriminate|]. split; [reflexivity|discriminate]. Qed.
Example ex_not_normal : ~ normal (w_nodes ex_world) ex_def.
Proof. intros [_ H]. discriminate. Qed.
(** a normal one *)
Definition ex_normal : mdef :=
  MDef A_cls 0 [("a", MDef A_cls 1 [("up", MRef 0)] [("n", ARaw (PyInt 3%Z))] false); ("b", MRef 1)] [("k", ARaw (PyStr "x"))] false.
Example ex_normal_ok : normal (w_nodes ex_world) ex_normal /\ well_numbered ex_normal.
Proof.
  split; [split; [|reflexivity]|apply well_numbered_iff; reflexivity].
  assert (F : forall v t, (v = PyInt 3%Z \/ v = PyStr "x") -> In t (w_nodes ex_world) -> ~ In t (cls_of_attr (ARaw v))).
  { intros v t Hv Ht Hc. destruct Hv as [-> | ->]; cbn in Ht, Hc; intuition; subst; discriminate. }
  intros p [<-|[<-|[]]]; apply normal_MDef; (split; [repeat constructor|]); (split; [repeat constructor|]).
  - split; [intros n [<-|[<-|[]]] [H|[]]; discriminate|]. intros n a [[= <- <-]|[]]. split; [reflexivity|]. split; [apply is_node_spec; intros t; apply F; auto|reflexivity].
  - split; [intros n [<-|[]] [H|[]]; discriminate|]. intros n a [[= <- <-]|[]]. split; [reflexivity|]. split; [apply is_node_spec; intros t; apply F; auto|reflexivity].
Qed.
Example ex_unknown : stops_at (tokens (MDef A_cls 0 [("a", MRef 1); ("b", MDef A_cls 1 [] [] false)] [] false)) KeyError.
Proof. apply stops_at_iff. reflexivity. Qed.
Example ex_again : stops_at (tokens (MDef A_cls 0 [("a", MDef A_cls 0 [] [] false); ("b", MRef 5)] [] false)) AssertionError.
Proof. apply stops_at_iff. reflexivity. Qed.
