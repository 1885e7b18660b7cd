(** Prop_Surgery: C106, submodules assigned, replaced and deleted. *)
From Coq Require Import Lia ZArith.
From Verif Require Import PyBase PyBaseFacts ValuesM Spec_Eq ValuesFacts StateM Spec_State ModuleM Spec_Module Spec_Assign Spec_Path Spec_Surgery
  Graph_facts Dfs_proofs Write_proofs Assign_proofs Bisim_proofs Path_proofs Surgery_proofs Ex_Module Prop_Assign Prop_Path Prop_Capture.
Local Open Scope string_scope.
Local Open Scope nat_scope.
Local Open Scope list_scope.

(** *** C106 *)
(** One attribute [n] of one Module [x] below [r] has changed, and may have held or may hold now
    a submodule.  What was reached through it is reached in no other way, and what is
    reached through it now was no part of [r].  [P] is the name of the attribute in the State of
    [r].  Then: every entry that is not [P] and not below [P] is as before; [P] is there
    just when the attribute is a node, and is that node; below [P] there are exactly the
    entries of the State of the new submodule, or none if there is no submodule. *)
Theorem C106_change :
  forall (w w' : world) (r x : nat) (n : string), wf_world w -> wf_world w' -> r < List.length (w_heap w) -> names_ok w r -> names_ok w' r ->
  has_char "/" n = false -> reaches w r x -> changed_at w w' x n -> only_through w r x n ->
  (forall c, has_attr w' x n (ARaw (PyMod c)) -> apart w r c) ->
  exists px s s', first_path w r px x /\ get_state w r = Ok s /\ get_state w' r = Ok s' /\
    (forall k, k <> join_path (px ++ [n]) -> (forall k', k <> (join_path (px ++ [n]) ++ "/" ++ k')%string) -> dget k s' = dget k s) /\
    (forall a, dget (join_path (px ++ [n])) s' = Some a <-> node_attr w' x n a) /\
    (forall c, has_attr w' x n (ARaw (PyMod c)) ->
       exists sc, get_state w c = Ok sc /\ forall k, dget (join_path (px ++ [n]) ++ "/" ++ k) s' = dget k sc) /\
    ((forall c, ~ has_attr w' x n (ARaw (PyMod c))) -> forall k, dget (join_path (px ++ [n]) ++ "/" ++ k) s' = None).
Proof. exact change_state. Qed.
Print Assumptions C106_change.

(** A Module that does not contain [x], as the submodule that was taken away, is not
    affected. *)
Theorem C106_elsewhere :
  forall (w w' : world) (x z : nat) (n : string), wf_world w -> wf_world w' -> z < List.length (w_heap w) -> changed_at w w' x n -> ~ reaches w z x ->
  get_state w' z = get_state w z /\ get_module_def w' z = get_module_def w z.
Proof.
  intros w w' x z n Hw Hw' Hz (Hn & _ & C & _) Nx.
  assert (B : bisim w w' (fun a b => a = b /\ reaches w z a)).
  { constructor.
    - intros a b [-> Ra]. destruct (reaches_valid w z b Ra) as [o Ho]. exists o, o. split; [exact Ho|]. split; [rewrite C; [exact Ho|intros ->; contradiction]|].
      split; [reflexivity|]. split; [reflexivity|]. intros m. destruct (dget m (m_vars o)) as [a|] eqn:E; [|exact Logic.I].
      destruct (is_submodule a) eqn:Es; [|now apply orel_refl_val]. apply is_sub_inv in Es as [c ->]. cbn.
      split; [reflexivity|]. destruct Ra as [p Hp]. exists (p ++ [m]). rewrite follow_app, Hp. assert (Hc : child w b m c) by (exists o; auto).
      rewrite (child_follow _ _ _ _ _ Hc). cbn. destruct (get_obj_ex w c) as [oc ->]; [eapply child_valid; eauto|reflexivity].
    - intros a b b' [-> _] [-> _]. reflexivity.
    - intros a a' b [-> _] [-> _]. reflexivity. }
  assert (R : z = z /\ reaches w z z). { split; [reflexivity|]. exists []. cbn. destruct (get_obj_ex w z Hz) as [o ->]. reflexivity. }
  split; symmetry; [eapply bisim_get_state|eapply bisim_module_def]; eauto.
Qed.
Print Assumptions C106_elsewhere.

Lemma put_changed w x n o vs : get_obj w x = Some o -> (forall m, m <> n -> dget m vs = dget m (m_vars o)) -> changed_at w (put_obj w x (set_vars o vs)) x n.
Proof.
  intros Ho D. split; [reflexivity|]. split; [apply list_set_length|]. split; [intros y Hy; apply get_put_other; congruence|].
  exists o, (set_vars o vs). split; [exact Ho|]. split; [now apply (get_put_same _ _ _ o)|]. exact D.
Qed.
Lemma setattr_changed w x n a w' : setattr w x n a = Ok w' -> changed_at w w' x n.
Proof. intros H. apply setattr_inv in H as (o & b & Ho & _ & _ & _ & ->). apply put_changed; [exact Ho|]. intros m Hm. now apply dget_dset_other. Qed.
Lemma delattr_changed w x n w' : delattr w x n = Ok w' -> changed_at w w' x n.
Proof. intros H. apply delattr_inv in H as (o & Ho & _ & ->). apply put_changed; [exact Ho|]. intros m Hm. now apply dget_ddel_other. Qed.
Lemma changed_names w w' r x n : wf_world w' -> changed_at w w' x n -> names_ok w r -> reaches w r x -> has_char "/" n = false -> starts_with "_module__" n = false ->
  (forall c, has_attr w' x n (ARaw (PyMod c)) -> apart w r c /\ names_ok w c) -> names_ok w' r.
Proof.
  intros Hw' Hch Hn Rx S1 S2 Hc y oy m a [p Hp] Hoy Hd.
  assert (G : forall z, names_ok w z -> reaches w z y -> (y = x -> m <> n) -> 
     (is_submodule a = true -> has_char "/" m = false) /\ (node_attr w' y m a -> has_char "/" m = false) /\ (static_attr w' y m a -> starts_with "_module__" m = false)).
  { intros z Nz Rz Hm. destruct Hch as (En & _ & C & o & o' & Ho & Ho' & D).
    assert (E : exists o1, get_obj w y = Some o1 /\ dget m (m_vars o1) = Some a).
    { destruct (Nat.eq_dec y x) as [->|Hy]; [|exists oy; rewrite <- C by assumption; auto]. exists o. split; [exact Ho|].
      rewrite <- D by auto. congruence. }
    destruct E as (o1 & Ho1 & Hd1). destruct (Nz y o1 m a Rz Ho1 Hd1) as (A1 & A2 & A3). split; [exact A1|]. unfold node_attr, static_attr in *. rewrite En. split.
    - intros (q & _ & _ & Q). apply A2. exists o1. auto.
    - intros (q & _ & _ & Q). apply A3. exists o1. auto. }
  destruct (string_dec m n) as [->|Nm]; [auto|]. destruct (first_use w' x n r p) as [A|(p1 & p2 & -> & A & F1)].
  - apply (G r Hn); [|congruence]. exists p. rewrite <- Hp. apply (follow_avoid w' w x n (changed_sym _ _ _ _ Hch)). exact A.
  - rewrite follow_app, F1 in Hp. apply follow_cons_child in Hp as (c & Hcc & Hp). destruct (Hc c Hcc) as [Ap Nc]. apply (G c Nc); [|congruence].
    exists p2. rewrite <- Hp. symmetry. apply (follow_avoid w w' x n Hch). eapply apart_follow; eauto.
Qed.

(** [x.n = c] for a Module [c] that shares nothing with [r]: the entries below the name are
    those of [c], whatever was there before. *)
Theorem C106_assign_partial :
  forall (w w' : world) (r x c : nat) (n : string), wf_world w -> r < List.length (w_heap w) -> c < List.length (w_heap w) -> names_ok w r -> names_ok w c ->
  has_char "/" n = false -> starts_with "_module__" n = false -> reaches w r x -> only_through w r x n -> apart w r c ->
  (forall v, ~ has_attr w x n (ACont v)) -> setattr w x n (ARaw (PyMod c)) = Ok w' ->
  has_attr w' x n (ARaw (PyMod c)) /\
  exists px s s' sc, first_path w r px x /\ get_state w r = Ok s /\ get_state w' r = Ok s' /\ get_state w c = Ok sc /\
    dget (join_path (px ++ [n])) s' = None /\ (forall k, dget (join_path (px ++ [n]) ++ "/" ++ k) s' = dget k sc) /\
    (forall k, k <> join_path (px ++ [n]) -> (forall k', k <> (join_path (px ++ [n]) ++ "/" ++ k')%string) -> dget k s' = dget k s).
Proof.
  intros w w' r x c n Hw Hr Hc Hn Nc S1 S2 Rx Ho Ap Hv E. pose proof (setattr_changed _ _ _ _ _ E) as Hch.
  assert (Hok : attr_ok w (ARaw (PyMod c))) by (split; [exact Logic.I|intros y [= <-]; exact Hc]).
  pose proof (setattr_wf w x n _ w' Hw Hok E) as Hw'.
  assert (Ha : has_attr w' x n (ARaw (PyMod c))).
  { apply setattr_inv in E as (o & b & Hoo & _ & _ & Has & ->). eexists. split; [apply (get_put_same _ _ _ o); exact Hoo|]. cbn [m_vars set_vars]. rewrite dget_dset_same.
    destruct (dget n (m_vars o)) as [[u|v]|] eqn:D; [cbn in Has; congruence|destruct (Hv v); exists o; auto|cbn in Has; congruence]. }
  split; [exact Ha|].
  assert (Hap : forall d, has_attr w' x n (ARaw (PyMod d)) -> d = c). { intros d (o1 & H1 & H2). destruct Ha as (o2 & H3 & H4). congruence. }
  destruct (C106_change w w' r x n Hw Hw' Hr Hn) as (px & s & s' & Fp & G & G' & A & B & C & _); auto.
  - apply (changed_names w w' r x n); auto. intros d Hd. rewrite (Hap d Hd). auto.
  - intros d Hd. now rewrite (Hap d Hd).
  - destruct (C c Ha) as (sc & Gc & Dc). exists px, s, s', sc. split; [exact Fp|]. split; [exact G|]. split; [exact G'|]. split; [exact Gc|]. split; [|split; [exact Dc|exact A]].
    destruct (dget (join_path (px ++ [n])) s') as [a|]; [|reflexivity]. destruct (proj1 (B a) eq_refl) as (o & Hoo & Hd & Hs & _). destruct Ha as (o2 & H3 & H4).
    assert (a = ARaw (PyMod c)) by congruence. subst a. discriminate.
Qed.
Print Assumptions C106_assign_partial.

(** [del x.n], and [x.n = a] for something that is no Module, over a submodule that is reached
    in no other way: all entries below the name are gone, and the name is there only if it
    holds a node. *)
Theorem C106_remove_partial :
  forall (w w' : world) (r x : nat) (n : string), wf_world w -> r < List.length (w_heap w) -> names_ok w r ->
  has_char "/" n = false -> starts_with "_module__" n = false -> reaches w r x -> only_through w r x n ->
  (delattr w x n = Ok w' \/ exists a, is_submodule a = false /\ attr_ok w a /\ setattr w x n a = Ok w') ->
  exists px s s', first_path w r px x /\ get_state w r = Ok s /\ get_state w' r = Ok s' /\
    (forall a, dget (join_path (px ++ [n])) s' = Some a <-> node_attr w' x n a) /\
    (forall k, dget (join_path (px ++ [n]) ++ "/" ++ k) s' = None) /\
    (forall k, k <> join_path (px ++ [n]) -> (forall k', k <> (join_path (px ++ [n]) ++ "/" ++ k')%string) -> dget k s' = dget k s).
Proof.
  intros w w' r x n Hw Hr Hn S1 S2 Rx Ho E.
  assert (K : wf_world w' /\ changed_at w w' x n /\ forall c, ~ has_attr w' x n (ARaw (PyMod c))).
  { destruct E as [E|(a & Ha & Hok & E)].
    - split; [eapply delattr_wf; eauto|]. split; [eapply delattr_changed; eauto|]. intros c (q & Hq & Hd). apply delattr_inv in E as (o & Hoo & _ & ->).
      rewrite (get_put_same w x _ o) in Hq by assumption. injection Hq as <-. cbn in Hd. rewrite dget_ddel_same in Hd by (apply (wf_objs _ Hw _ _ Hoo)). discriminate.
    - split; [eapply setattr_wf; eauto|]. split; [eapply setattr_changed; eauto|]. intros c (q & Hq & Hd). apply setattr_inv in E as (o & b & Hoo & _ & _ & Has & ->).
      rewrite (get_put_same w x _ o) in Hq by assumption. injection Hq as <-. cbn in Hd. rewrite dget_dset_same in Hd. injection Hd as ->.
      pose proof (assign_not_sub _ _ _ Ha Has). discriminate. }
  destruct K as (Hw' & Hch & Nc).
  destruct (C106_change w w' r x n Hw Hw' Hr Hn) as (px & s & s' & Fp & G & G' & A & B & _ & D); auto.
  - apply (changed_names w w' r x n); auto. intros d Hd. destruct (Nc d Hd).
  - intros d Hd. destruct (Nc d Hd).
  - exists px, s, s'. auto 10.
Qed.
Print Assumptions C106_remove_partial.

(** *** The hypotheses are met *)
Lemma child_edge w x n c : child w x n c -> In (c, (x, n)) (edges w).
Proof.
  intros (o & Ho & Hd). unfold edges. apply in_flat_map. exists x. split; [apply in_seq; apply get_obj_lt in Ho; unfold valid in Ho; lia|]. rewrite Ho. apply in_flat_map.
  exists (n, ARaw (PyMod c)). split; [now apply dget_In|now left].
Qed.
(** [B] is entered by the edge only *)
Definition cutb (w : world) (r x : nat) (n : string) (B : list nat) : bool :=
  negb (nmem r B) && forallb (fun e => let '(c, (y, m)) := e in if nmem y B || (Nat.eqb y x && String.eqb m n) then nmem c B else negb (nmem c B)) (edges w).
Lemma cutb_ok w r x n B : cutb w r x n B = true -> only_through w r x n.
Proof.
  unfold cutb. intros H. apply andb_prop in H as [H1 H2]. rewrite forallb_forall in H2. apply negb_true_iff in H1.
  assert (G : forall y m c, child w y m c -> if nmem y B || (Nat.eqb y x && String.eqb m n) then nmem c B = true else nmem c B = false).
  { intros y m c Hc. specialize (H2 _ (child_edge _ _ _ _ Hc)). cbn in H2. destruct (_ || _); [exact H2|now apply negb_true_iff]. }
  assert (In1 : forall p a b, nmem a B = true -> follow w a p = Some b -> nmem b B = true).
  { induction p as [|m p IH]; intros a b Ha F; [cbn in F; destruct (get_obj w a); congruence|]. apply follow_cons_child in F as (c & Hc & F). apply (IH c b); [|exact F].
    specialize (G _ _ _ Hc). now rewrite Ha in G. }
  intros p1 p2 y F1 F p Fp. rewrite follow_app, F1 in F. apply follow_cons_child in F as (c & Hc & F).
  assert (Hy : nmem y B = true). { apply (In1 p2 c); [|exact F]. specialize (G _ _ _ Hc). now rewrite Nat.eqb_refl, String.eqb_refl, orb_true_r in G. }
  clear F1 F Hc p1 p2 c.
  destruct (first_use w x n r p) as [A|(q1 & q2 & E & _ & Q)]; [|eauto]. exfalso. revert r H1 A Fp. induction p as [|m p IH]; intros a Ha A Fp.
  - cbn in Fp. destruct (get_obj w a); congruence.
  - apply follow_cons_child in Fp as (c & Hc & Fp). apply (IH c).
    + specialize (G _ _ _ Hc). rewrite Ha in G. destruct (Nat.eqb_spec a x) as [->|]; [|exact G]. destruct (String.eqb_spec m n) as [->|]; [|exact G].
      exfalso. apply (A [] p eq_refl). cbn. destruct Hc as (o & -> & _). reflexivity.
    + intros q1 q2 -> Fq. apply (A (m :: q1) q2 eq_refl). rewrite (child_follow _ _ _ _ _ Hc). exact Fq.
    + exact Fp.
Qed.
Definition apartb (w : world) (r c : nat) (B : list nat) : bool :=
  negb (nmem r B) && nmem c B && forallb (fun e => let '(c, (y, _)) := e in Bool.eqb (nmem y B) (nmem c B)) (edges w).
Lemma apartb_ok w r c B : apartb w r c B = true -> apart w r c.
Proof.
  unfold apartb. intros H. apply andb_prop in H as [H H3]. apply andb_prop in H as [H1 H2]. rewrite forallb_forall in H3. apply negb_true_iff in H1.
  assert (G : forall p a b, follow w a p = Some b -> nmem b B = nmem a B).
  { induction p as [|m p IH]; intros a b F; [cbn in F; destruct (get_obj w a); congruence|]. apply follow_cons_child in F as (d & Hd & F). rewrite (IH d b F).
    specialize (H3 _ (child_edge _ _ _ _ Hd)). cbn in H3. now apply Bool.eqb_prop in H3. }
  intros y [p Hp] [q Hq]. apply G in Hp, Hq. congruence.
Qed.

(** A classifier whose backbone has two blocks and refers back to the classifier; a new
    head, with a part of its own, lies beside it. *)
Definition ex_clf : world := mkWorld
  [ mkMobj (Mod_cls "Classifier") 1 false (0, 0) [("head", sub 2); ("backbone", sub 1); ("head_scale", param 9)];
    mkMobj (Mod_cls "Backbone") 2 false (0, 0) [("block", sub 3); ("top", sub 0); ("steps", arr 5)];
    mkMobj (Mod_cls "Linear") 3 false (0, 0) [("kernel", param 21); ("bias", param 22)];
    mkMobj (Mod_cls "Linear") 4 false (0, 0) [("kernel", param 31)];
    mkMobj (Mod_cls "Mlp") 5 false (0, 0) [("kernel", param 41); ("norm", sub 5)];
    mkMobj (Mod_cls "Norm") 6 false (0, 0) [("scale", param 51)] ] 6 (0, 0) default_node_types.
Example C106_ex_ok : wf_world ex_clf /\ names_ok ex_clf 0 /\ names_ok ex_clf 4 /\ reaches ex_clf 0 0 /\ only_through ex_clf 0 0 "head" /\ apart ex_clf 0 4 /\
  (forall v, ~ has_attr ex_clf 0 "head" (ACont v)).
Proof.
  split; [apply wf_worldb_ok; vm_compute; reflexivity|]. split; [apply names_okb_ok; vm_compute; reflexivity|]. split; [apply names_okb_ok; vm_compute; reflexivity|].
  split; [exists []; reflexivity|]. split; [apply (cutb_ok _ _ _ _ [2]); vm_compute; reflexivity|]. split; [apply (apartb_ok _ _ _ [4; 5]); vm_compute; reflexivity|].
  intros v (o & [= <-] & Hd). discriminate.
Qed.
Example C106_ex_assign : exists w' s s', setattr ex_clf 0 "head" (sub 4) = Ok w' /\ get_state ex_clf 0 = Ok s /\ get_state w' 0 = Ok s' /\
  s = [("backbone/block/kernel", param 31); ("backbone/steps", arr 5); ("head/bias", param 22); ("head/kernel", param 21); ("head_scale", param 9)] /\
  s' = [("backbone/block/kernel", param 31); ("backbone/steps", arr 5); ("head/kernel", param 41); ("head/norm/scale", param 51); ("head_scale", param 9)].
Proof. do 3 eexists. repeat split; vm_compute; reflexivity. Qed.
(** deeper: the block of the backbone is replaced, then the backbone is deleted *)
Example C106_ex_deep : reaches ex_clf 0 1 /\ only_through ex_clf 0 1 "block" /\ exists w' s', setattr ex_clf 1 "block" (sub 4) = Ok w' /\ get_state w' 0 = Ok s' /\
  s' = [("backbone/block/kernel", param 41); ("backbone/block/norm/scale", param 51); ("backbone/steps", arr 5); ("head/bias", param 22); ("head/kernel", param 21); ("head_scale", param 9)].
Proof.
  split; [exists ["backbone"]; reflexivity|]. split; [apply (cutb_ok _ _ _ _ [3]); vm_compute; reflexivity|]. do 2 eexists. repeat split; vm_compute; reflexivity.
Qed.
(** the old head is as it was *)
Example C106_ex_elsewhere : ~ reaches ex_clf 2 0 /\ exists w', setattr ex_clf 0 "head" (sub 4) = Ok w' /\ get_state w' 2 = Ok [("bias", param 22); ("kernel", param 21)].
Proof.
  split; [|eexists; split; vm_compute; reflexivity]. intros [p Hp]. destruct p as [|m p]; cbn in Hp; [discriminate|].
  destruct (String.eqb m "kernel"); [discriminate|]. destruct (String.eqb m "bias"); discriminate.
Qed.
Example C106_ex_remove : exists w', delattr ex_clf 0 "head" = Ok w' /\
  get_state w' 0 = Ok [("backbone/block/kernel", param 31); ("backbone/steps", arr 5); ("head_scale", param 9)].
Proof. eexists. split; vm_compute; reflexivity. Qed.

(** *** What is not so *)
(** If the submodule has a second name, its entries do not go away with the first: they
    move to the second. *)
Theorem C106_shared_refuted :
  ~ (forall (w w' : world) (r x : nat) (n : string) px s s' k, wf_world w -> r < List.length (w_heap w) -> names_ok w r -> reaches w r x -> has_char "/" n = false ->
       delattr w x n = Ok w' -> first_path w r px x -> get_state w r = Ok s -> get_state w' r = Ok s' ->
       (forall k', k <> (join_path (px ++ [n]) ++ "/" ++ k')%string) -> dget k s' = dget k s).
Proof.
  intros H.
  assert (E : exists w' s s', delattr ex_dag 0 "inp" = Ok w' /\ get_state ex_dag 0 = Ok s /\ get_state w' 0 = Ok s' /\
            dget "out/norm/mean" s = None /\ dget "out/norm/mean" s' = Some (stat 14)).
  { do 3 eexists. repeat split; vm_compute; reflexivity. }
  destruct E as (w' & s & s' & Hdel & G & G' & K & K'). destruct ex_dag_ok as (Hw & Hn & _ & Hac & Hr).
  assert (Hp : first_path ex_dag 0 [] 0).
  { split; [split; [reflexivity|]|].
    - intros q1 q2 q3 Q. symmetry in Q. apply app_eq_nil in Q as [-> Q]. apply app_eq_nil in Q as [-> _]. congruence.
    - intros q [Hq D]. destruct q as [|m q]; [now left|]. exfalso. apply (D [] (m :: q) []); [now rewrite app_nil_r|discriminate|]. cbn [app]. rewrite Hq. reflexivity. }
  specialize (H ex_dag w' 0 0 "inp" [] s s' "out/norm/mean" Hw Hr Hn (ex_intro _ [] eq_refl) eq_refl Hdel Hp G G').
  rewrite K, K' in H. discriminate H. intros k' Q. cbn in Q. discriminate Q.
Qed.
Print Assumptions C106_shared_refuted.
(** Over a Variable, a Module is no submodule: it becomes the value of the Variable, and its
    parameters are not in the State. *)
Theorem C106_over_variable_refuted :
  ~ (forall (w w' : world) (r x c : nat) (n : string) px s' sc k, wf_world w -> r < List.length (w_heap w) -> c < List.length (w_heap w) -> names_ok w r -> names_ok w c ->
       has_char "/" n = false -> starts_with "_module__" n = false -> reaches w r x -> only_through w r x n -> apart w r c ->
       setattr w x n (ARaw (PyMod c)) = Ok w' -> first_path w r px x -> get_state w' r = Ok s' -> get_state w c = Ok sc ->
       dget (join_path (px ++ [n]) ++ "/" ++ k) s' = dget k sc).
Proof.
  intros H. destruct C106_ex_ok as (Hw & Hn & Hn4 & Rx & _ & Hap & _).
  assert (E : exists w' s' sc, setattr ex_clf 0 "head_scale" (sub 4) = Ok w' /\ get_state w' 0 = Ok s' /\ get_state ex_clf 4 = Ok sc /\
            dget "kernel" sc = Some (param 41) /\ dget "head_scale/kernel" s' = None).
  { do 3 eexists. repeat split; vm_compute; reflexivity. }
  destruct E as (w' & s' & sc & Hset & G' & Gc & K & K').
  assert (Hp : first_path ex_clf 0 [] 0).
  { split; [split; [reflexivity|]|].
    - intros q1 q2 q3 Q. symmetry in Q. apply app_eq_nil in Q as [-> Q]. apply app_eq_nil in Q as [-> _]. congruence.
    - intros q [Hq D]. destruct q as [|m q]; [now left|]. exfalso. apply (D [] (m :: q) []); [now rewrite app_nil_r|discriminate|]. cbn [app]. rewrite Hq. reflexivity. }
  assert (Ho : only_through ex_clf 0 0 "head_scale") by (apply (cutb_ok _ _ _ _ []); vm_compute; reflexivity).
  assert (V0 : 0 < List.length (w_heap ex_clf)) by (cbn; lia). assert (V4 : 4 < List.length (w_heap ex_clf)) by (cbn; lia).
  specialize (H ex_clf w' 0 0 4 "head_scale" [] s' sc "kernel" Hw V0 V4 Hn Hn4 eq_refl eq_refl Rx Ho Hap Hset Hp G' Gc).
  cbn [app join_path] in H. cbn in H. rewrite K in H. rewrite K' in H. discriminate H.
Qed.
Print Assumptions C106_over_variable_refuted.
