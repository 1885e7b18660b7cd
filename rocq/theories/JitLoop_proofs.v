(** JitLoop_proofs: a jitted function called in the course of a program. *)
From Coq Require Import Permutation Lia.
From Verif Require Import PyBase PyBaseFacts ValuesM Spec_Eq ValuesFacts FiltersM StateM Spec_State State_proofs ModuleM Spec_Module Spec_Prog
  Graph_facts Dfs_proofs Build_proofs Bisim_proofs Skel_proofs RoundTrip_proofs Clone_proofs Update_proofs Write_proofs
  Laws_proofs Grow_proofs Prog_proofs TransformM Mdef_proofs JitCacheM Spec_JitCache JitCache_proofs JitLoopM Spec_JitLoop History_proofs Transform_proofs Mixed_proofs.
Local Open Scope string_scope.
Local Open Scope list_scope.

(** ** the traced function does not depend on the world it is traced in *)
Lemma inner_any {A} (f : prog A) w r p v t stateful : ok_prog f -> wf_world w -> valid w r -> names_ok w r -> live w r ->
  module_partition w r [] = Ok p -> wf_world v -> w_nodes v = w_nodes w ->
  exists wd res, user_fun f w r = (wd, res) /\ wf_world wd /\ valid wd r /\
    snd (jitted_fn stateful t (user_fun f) v p) =
      match res with
      | Ok out => if stateful then match get_state wd r with Ok s => Ok (Some s, out) | Err e => Err e end else Ok (None, out)
      | Err e => Err e
      end.
Proof.
  intros Hf Hw Hr Hno Hlive Hp Hv Hn.
  destruct (partition_merge_bisim w r [] p (set_trace v t) (sts_list (p_states p)) Hw Hr Hno Hp (Permutation_refl _))
    as (d & L & w1 & objs & Hg & Ed & Hm & HM). subst d.
  pose proof (merged_root _ _ _ _ _ _ _ Hr Hg HM) as Hroot. pose proof (mg_bisim _ _ _ _ _ HM) as HB.
  assert (Hw1 : wf_world w1) by (eapply merged_wf; [exact Hw|apply set_trace_wf; exact Hv|exact Hr|exact Hg|exact HM]).
  assert (HP : pair w w1 (copyR L (List.length (w_heap (set_trace v t))))).
  { constructor; auto.
    - rewrite (mg_nodes _ _ _ _ _ HM). cbn. now symmetry.
    - intros x y o [Hx _] Ho. eapply Hlive; [|exact Ho]. now apply (graph_reaches _ _ _ _ Hw Hr Hg).
    - intros x y o Hxy Ho. rewrite (mg_trace _ _ _ _ _ HM).
      assert (Hy : List.length (w_heap (set_trace v t)) <= y). { destruct Hxy as [_ ->]. unfold phi. lia. }
      unfold get_obj in Ho. rewrite (mg_heap _ _ _ _ _ HM), nth_error_app2 in Ho by exact Hy.
      apply nth_error_In in Ho. pose proof (mg_otrace _ _ _ _ _ HM) as F. rewrite Forall_forall in F. apply F. exact Ho. }
  destruct (run_pair f Hf w w1 _ [r] [List.length (w_heap (set_trace v t))] HP) as (wd & w2 & res & R2 & E1 & E2 & M).
  { constructor; [exact Hroot|constructor]. }
  pose proof (mv_pair _ _ _ _ _ _ M) as HP2. pose proof (mv_incl _ _ _ _ _ _ M _ _ Hroot) as Hrm2.
  destruct (bisim_valid _ _ _ _ _ (pr_bi _ _ _ HP2) Hrm2) as [Vr Vm].
  exists wd, res. split; [exact E1|]. split; [apply HP2|]. split; [exact Vr|].
  unfold jitted_fn, pure_merge. rewrite Hm. unfold user_fun. rewrite E2. destruct res as [out|e]; [|reflexivity].
  destruct stateful; [|reflexivity]. rewrite set_trace_state by (auto; apply HP2).
  rewrite <- (bisim_get_state wd w2 R2 r _ (pr_wf _ _ _ HP2) (pr_wf' _ _ _ HP2) (pr_bi _ _ _ HP2) (pr_nodes _ _ _ HP2) Hrm2).
  now destruct (get_state wd r).
Qed.

(** ** objects that cannot be reached do not change *)
Lemma assign_plain old a a' : assign_value old a = Ok a' -> is_submodule a = false -> is_submodule a' = false.
Proof.
  destruct old as [[v0|c0]|]; cbn [assign_value].
  - destruct a as [v|c]; [intros [= <-]; auto|]. destruct (container_copy c); cbn; [intros [= <-]; reflexivity|discriminate].
  - destruct (container_replace c0 (Some a) []); cbn; [intros [= <-]; reflexivity|discriminate].
  - destruct a as [v|c]; [intros [= <-]; auto|]. destruct (container_copy c); cbn; [intros [= <-]; reflexivity|discriminate].
Qed.
Lemma setattr_follow w x n a w' : setattr w x n a = Ok w' -> is_submodule a = false ->
  forall p z y, follow w' z p = Some y -> follow w z p = Some y.
Proof.
  intros H Pa. apply setattr_inv in H as (o & a' & Ho & _ & _ & As & ->). pose proof (assign_plain _ _ _ As Pa) as Pa'.
  induction p as [|m p IH]; intros z y; cbn [follow]; destruct (Nat.eq_dec x z) as [<-|Hne].
  - now rewrite (get_put_same _ _ _ _ Ho), Ho.
  - now rewrite get_put_other by assumption.
  - rewrite (get_put_same _ _ _ _ Ho), Ho. cbn [m_vars set_vars]. rewrite dget_dset.
    destruct (String.eqb m n); [destruct a' as [[]|]; discriminate|].
    destruct (dget m (m_vars o)) as [[[]|]|]; try discriminate. apply IH.
  - rewrite get_put_other by assumption. destruct (get_obj w z) as [oz|]; [|discriminate].
    destruct (dget m (m_vars oz)) as [[[]|]|]; try discriminate. apply IH.
Qed.
Lemma set_path_stays parts : forall w r a w', set_path w r parts a = Ok w' -> is_submodule a = false ->
  (forall p z y, follow w' z p = Some y -> follow w z p = Some y) /\
  (forall y, ~ reaches w r y -> get_obj w' y = get_obj w y).
Proof.
  induction parts as [|n parts IH]; intros w r a w' H Pa; [discriminate|]. destruct parts as [|n' parts].
  - cbn [set_path] in H. split; [eapply setattr_follow; eauto|]. apply setattr_inv in H as (o & a' & Ho & _ & _ & _ & ->).
    intros y Hy. apply get_put_other. intros <-. apply Hy. exists []. cbn. now rewrite Ho.
  - change (set_path w r (n :: n' :: parts) a) with
      (match get_obj w r with None => Err OutOfModel | Some o => match dget n (m_vars o) with
         | Some (ARaw (PyMod r')) => set_path w r' (n' :: parts) a | Some _ => Err OutOfModel
         | None => if String.eqb n "_module__state" then Err OutOfModel else Err KeyError end end) in H.
    destruct (get_obj w r) as [o|] eqn:Ho; [|discriminate]. destruct (dget n (m_vars o)) as [[[]|]|] eqn:D; try discriminate.
    2:{ destruct (String.eqb n "_module__state"); discriminate. }
    destruct (IH _ _ _ _ H Pa) as [I1 I2]. split; [exact I1|]. intros y Hy. apply I2. intros [p Hp]. apply Hy. exists (n :: p).
    cbn [follow]. now rewrite Ho, D.
Qed.
Lemma update_loop_stays items : forall w r w' res, update_loop w r items = (w', res) ->
  Forall (fun ka => is_submodule (snd ka) = false) items -> forall y, ~ reaches w r y -> get_obj w' y = get_obj w y.
Proof.
  induction items as [|[k a] items IH]; intros w r w' res H F y Hy; cbn [update_loop] in H; [now injection H as <- <-|].
  inversion F as [|? ? Pa F']; subst. destruct (set_path w r (split_slash k) a) as [w1|e] eqn:S; [|now injection H as <- <-].
  destruct (set_path_stays _ _ _ _ _ S Pa) as [S1 S2]. rewrite (IH _ _ _ _ H F' y); [now apply S2|].
  intros [p Hp]. apply Hy. exists p. now apply S1.
Qed.
Lemma dupdate_plain (d e : state) : Forall (fun ka => is_submodule (snd ka) = false) d -> Forall (fun ka => is_submodule (snd ka) = false) e ->
  Forall (fun ka => is_submodule (snd ka) = false) (dupdate d e).
Proof.
  intros D F. revert d D. unfold dupdate. induction F as [|[k a] e Ha F IH]; intros d D; cbn [fold_left]; [exact D|]. apply IH.
  clear - D Ha. induction D as [|[k' b] d Hb D IHD]; cbn [dset fst snd]; [now constructor|]. destruct (String.eqb k k'); constructor; auto.
Qed.

(** ** what the compiler takes as constants *)
Definition mdef_ok_subs (ok : pyval -> Prop) : list (string * mdef) -> Prop :=
  fix go (l : list (string * mdef)) : Prop := match l with [] => True | (_, e) :: t => mdef_ok ok e /\ go t end.
Lemma fields_known ok nt rec : forall l,
  (forall n a, In (n, a) l -> is_node nt a = false -> (forall r, a <> ARaw (PyMod r)) ->
     match a with ARaw v => ok v | ACont c => ok (c_val c) /\ meta_ok ok (c_meta c) end) ->
  (forall n r, In (n, ARaw (PyMod r)) l -> forall mi d mi', rec r mi = Ok (d, mi') -> mdef_ok ok d) ->
  forall mi subs st mi', make_fields rec nt l mi = Ok (subs, st, mi') -> statics_ok ok st /\ mdef_ok_subs ok subs.
Proof.
  induction l as [|[n a] l IH]; intros HA HR mi subs st mi' H; cbn [make_fields] in H.
  - injection H as <- <- <-. split; [intros ? ? []|exact Logic.I].
  - assert (HA' := fun k x I => HA k x (or_intror I)). assert (HR' := fun k x I => HR k x (or_intror I)). specialize (IH HA' HR').
    assert (NS : (forall r, a <> ARaw (PyMod r)) -> forall subs st mi', (do (subs, st, mi2) <- make_fields rec nt l mi;
          if negb (is_node nt a) && negb (starts_with "_module__" n) then Ok (subs, (n, a) :: st, mi2) else Ok (subs, st, mi2)) = Ok (subs, st, mi') ->
       statics_ok ok st /\ mdef_ok_subs ok subs).
    { clear H. intros NM ss tt ii H. destruct (make_fields rec nt l mi) as [[[s1 t1] i1]|] eqn:F; [|discriminate]. cbn [rbind] in H.
      destruct (IH _ _ _ _ F) as [I1 I2]. destruct (is_node nt a) eqn:N; [cbn in H; injection H as <- <- <-; auto|].
      destruct (starts_with "_module__" n); cbn in H; injection H as <- <- <-; (split; [|exact I2]); [exact I1|].
      intros k x [I|I]; [injection I as <- <-; apply (HA n a); auto; now left|exact (I1 k x I)]. }
    destruct a as [v|c]; [|apply (NS ltac:(intros; discriminate) _ _ _ H)].
    destruct v; try (apply (NS ltac:(intros; discriminate) _ _ _ H)). clear NS.
    destruct (rec r mi) as [[d mi1]|] eqn:ER; [|discriminate]. cbn [rbind] in H.
    destruct (make_fields rec nt l mi1) as [[[s1 t1] i1]|] eqn:F; [|discriminate]. cbn [rbind] in H. injection H as <- <- <-.
    destruct (IH _ _ _ _ F) as [I1 I2]. split; [exact I1|]. split; [exact (HR n r (or_introl eq_refl) _ _ _ ER)|exact I2].
Qed.
Lemma is_node_static w x o n a : get_obj w x = Some o -> dget n (m_vars o) = Some a -> (forall r, a <> ARaw (PyMod r)) ->
  is_node (w_nodes w) a = false -> static_attr w x n a.
Proof.
  intros Ho D NM N. apply static_attr_iff. exists o. split; [exact Ho|]. split; [exact D|]. split; [|exact N].
  destruct a as [[]|]; try reflexivity. now destruct (NM r).
Qed.
Lemma known_below ok w r x : known_ok ok w r -> reaches w r x -> known_ok ok w x.
Proof. intros K H y o n a Hy. apply K. eapply reaches_trans; eauto. Qed.
Lemma make_def_known ok w : wf_world w -> forall fuel r mi d mi', known_ok ok w r -> make_def fuel w r mi = Ok (d, mi') -> mdef_ok ok d.
Proof.
  intros W. induction fuel as [|k IH]; intros r mi d mi' K H; cbn [make_def] in H; [discriminate|].
  destruct (get_obj w r) as [o|] eqn:Ho; [|discriminate]. destruct (index_of (m_id o) mi); [injection H as <- <-; exact Logic.I|].
  destruct (make_fields _ _ _ _) as [[[subs st] mi1]|] eqn:F; [|discriminate]. cbn [rbind] in H. injection H as <- <-.
  change (statics_ok ok st /\ mdef_ok_subs ok subs). assert (Hrr : reaches w r r) by (eapply reaches_refl; eauto).
  assert (GD : forall n a, In (n, a) (sort_by_key (m_vars o)) -> dget n (m_vars o) = Some a).
  { intros n a I. apply In_dget; [apply (wf_objs w W r o Ho)|]. eapply Permutation_in; [apply sort_perm|exact I]. }
  eapply fields_known; [| |exact F].
  - intros n a I N NM. pose proof (GD n a I) as D. pose proof (K r o n a Hrr Ho D) as Ka.
    pose proof (is_node_static w r o n a Ho D NM N) as S. destruct a; [auto|]. destruct Ka; auto.
  - intros n x I mi2 d2 mi2' R. eapply IH; [|exact R]. eapply known_below; [exact K|]. apply (reaches_child w r n x W). exists o. auto.
Qed.
Lemma ifields_known ok nt rec : forall l,
  (forall n c, In (n, ACont c) l -> meta_ok ok (c_meta c)) ->
  (forall n r, In (n, ARaw (PyMod r)) l -> forall seen parts xs s, rec r seen parts = Ok (xs, s) -> state_ok ok xs) ->
  forall seen parts xs s, iter_fields rec nt l seen parts = Ok (xs, s) -> state_ok ok xs.
Proof.
  induction l as [|[n a] l IH]; intros HA HR seen parts xs s H; cbn [iter_fields] in H; [injection H as <- <-; intros ? ? []|].
  assert (HA' := fun k x I => HA k x (or_intror I)). assert (HR' := fun k x I => HR k x (or_intror I)). specialize (IH HA' HR').
  assert (NS : forall xs s, (do (ys, seen2) <- iter_fields rec nt l seen parts;
     if is_node nt a then Ok ((join_path (parts ++ [n]), a) :: ys, seen2) else Ok (ys, seen2)) = Ok (xs, s) -> state_ok ok xs).
  { clear H. intros ys t H. destruct (iter_fields rec nt l seen parts) as [[zs u]|] eqn:F; [|discriminate]. cbn [rbind] in H.
    pose proof (IH _ _ _ _ F) as I1. destruct (is_node nt a); injection H as <- <-; [|exact I1].
    intros k c [I|I]; [injection I as <- ->; apply (HA n); now left|exact (I1 k c I)]. }
  destruct a as [v|c]; [|exact (NS _ _ H)]. destruct v; try exact (NS _ _ H). clear NS.
  destruct (rec r seen _) as [[zs u]|] eqn:ER; [|discriminate]. cbn [rbind] in H.
  destruct (iter_fields rec nt l u parts) as [[zs' u']|] eqn:F; [|discriminate]. cbn [rbind] in H. injection H as <- <-.
  intros k c I. apply in_app_or in I as [I|I]; [exact (HR n r (or_introl eq_refl) _ _ _ _ ER k c I)|exact (IH _ _ _ _ F k c I)].
Qed.
Lemma iter_known ok w : wf_world w -> forall fuel r seen parts xs s, known_ok ok w r ->
  iter_state_rec fuel w r seen parts = Ok (xs, s) -> state_ok ok xs.
Proof.
  intros W. induction fuel as [|k IH]; intros r seen parts xs s K H; cbn [iter_state_rec] in H; [discriminate|].
  destruct (get_obj w r) as [o|] eqn:Ho; [|discriminate]. destruct (nmem _ _); [injection H as <- <-; intros ? ? []|].
  assert (Hrr : reaches w r r) by (eapply reaches_refl; eauto).
  assert (GD : forall n a, In (n, a) (sort_by_key (m_vars o)) -> dget n (m_vars o) = Some a).
  { intros n a I. apply In_dget; [apply (wf_objs w W r o Ho)|]. eapply Permutation_in; [apply sort_perm|exact I]. }
  eapply ifields_known; [| |exact H].
  - intros n c I. exact (proj1 (K r o n (ACont c) Hrr Ho (GD n _ I))).
  - intros n x I seen2 parts2 xs2 s2 R. eapply IH; [|exact R]. eapply known_below; [exact K|]. apply (reaches_child w r n x W). exists o. auto.
Qed.
Lemma known_constants ok w r p : wf_world w -> known_ok ok w r -> module_partition w r [] = Ok p -> constants_ok ok p.
Proof.
  intros W K H. unfold module_partition in H. destruct (get_module_def w r) as [d|] eqn:D; [|discriminate]. cbn [rbind] in H.
  destruct (get_state w r) as [s|] eqn:S; [|discriminate]. cbn in H. injection H as <-. split; cbn [p_states p_def sts_list].
  - constructor; [|constructor]. unfold get_state, iter_state in S. destruct (iter_state_rec _ w r [] []) as [[xs u]|] eqn:F; [|discriminate].
    injection S as <-. pose proof (iter_known ok w W _ _ _ _ _ _ K F) as G. intros k c I. unfold mk_state, dict_of in I.
    apply In_dupdate in I as [[]|I]. apply (Permutation_in _ (sort_perm _)) in I. exact (G k c I).
  - unfold get_module_def in D. destruct (make_def _ w r []) as [[d' mi]|] eqn:M; [|discriminate]. cbn [rbind] in D.
    destruct d'; [discriminate|]. injection D as <-. eapply make_def_known; eauto.
Qed.

Section Loop.
Variable E : pyval -> pyval -> Prop.
Hypothesis HE : forall v, E v v.
Hypothesis HS : forall a b, E a b -> E b a.
Hypothesis HT : forall a b c, E a b -> E b c -> E a c.
Hypothesis HQ : forall a b, E a b -> py_eq a b.

(** ** similarity *)
Lemma py_eq_mod v r : py_eq v (PyMod r) -> v = PyMod r.
Proof. inversion 1 as [|? ? z N1 N2|]; [reflexivity|]. inversion N2. Qed.
Lemma mod_cases x y : py_eq x y -> (exists r, x = PyMod r /\ y = PyMod r) \/ ((forall r, x <> PyMod r) /\ (forall r, y <> PyMod r)).
Proof.
  intros H. destruct H as [v|a b z N1 N2|l l' F].
  - destruct v; try (right; split; intros; discriminate). left. eauto.
  - right. split; intros r ->; [inversion N1|inversion N2].
  - right. split; intros; discriminate.
Qed.
Lemma sim_sub a b : attr_sim E a b -> (exists r, a = ARaw (PyMod r) /\ b = ARaw (PyMod r)) \/ (is_submodule a = false /\ is_submodule b = false).
Proof.
  intros [v v' EV|]; [|right; auto]. destruct (mod_cases _ _ (HQ _ _ EV)) as [(r & -> & ->)|[N1 N2]]; [left; eauto|right].
  split; [destruct v|destruct v']; try reflexivity; exfalso; [eapply N1|eapply N2]; reflexivity.
Qed.
Lemma attr_sim_trans a b c : attr_sim E a b -> attr_sim E b c -> attr_sim E a c.
Proof.
  intros [v v' EV|k m m' v v' W1 W2 EM EV] H2; inversion H2 as [x y EV'|k' n n' x y W3 W4 EM' EV']; subst; constructor; eauto.
  intros q. specialize (EM q). specialize (EM' q). destruct (dget q m), (dget q m'), (dget q n'); cbn in *; try tauto. eauto.
Qed.
Lemma dict_sim_trans a b c : dict_sim E a b -> dict_sim E b c -> dict_sim E a c.
Proof.
  intros H. revert c. induction H as [|x y l m [E1 E2] F IH]; intros c H2; inversion H2 as [|? z ? n [E3 E4] F2]; subst; constructor; [|now apply IH].
  split; [congruence|eapply attr_sim_trans; eauto].
Qed.
Lemma out_sim_trans {A} (x y z : result (option state * A)) : res_sim (out_sim E) x y -> res_sim (out_sim E) y z -> res_sim (out_sim E) x z.
Proof.
  destruct x as [[a x]|ex], y as [[b y]|ey], z as [[c z]|ez]; cbn; try (intros; contradiction); try congruence.
  intros [H1 H2] [H3 H4]. cbn in *. split; cbn; [|congruence]. destruct a, b, c; try contradiction; auto. eapply dict_sim_trans; eauto.
Qed.

Lemma plain_sim s u : dict_sim E u s -> Forall (fun ka => is_submodule (snd ka) = false) s -> Forall (fun ka => is_submodule (snd ka) = false) u.
Proof.
  induction 1 as [|[k a] [k' b] u s [E1 E2] F IH]; intros H; [constructor|]. inversion H as [|? ? Hb H']; subst. constructor; [|auto].
  cbn [fst snd] in *. destruct (sim_sub _ _ E2) as [(r & -> & ->)|[? _]]; [discriminate|assumption].
Qed.

Section Two.
Variables w v : world.
Hypothesis W : world_sim E w v.
Lemma sim_obj x o : get_obj w x = Some o -> exists p, get_obj v x = Some p /\ obj_sim E o p.
Proof. intros H. pose proof (heap_get E w v x W) as G. rewrite H in G. destruct (get_obj v x) as [p|]; [eauto|contradiction]. Qed.
Lemma sim_attr x o n a : get_obj w x = Some o -> dget n (m_vars o) = Some a ->
  exists p b, get_obj v x = Some p /\ obj_sim E o p /\ dget n (m_vars p) = Some b /\ attr_sim E a b.
Proof.
  intros Ho D. destruct (sim_obj x o Ho) as (p & Hp & S). exists p. pose proof S as (_ & _ & _ & _ & G).
  pose proof (dict_sim_get E _ _ G n) as D2. rewrite D in D2. destruct (dget n (m_vars p)) as [b|]; [|contradiction]. eauto.
Qed.
Lemma follow_sim q : forall r, follow w r q = follow v r q.
Proof.
  induction q as [|n q IH]; intros r; cbn [follow]; pose proof (heap_get E w v r W) as G;
    destruct (get_obj w r) as [o|], (get_obj v r) as [o'|]; try contradiction; try reflexivity.
  destruct G as (_ & _ & _ & _ & G). pose proof (dict_sim_get E _ _ G n) as D.
  destruct (dget n (m_vars o)) as [a|], (dget n (m_vars o')) as [b|]; try contradiction; [|reflexivity].
  destruct (sim_sub _ _ D) as [(z & -> & ->)|[S1 S2]]; [apply IH|]. destruct a as [[]|], b as [[]|]; try discriminate; reflexivity.
Qed.
Lemma reaches_sim r x : reaches w r x <-> reaches v r x.
Proof. split; intros [q H]; exists q; [rewrite <- follow_sim|rewrite follow_sim]; exact H. Qed.
Lemma look_sim q : forall r, seen_like E (look w r q) (look v r q).
Proof.
  induction q as [|n q IH]; intros r; cbn [look]; pose proof (heap_get E w v r W) as G;
    destruct (get_obj w r) as [o|], (get_obj v r) as [o'|]; try contradiction; try reflexivity.
  - destruct G as (-> & _ & -> & _). reflexivity.
  - destruct G as (_ & _ & _ & _ & G). pose proof (dict_sim_get E _ _ G n) as D.
    destruct (dget n (m_vars o)) as [a|], (dget n (m_vars o')) as [b|]; try contradiction; [|reflexivity].
    destruct (sim_sub _ _ D) as [(z & -> & ->)|[S1 S2]]; [apply IH|].
    destruct a as [[]|], b as [[]|]; try discriminate; (destruct q; [exact D|reflexivity]).
Qed.
Lemma nodes_sim : w_nodes w = w_nodes v.
Proof. apply W. Qed.
Lemma static_sim x n a b o p : get_obj w x = Some o -> get_obj v x = Some p -> dget n (m_vars o) = Some a -> dget n (m_vars p) = Some b -> attr_sim E a b ->
  (static_attr w x n a <-> static_attr v x n b) /\ (node_attr w x n a <-> node_attr v x n b).
Proof.
  intros Ho Hp Da Db S. assert (NN : is_node (w_nodes w) a = is_node (w_nodes v) b).
  { rewrite nodes_sim. apply (is_node_sim E); [|exact S]. rewrite <- nodes_sim. apply W. }
  assert (SS : is_submodule a = is_submodule b) by (destruct (sim_sub _ _ S) as [(z & -> & ->)|[-> ->]]; reflexivity).
  rewrite !static_attr_iff, !node_attr_iff, NN, SS. split; split; intros (o' & H1 & H2 & H3); eexists; eauto.
Qed.
Lemma sim_wf : wf_world v -> wf_world w.
Proof.
  intros WV. assert (ID : map m_id (w_heap w) = map m_id (w_heap v)).
  { destruct W as [H _]. induction H as [|o p h k (_ & I & _) F IH]; cbn; [reflexivity|]. now rewrite I, IH. }
  constructor.
  - rewrite ID. apply WV.
  - intros r o Ho. destruct (sim_obj r o Ho) as (p & Hp & (C1 & C2 & C3 & C4 & C5)). destruct (wf_objs v WV r p Hp) as [P1 P2 P3 P4 P5].
    assert (KK : keys (m_vars o) = keys (m_vars p)).
    { unfold keys. clear - C5. induction C5 as [|x y l m [H _] F IH]; cbn; [reflexivity|]. now rewrite H, IH. }
    constructor.
    + rewrite C2. destruct W as (_ & -> & _). exact P1.
    + now rewrite KK.
    + now rewrite KK.
    + intros n x D. destruct (sim_attr r o n _ Ho D) as (p' & b & Hp' & _ & Db & S). assert (p' = p) by congruence. subst p'.
      destruct (sim_sub _ _ S) as [(z & Ez & ->)|[X _]]; [|discriminate]. injection Ez as <-.
      rewrite (Forall2_length _ _ _ (proj1 W)). exact (P4 n x Db).
    + intros n a D. destruct (sim_attr r o n a Ho D) as (p' & b & _ & _ & _ & S). destruct S; [exact Logic.I|assumption].
Qed.
End Two.
Lemma world_sim_sym_get w v : world_sim E w v -> forall x p, get_obj v x = Some p -> exists o, get_obj w x = Some o /\ obj_sim E o p.
Proof. intros W x p H. pose proof (heap_get E w v x W) as G. rewrite H in G. destruct (get_obj w x) as [o|]; [eauto|contradiction]. Qed.

Lemma world_sim_sym w v : world_sim E w v -> world_sim E v w.
Proof.
  intros (H & U & T & N & F). repeat split; auto; [|now rewrite <- N]. clear - H HS.
  assert (AS : forall a b, attr_sim E a b -> attr_sim E b a).
  { intros a b [x y Hx|c m m' x y W1 W2 EM Hx]; constructor; auto. intros k. specialize (EM k). destruct (dget k m), (dget k m'); cbn in *; auto. }
  induction H as [|o p h k (C1 & C2 & C3 & C4 & C5) F IH]; constructor; [|exact IH]. repeat split; auto.
  clear - C5 AS. induction C5 as [|x y l m [H1 H2] F IH]; constructor; [split; auto|exact IH].
Qed.

Definition def_rel (x y : mdef * list nat) : Prop := mdef_sim E (fst x) (fst y) /\ snd x = snd y.
Definition fields_rel (x y : list (string * mdef) * list (string * attr) * list nat) : Prop :=
  Forall2 (fun x y => fst x = fst y /\ mdef_sim E (snd x) (snd y)) (fst (fst x)) (fst (fst y)) /\ dict_sim E (snd (fst x)) (snd (fst y)) /\ snd x = snd y.
Lemma make_fields_sim nt rec rec' : nodes_fit E nt -> (forall r mi, res_sim def_rel (rec r mi) (rec' r mi)) ->
  forall l l', dict_sim E l l' -> forall mi, res_sim fields_rel (make_fields rec nt l mi) (make_fields rec' nt l' mi).
Proof.
  intros NF HR. induction 1 as [|[n a] [n' b] l l' [EQ S] F IH]; intros mi; cbn [make_fields]; [split; [constructor|split; [constructor|reflexivity]]|].
  cbn [fst snd] in *. subst n'. destruct (sim_sub _ _ S) as [(z & -> & ->)|[S1 S2]].
  - pose proof (HR z mi) as R1. destruct (rec z mi) as [[d mi1]|], (rec' z mi) as [[d' mi1']|]; try contradiction; [|exact R1].
    destruct R1 as [R1 R2]. cbn [fst snd rbind] in *. subst mi1'. pose proof (IH mi1) as I.
    destruct (make_fields rec nt l mi1) as [[[s t] i]|], (make_fields rec' nt l' mi1) as [[[s' t'] i']|]; try contradiction; [|exact I].
    destruct I as (I1 & I2 & I3). cbn [rbind fst snd] in *. split; [|split; assumption]. constructor; [split; [reflexivity|exact R1]|exact I1].
  - assert (NS : res_sim fields_rel
      (do (subs, st, mi2) <- make_fields rec nt l mi; if negb (is_node nt a) && negb (starts_with "_module__" n) then Ok (subs, (n, a) :: st, mi2) else Ok (subs, st, mi2))
      (do (subs, st, mi2) <- make_fields rec' nt l' mi; if negb (is_node nt b) && negb (starts_with "_module__" n) then Ok (subs, (n, b) :: st, mi2) else Ok (subs, st, mi2))).
    { pose proof (IH mi) as I. rewrite (is_node_sim E nt a b NF S).
      destruct (make_fields rec nt l mi) as [[[s t] i]|], (make_fields rec' nt l' mi) as [[[s' t'] i']|]; try contradiction; [|exact I].
      destruct I as (I1 & I2 & I3). cbn [rbind fst snd] in *. destruct (negb _ && negb _); (split; [exact I1|split; [|exact I3]]); cbn [fst snd]; [|exact I2].
      constructor; [split; [reflexivity|exact S]|exact I2]. }
    destruct a as [[]|], b as [[]|]; try discriminate; exact NS.
Qed.
Lemma make_def_sim w v : world_sim E w v -> forall fuel r mi, res_sim def_rel (make_def fuel w r mi) (make_def fuel v r mi).
Proof.
  intros W. induction fuel as [|k IH]; intros r mi; cbn [make_def]; [reflexivity|].
  pose proof (heap_get E w v r W) as G. destruct (get_obj w r) as [o|], (get_obj v r) as [p|]; try contradiction; [|reflexivity].
  destruct G as (G1 & G2 & G3 & G4 & G5). rewrite G2. destruct (index_of (m_id p) mi); [split; [constructor|reflexivity]|].
  rewrite (nodes_sim _ _ W). assert (NF : nodes_fit E (w_nodes v)) by (rewrite <- (nodes_sim _ _ W); apply W).
  pose proof (make_fields_sim (w_nodes v) _ _ NF IH _ _ (dict_sim_sort E _ _ G5) (mi ++ [m_id p])) as F.
  destruct (make_fields (make_def k w) _ _ _) as [[[s t] i]|], (make_fields (make_def k v) _ _ _) as [[[s' t'] i']|]; try contradiction; [|exact F].
  destruct F as (F1 & F2 & F3). cbn [rbind fst snd] in *. split; [|exact F3]. cbn [fst]. rewrite G1, G3. now constructor.
Qed.
Lemma partition_sim w v r : world_sim E w v -> res_sim (pure_sim E) (module_partition w r []) (module_partition v r []).
Proof.
  intros W. unfold module_partition. assert (D : res_sim (mdef_sim E) (get_module_def w r) (get_module_def v r)).
  { unfold get_module_def, dfs_fuel. rewrite (Forall2_length _ _ _ (proj1 W)). pose proof (make_def_sim w v W (S (List.length (w_heap v))) r []) as M.
    destruct (make_def _ w r []) as [[d i]|], (make_def _ v r []) as [[d' i']|]; try contradiction; [|exact M].
    destruct M as [M _]. cbn [rbind fst] in *. destruct M; [reflexivity|now constructor]. }
  destruct (get_module_def w r) as [d|], (get_module_def v r) as [d'|]; try contradiction; [|exact D]. cbn [rbind].
  pose proof (get_state_sim E HQ w v r W) as S. destruct (get_state w r) as [s|], (get_state v r) as [s'|]; try contradiction; [|exact S].
  cbn. split; [now constructor|exact D].
Qed.

Lemma updates_sts_sim w v r x y : world_sim E w v -> sts_sim E x y ->
  world_sim E (fst (update_state w r (UStates x))) (fst (update_state v r (UStates y))) /\
  snd (update_state w r (UStates x)) = snd (update_state v r (UStates y)).
Proof.
  intros W S. unfold update_state. pose proof (get_state_sim E HQ w v r W) as G.
  destruct (get_state w r) as [cur|e] eqn:C1, (get_state v r) as [cur'|e'] eqn:C2; try contradiction; [|cbn in *; subst; auto].
  unfold update_module. apply update_loop_sim; [exact HQ| |exact W]. apply updates_sim; [|constructor]. constructor; [exact G|].
  destruct S; cbn; auto.
Qed.
Lemma delattr_sim w v r n : world_sim E w v -> res_sim (world_sim E) (delattr w r n) (delattr v r n).
Proof.
  intros W. unfold delattr. pose proof (heap_get E w v r W) as G.
  destruct (get_obj w r) as [o|], (get_obj v r) as [p|]; try contradiction; [|reflexivity].
  destruct G as (G1 & G2 & G3 & G4 & G5). unfold dmem. pose proof (dict_sim_get E _ _ G5 n) as D.
  destruct (dget n (m_vars o)), (dget n (m_vars p)); try contradiction; [|reflexivity].
  destruct W as (H & U & T & N & F). repeat split; cbn; auto. apply Forall2_list_set; [exact H|]. repeat split; cbn; auto.
  clear - G5. induction G5 as [|[k a] [k' b] l m [E1 E2] F IH]; cbn [ddel]; [constructor|]. cbn [fst snd] in *. subst k'.
  destruct (String.eqb n k); [exact F|]. constructor; [split; auto|exact IH].
Qed.
Lemma exec_sim w v env c c' : world_sim E w v -> cmd_sim E c c' ->
  world_sim E (fst (fst (exec w env c))) (fst (fst (exec v env c'))) /\ snd (fst (exec w env c)) = snd (fst (exec v env c')) /\
  ans_sim E (snd (exec w env c)) (snd (exec v env c')).
Proof.
  intros W S. assert (ST : world_sim E w v /\ env = env /\ ans_sim E (ARaised OutOfModel) (ARaised OutOfModel)) by (split; [exact W|split; [reflexivity|now constructor]]).
  destruct S as [c Hc|i n a b S|i x y S].
  - destruct c as [i n|i n a|i n j|i n|k|i|i j|i|i x]; try contradiction; cbn [exec].
    + destruct (nth_error env i) as [x|]; [|exact ST]. pose proof (heap_get E w v x W) as G.
      destruct (get_obj w x) as [o|], (get_obj v x) as [p|]; try contradiction; [|exact ST].
      destruct G as (_ & _ & _ & _ & G). pose proof (dict_sim_get E _ _ G n) as D.
      destruct (dget n (m_vars o)) as [a|], (dget n (m_vars p)) as [b|]; try contradiction.
      2:{ split; [exact W|]. split; [reflexivity|now constructor]. }
      destruct (sim_sub _ _ D) as [(z & -> & ->)|[S1 S2]]; [split; [exact W|split; [reflexivity|now constructor]]|].
      destruct a as [[]|], b as [[]|]; try discriminate; (split; [exact W|split; [reflexivity|apply as_value; exact D]]).
    + destruct (nth_error env i) as [x|]; [|exact ST]. destruct (nth_error env j) as [y|]; [|exact ST]. pose proof (heap_get E w v x W) as G.
      destruct (get_obj w x) as [o|] eqn:Ho, (get_obj v x) as [p|] eqn:Hp; try contradiction; [|exact ST].
      destruct G as (_ & _ & _ & _ & G). pose proof (dict_sim_get E _ _ G n) as D.
      assert (SS : res_sim (world_sim E) (setattr w x n (ARaw (PyMod y))) (setattr v x n (ARaw (PyMod y)))).
      { apply setattr_sim; [exact HQ|exact W|]. constructor. apply HE. }
      assert (GO : forall q, res_sim (world_sim E) (setattr w x n (ARaw (PyMod y))) (setattr v x n (ARaw (PyMod y))) -> q = (setattr w x n (ARaw (PyMod y)), setattr v x n (ARaw (PyMod y))) ->
        world_sim E (fst (fst (match fst q with Ok w' => (w', env, ADone) | Err e => (w, env, ARaised e) end))) (fst (fst (match snd q with Ok w' => (w', env, ADone) | Err e => (v, env, ARaised e) end))) /\
        snd (fst (match fst q with Ok w' => (w', env, ADone) | Err e => (w, env, ARaised e) end)) = snd (fst (match snd q with Ok w' => (w', env, ADone) | Err e => (v, env, ARaised e) end)) /\
        ans_sim E (snd (match fst q with Ok w' => (w', env, ADone) | Err e => (w, env, ARaised e) end)) (snd (match snd q with Ok w' => (w', env, ADone) | Err e => (v, env, ARaised e) end))).
      { intros q Q ->. cbn [fst snd]. destruct (setattr w x n _) as [w1|e1], (setattr v x n _) as [v1|e2]; try contradiction; cbn in Q |- *.
        - split; [exact Q|split; [reflexivity|now constructor]].
        - subst. split; [exact W|split; [reflexivity|now constructor]]. }
      specialize (GO _ SS eq_refl). cbn [fst snd] in GO.
      destruct (dget n (m_vars o)) as [[|]|], (dget n (m_vars p)) as [[|]|]; try contradiction; try (inversion D; fail); try exact GO; exact ST.
    + destruct (nth_error env i) as [x|]; [|exact ST]. pose proof (delattr_sim w v x n W) as Q.
      destruct (delattr w x n) as [w1|e1], (delattr v x n) as [v1|e2]; try contradiction; cbn in Q |- *.
      * split; [exact Q|split; [reflexivity|now constructor]].
      * subst. split; [exact W|split; [reflexivity|now constructor]].
    + destruct W as (H & U & T & N & F). unfold new_module. cbn [fst snd]. rewrite (Forall2_length _ _ _ H). split; [|split; [reflexivity|now constructor]].
      unfold world_sim; cbn [w_heap w_uuid w_trace w_nodes]. rewrite U, T, N in *. split; [|auto].
      apply Forall2_app; [exact H|]. constructor; [|constructor]. unfold obj_sim; cbn. repeat split; auto. constructor.
    + destruct (nth_error env i) as [x|]; [|exact ST]. pose proof (heap_get E w v x W) as G.
      destruct (get_obj w x) as [o|], (get_obj v x) as [p|]; try contradiction; [|exact ST]. destruct G as (-> & _ & -> & _).
      split; [exact W|split; [reflexivity|now constructor]].
    + destruct (nth_error env i) as [x|]; [|exact ST]. destruct (nth_error env j) as [y|]; [|exact ST]. split; [exact W|split; [reflexivity|now constructor]].
    + destruct (nth_error env i) as [x|]; [|exact ST]. pose proof (get_state_sim E HQ w v x W) as G.
      destruct (get_state w x), (get_state v x); try contradiction; cbn in G |- *; [|subst; split; [exact W|split; [reflexivity|now constructor]]].
      split; [exact W|split; [reflexivity|now apply as_state]].
  - cbn [exec]. destruct (nth_error env i) as [x|]; [|exact ST]. pose proof (setattr_sim E HQ w v x n a b W S) as Q.
    destruct (setattr w x n a) as [w1|e1], (setattr v x n b) as [v1|e2]; try contradiction; cbn in Q |- *.
    + split; [exact Q|split; [reflexivity|now constructor]].
    + subst. split; [exact W|split; [reflexivity|now constructor]].
  - cbn [exec]. destruct (nth_error env i) as [m|]; [|exact ST]. destruct (updates_sts_sim w v m x y W S) as [Q1 Q2].
    destruct (update_state w m (UStates x)) as [w1 [[]|e1]], (update_state v m (UStates y)) as [v1 [[]|e2]]; cbn in Q1, Q2 |- *; try discriminate.
    + split; [exact Q1|split; [reflexivity|now constructor]].
    + injection Q2 as ->. split; [exact Q1|split; [reflexivity|now constructor]].
Qed.
Theorem prog_blind {A} (f : prog A) : prog_sim E f f -> blind E (user_fun f).
Proof.
  assert (G : forall f g : prog A, prog_sim E f g -> forall w v env, world_sim E w v ->
    world_sim E (fst (run f w env)) (fst (run g v env)) /\ snd (run f w env) = snd (run g v env)).
  { induction 1 as [res|c c' k k' Hc Hk IH]; intros w v env W; cbn [run]; [auto|].
    destruct (exec_sim w v env c c' W Hc) as (X1 & X2 & X3).
    destruct (exec w env c) as [[w1 env1] a], (exec v env c') as [[v1 env2] b]. cbn [fst snd] in *. subst env2. now apply IH. }
  intros H w v m W. apply G; assumption.
Qed.

Lemma update_sim w v r s s' : wf_world v -> world_sim E w v -> dict_sim E s s' ->
  world_sim E (fst (update_state w r (UStates (One s)))) (fst (update_state v r (UStates (One s')))) /\
  snd (update_state w r (UStates (One s))) = snd (update_state v r (UStates (One s'))).
Proof.
  intros V W S. unfold update_state. pose proof (get_state_sim E HQ w v r W) as G.
  destruct (get_state w r) as [cur|e] eqn:C1, (get_state v r) as [cur'|e'] eqn:C2; try contradiction; [|cbn in *; subst; auto].
  unfold update_module. apply update_loop_sim; [exact HQ| |exact W]. apply updates_sim; [|constructor]. constructor; [exact G|]. constructor; [exact S|constructor].
Qed.
Lemma update_frame w r s w' res : wf_world w -> update_state w r (UStates (One s)) = (w', res) -> Forall (fun ka => is_submodule (snd ka) = false) s ->
  forall x, ~ reaches w r x -> get_obj w' x = get_obj w x.
Proof.
  intros W H P x Hx. unfold update_state in H. destruct (get_state w r) as [cur|e] eqn:C; [|now injection H as <- <-].
  unfold update_module in H. eapply update_loop_stays; [exact H| |exact Hx]. cbn [sts_list fold_left].
  apply dupdate_plain; [apply dupdate_plain; [constructor|]|exact P].
  apply Forall_forall. intros [k a] I. exact (proj2 (get_state_plain w r cur W C k a I)).
Qed.

Variable ok : pyval -> Prop.
Hypothesis HK : forall a b, ok a -> ok b -> py_eq a b -> E a b.
Hypothesis HO : forall a b, E a b -> ok b -> ok a.
Variable nodes : list string.
Hypothesis NF : nodes_fit E nodes.

Lemma wsim_refl w : w_nodes w = nodes -> wf_world w -> world_sim E w w.
Proof.
  intros Hn W. split; [|repeat split; rewrite Hn; exact NF]. assert (G : forall o, In o (w_heap w) -> obj_sim E o o).
  { intros o I. apply In_nth_error in I as [r Hr]. repeat split. apply dict_sim_refl; [exact HE|]. exact (wf_attrs_entries w r o W Hr). }
  induction (w_heap w) as [|o h IH]; constructor; [apply G; now left|]. apply IH. intros p I. apply G. now right.
Qed.
Lemma usable_sim w v r : world_sim E w v -> usable nodes ok v r -> usable nodes ok w r.
Proof.
  intros W [U1 U2 U3 U4 U5 U6 U7]. constructor.
  - eapply sim_wf; eauto.
  - now rewrite (Forall2_length _ _ _ (proj1 W)).
  - intros x o n a Hx Ho D. apply (reaches_sim w v W) in Hx. destruct (sim_attr w v W x o n a Ho D) as (p & b & Hp & S & Db & Sa).
    destruct (U3 x p n b Hx Hp Db) as (N1 & N2 & N3). destruct (static_sim w v W x n a b o p Ho Hp D Db Sa) as [T1 T2].
    split; [|split; [rewrite T2; exact N2|rewrite T1; exact N3]]. destruct (sim_sub _ _ Sa) as [(z & -> & ->)|[-> _]]; [exact N1|discriminate].
  - intros x o Hx Ho. apply (reaches_sim w v W) in Hx. destruct (sim_obj w v W x o Ho) as (p & Hp & (_ & _ & _ & S & _)).
    destruct W as (_ & _ & T & _). rewrite S, T. eapply U4; eauto.
  - destruct U5 as [b U5]. exists b. intros x o Hx Ho. apply (reaches_sim w v W) in Hx. destruct (sim_obj w v W x o Ho) as (p & Hp & (_ & _ & S & _)).
    rewrite S. eapply U5; eauto.
  - now rewrite (nodes_sim w v W).
  - intros x o n a Hx Ho D. apply (reaches_sim w v W) in Hx. destruct (sim_attr w v W x o n a Ho D) as (p & b & Hp & S & Db & Sa).
    pose proof (U7 x p n b Hx Hp Db) as K. destruct (static_sim w v W x n a b o p Ho Hp D Db Sa) as [T1 _].
    destruct Sa as [y y' EV|c m m' y y' W1 W2 EM EV].
    + intros H. apply T1 in H. eauto.
    + destruct K as [K1 K2]. cbn [c_meta c_val] in *. split; [|intros H; apply T1 in H; eauto].
      intros k z Dz. specialize (EM k). rewrite Dz in EM. destruct (dget k m') as [z'|] eqn:Dz'; [|contradiction]. eapply HO; [exact EM|eapply K1; eauto].
Qed.
Lemma usable_bisim w wd R r : pair w wd R -> R r r -> usable nodes ok wd r -> usable nodes ok w r.
Proof.
  intros P Hr [U1 U2 U3 U4 U5 U6 U7]. constructor.
  - apply P.
  - eapply same_valid; eauto.
  - eapply same_names; eauto.
  - eapply same_live; eauto.
  - destruct U5 as [b U5]. exists b. intros x o Hx Ho. destruct (bisim_reaches _ _ _ _ _ _ (pr_bi _ _ _ P) Hr Hx) as (y & Hy & Hxy).
    destruct (bi_obj _ _ _ (pr_bi _ _ _ P) _ _ Hxy) as (o1 & o2 & A1 & A2 & _ & A4 & _). assert (o1 = o) by congruence. subst. rewrite A4. eauto.
  - rewrite (pr_nodes _ _ _ P). exact U6.
  - intros x o n a Hx Ho D. destruct (bisim_reaches _ _ _ _ _ _ (pr_bi _ _ _ P) Hr Hx) as (y & Hy & Hxy).
    destruct (bi_obj _ _ _ (pr_bi _ _ _ P) _ _ Hxy) as (o1 & o2 & A1 & A2 & _ & _ & A5). assert (o1 = o) by congruence. subst o1.
    specialize (A5 n). rewrite D in A5. destruct (is_submodule a) eqn:Sa.
    + destruct a as [[]|]; try discriminate. intros (? & _ & _ & X & _). discriminate.
    + apply orel_val in A5; [|exact Sa]. pose proof (U7 y o2 n a Hy A2 A5) as K.
      assert (ST : static_attr w x n a -> static_attr wd y n a).
      { intros (o' & _ & _ & _ & X). exists o2. split; [exact A2|]. split; [exact A5|]. split; [exact Sa|]. rewrite <- (pr_nodes _ _ _ P). exact X. }
      destruct a; [auto|]. destruct K. auto.
Qed.

Definition entry_ok (c : world * pure) : Prop :=
  wf_world (fst c) /\ w_nodes (fst c) = nodes /\ (exists b, good_pure b (snd c)) /\ constants_ok ok (snd c).
Lemma call_ok {A} same_aval stateful t (fn : world -> nat -> world * result A) cache w r cache' w' res :
  Forall entry_ok cache -> usable nodes ok w r -> jit_loop_call same_aval stateful t fn cache w r = (cache', w', res) -> Forall entry_ok cache'.
Proof.
  intros IH U C. unfold jit_loop_call in C.
  destruct (module_partition w r []) as [p|e] eqn:P; [|now injection C as <- <- <-].
  destruct (find _ cache) as [[w0 p0]|].
  - destruct (snd _) as [[[s|] out]|]; try (now injection C as <- <- <-). destruct (update_state _ _ _) as [w4 [[]|]]; now injection C as <- <- <-.
  - assert (G : Forall entry_ok ((w, p) :: cache)).
    { constructor; [|exact IH]. split; [apply U|]. split; [apply U|]. split; [eapply partition_good; eauto; apply U|].
      eapply known_constants; [apply U|apply U|exact P]. }
    destruct (jitted_fn _ _ _ _ _) as [w3 [[[s|] out]|]].
    + destruct (update_state _ _ _) as [w4 [[]|]]; now injection C as <- <- <-.
    + now injection C as <- <- <-.
    + now injection C as <- <- <-.
Qed.
Lemma made_ok {A} same_aval stateful t (fn : world -> nat -> world * result A) cache :
  jit_made same_aval stateful t fn nodes ok cache -> Forall entry_ok cache.
Proof. induction 1 as [|cache w r cache' w' res M IH U C]; [constructor|]. eapply call_ok; eauto. Qed.

(** the outcome of a call found in the cache; [v] is a world like [w] *)
Lemma hit_outcome {A} same_aval stateful t (f : prog A) w0 p0 w v r p vd res :
  ok_prog f -> blind E (user_fun f) -> entry_ok (w0, p0) -> world_sim E w v -> usable nodes ok v r -> module_partition w r [] = Ok p ->
  pure_key_eqb same_aval p0 p = true -> user_fun f v r = (vd, res) ->
  wf_world vd /\ valid vd r /\
  res_sim (out_sim E) (snd (jitted_fn stateful t (user_fun f) w0 (rebuild p0 p)))
    match res with
    | Ok out => if stateful then match get_state vd r with Ok s => Ok (Some s, out) | Err e => Err e end else Ok (None, out)
    | Err e => Err e
    end.
Proof.
  intros Hf HB (W0 & N0 & [b0 G0] & O0) WS U Hp Hk Hrun. cbn [fst snd] in *.
  pose proof (partition_sim w v r WS) as PS. rewrite Hp in PS. destruct (module_partition v r []) as [q|] eqn:Hq; [|contradiction].
  destruct (inner_any f v r q w0 t stateful Hf (us_wf _ _ _ _ U) (us_valid _ _ _ _ U) (us_names _ _ _ _ U) (us_live _ _ _ _ U) Hq W0)
    as (wd' & res' & E1 & Wd & Vd & E2). { rewrite N0. symmetry. apply U. }
  rewrite Hrun in E1. injection E1 as <- <-. split; [exact Wd|]. split; [exact Vd|]. rewrite <- E2.
  pose proof (usable_sim w v r WS U) as UW.
  destruct (partition_good w r p (us_wf _ _ _ _ UW) (us_phase _ _ _ _ UW) Hp) as [b G].
  assert (W00 : world_sim E w0 w0) by now apply wsim_refl.
  eapply out_sim_trans; [|apply (jitted_sim E HE HQ); [exact HB|exact W00|exact PS]].
  apply (jitted_sim E HE HQ); [exact HB|exact W00|].
  apply (key_sim E HE ok HK same_aval b0 b); auto. eapply known_constants; [apply UW|apply UW|exact Hp].
Qed.

Theorem loop_carries {A} same_aval t (f : prog A) cache w v r vd out :
  ok_prog f -> blind E (user_fun f) -> Forall entry_ok cache -> world_sim E w v -> usable nodes ok v r ->
  user_fun f v r = (vd, Ok out) -> nodes_only v vd r -> names_ok vd r ->
  exists cache' w' v', jit_loop_call same_aval true t (user_fun f) cache w r = (cache', w', Ok out) /\ wf_world vd /\
    world_sim E w' v' /\ wf_world v' /\ w_trace v' = w_trace v /\ w_nodes v' = w_nodes v /\ bisim v' vd (fun x y => x = y /\ reaches v r x) /\
    traces_kept v v' /\
    (forall x o, get_obj w x = Some o -> ~ reaches w r x -> get_obj w' x = Some o).
Proof.
  intros Hf HB HC WS U Hrun HN Hnod. pose proof (us_wf _ _ _ _ U) as Hv. pose proof (us_valid _ _ _ _ U) as Hr.
  pose proof (us_names _ _ _ _ U) as Hno. pose proof (us_live _ _ _ _ U) as Hlive. pose proof (usable_sim w v r WS U) as UW.
  assert (PL : forall w r s, wf_world w -> get_state w r = Ok s -> Forall (fun ka => is_submodule (snd ka) = false) s).
  { intros v0 q s0 Wv Gs. apply Forall_forall. intros [k a] I. exact (proj2 (get_state_plain v0 q s0 Wv Gs k a I)). }
  destruct (partition_all w r (us_wf _ _ _ _ UW) (us_valid _ _ _ _ UW)) as (p & s & Hp & Es). unfold jit_loop_call. rewrite Hp.
  destruct (find _ cache) as [[w0 p0]|] eqn:F.
  - apply find_some in F as [F1 F2]. rewrite Forall_forall in HC. pose proof (HC _ F1) as EO. cbn [snd] in F2.
    destruct (hit_outcome same_aval true t f w0 p0 w v r p vd (Ok out) Hf HB EO WS U Hp F2 Hrun) as (Wd & Vd & S).
    destruct (get_state_total vd r Wd Vd) as (sd & Hsd & _). rewrite Hsd in S.
    destruct (snd (jitted_fn _ _ _ _ _)) as [[[u|] out']|]; cbn in S; try (destruct S as [? ?]; contradiction); [|contradiction].
    destruct S as [S1 S2]. cbn in S1, S2. subst out'.
    destruct (transfer v vd v r sd Hv Hr Hno Hlive Wd Hnod HN) as (v4 & F & W4 & T4 & N4 & B4 & Fr); auto.
    { intros x ob Hx. exact Hx. }
    destruct (update_sim w v r u sd Hv WS S1) as [L1 L2]. rewrite F in L1, L2. cbn [fst snd] in L1, L2.
    destruct (update_state w r (UStates (One u))) as [w' [[]|]] eqn:U2; cbn [fst snd] in L1, L2; [|discriminate].
    exists cache, w', v4. split; [reflexivity|]. split; [exact Wd|]. split; [exact L1|]. split; [exact W4|]. split; [exact T4|]. split; [exact N4|].
    split; [exact B4|]. split; [eapply update_traces; exact F|].
    intros x ob Hx Hnr. rewrite (update_frame w r u w' (Ok tt) (us_wf _ _ _ _ UW) U2); [exact Hx| |exact Hnr].
    eapply plain_sim; [exact S1|exact (PL vd r sd Wd Hsd)].
  - destruct (jit_same f v r t vd out Hf Hv Hr Hno Hlive Hrun HN Hnod) as (v' & J & W' & T & N & B & Fr).
    pose proof (jit_traces f v r t true v' (Ok out) Hf Hv Hr Hno Hlive J) as TK.
    pose proof (partition_sim w v r WS) as PS. rewrite Hp in PS. destruct (module_partition v r []) as [q|] eqn:Hq; [|contradiction].
    assert (Wd : wf_world vd).
    { destruct (inner_any f v r q v t true Hf Hv Hr Hno Hlive Hq Hv eq_refl) as (wd' & res' & E1 & Wd & _). congruence. }
    destruct (jitted_sim E HE HQ true t (user_fun f) w v p q HB WS PS) as [J1 J2].
    unfold jit_call in J. rewrite Hq in J.
    destruct (inner_run f w r [] p t [s] Hf (us_wf _ _ _ _ UW) (us_valid _ _ _ _ UW) (us_names _ _ _ _ UW) (us_live _ _ _ _ UW) Hp)
      as (m & w1 & wd' & w2 & res & Hm & E1 & E2 & W1 & W2 & V2 & Vd & N1 & N2 & Hun & Hst). { rewrite Es. reflexivity. }
    assert (JW : jitted_fn true t (user_fun f) w p = (set_trace w2 (w_trace w),
       match res with Ok out => match get_state wd' r with Ok s => Ok (Some s, out) | Err e => Err e end | Err e => Err e end)).
    { unfold jitted_fn, pure_merge. rewrite Es. cbn [sts_list]. rewrite Hm, E2, Hst. destruct res as [x|]; [|reflexivity]. now destruct (get_state wd' r). }
    rewrite JW in J1, J2 |- *. cbn [fst snd] in J1, J2.
    destruct (jitted_fn true t (user_fun f) v q) as [v3 [[[u|] out']|]] eqn:JV; cbn [fst snd] in J1, J2.
    3:{ discriminate. }
    2:{ destruct res as [x|]; [|contradiction]. destruct (get_state wd' r); [|contradiction]. destruct J2 as [[] _]. }
    destruct res as [x|]; [|contradiction]. destruct (get_state wd' r) as [u'|] eqn:G'; [|contradiction]. destruct J2 as [J2 J3]. cbn in J2, J3. subst out'.
    assert (Wv3 : wf_world v3).
    { destruct (partition_all v r Hv Hr) as (q' & s' & Hq' & Es'). rewrite Hq in Hq'. injection Hq' as <-.
      destruct (inner_run f v r [] q t [s'] Hf Hv Hr Hno Hlive Hq) as (m' & w1' & wd'' & w2' & res' & Hm' & E1' & E2' & W1' & W2' & _).
      { rewrite Es'. reflexivity. }
      unfold jitted_fn, pure_merge in JV. rewrite Es' in JV. cbn [sts_list] in JV. rewrite Hm', E2' in JV.
      destruct res' as [y|]; [|discriminate]. destruct (get_state _ m'); [|discriminate]. injection JV as <- _ _. now apply set_trace_wf. }
    destruct (update_sim (set_trace w2 (w_trace w)) v3 r u' u Wv3 J1 J2) as [L1 L2].
    destruct (update_state v3 r (UStates (One u))) as [v5 [[]|]]; [|discriminate]. injection J as <- <-.
    destruct (update_state (set_trace w2 (w_trace w)) r (UStates (One u'))) as [w' [[]|]] eqn:U2; cbn [fst snd] in L1, L2; [|discriminate].
    eexists _, w', v5. split; [reflexivity|]. split; [exact Wd|]. split; [exact L1|]. split; [exact W'|]. split; [exact T|]. split; [exact N|].
    split; [exact B|]. split; [exact TK|].
    intros y ob Hy Hnr. rewrite (update_frame _ r u' w' (Ok tt) (set_trace_wf _ _ W2) U2).
    + now apply Hun.
    + exact (PL wd' r u' W1 G').
    + intros G. apply Hnr. apply (unchanged_reaches w (set_trace w2 (w_trace w)) r y (us_wf _ _ _ _ UW) Hun (us_valid _ _ _ _ UW)). exact G.
Qed.

(** the function raises, or is not to write back *)
Theorem loop_other {A} same_aval stateful t (f : prog A) cache w v r vd res :
  ok_prog f -> blind E (user_fun f) -> Forall entry_ok cache -> world_sim E w v -> usable nodes ok v r ->
  user_fun f v r = (vd, res) -> (stateful = false \/ exists e, res = Err e) ->
  exists cache' w', jit_loop_call same_aval stateful t (user_fun f) cache w r = (cache', w', res) /\ undone w w'.
Proof.
  intros Hf HB HC WS U Hrun HST. pose proof (usable_sim w v r WS U) as UW. pose proof (us_wf _ _ _ _ UW) as Hw. pose proof (us_valid _ _ _ _ UW) as Hr.
  pose proof (us_names _ _ _ _ UW) as Hno. pose proof (us_live _ _ _ _ UW) as Hlive.
  destruct (partition_all w r Hw Hr) as (p & s & Hp & Es). unfold jit_loop_call. rewrite Hp.
  destruct (find _ cache) as [[w0 p0]|] eqn:F.
  - apply find_some in F as [F1 F2]. rewrite Forall_forall in HC. pose proof (HC _ F1) as EO. cbn [snd] in F2.
    destruct (hit_outcome same_aval stateful t f w0 p0 w v r p vd res Hf HB EO WS U Hp F2 Hrun) as (Wd & Vd & S).
    exists cache, w. split; [|split; [intros x o Hx; exact Hx|auto]].
    destruct HST as [-> |[e ->]].
    + destruct res as [out|e]; destruct (snd (jitted_fn _ _ _ _ _)) as [[[u|] out']|e']; cbn in S; try contradiction.
      * destruct S as [S _]. contradiction.
      * destruct S as [_ S]. cbn in S. now subst.
      * now subst.
    + destruct (snd (jitted_fn _ _ _ _ _)) as [[[u|] out']|e']; cbn in S; try contradiction. now subst.
  - destruct (inner_run f w r [] p t [s] Hf Hw Hr Hno Hlive Hp) as (m & w1 & wd' & w2 & res' & Hm & E1 & E2 & W1 & W2 & V2 & Vd & N1 & N2 & Hun & Hst).
    { rewrite Es. reflexivity. }
    assert (res' = res) as ->. { destruct (HB w v r WS) as [_ R]. rewrite E1, Hrun in R. exact R. }
    assert (UD : undone w (set_trace w2 (w_trace w))) by (split; [exact Hun|split; [reflexivity|split; [now apply set_trace_wf|exact N2]]]).
    unfold jitted_fn, pure_merge. rewrite Es. cbn [sts_list]. rewrite Hm, E2.
    destruct HST as [-> |[e ->]]; [destruct res as [out|e]|]; eexists _, _; (split; [reflexivity|exact UD]).
Qed.

(** ** a whole program *)
Definition tracks (r : nat) (w wd : world) (v : world) (R : nat -> nat -> Prop) : Prop :=
  world_sim E w v /\ pair v wd R /\ R r r /\ w_trace v = w_trace wd.
Lemma undone_sim w w' v : world_sim E w v -> undone w w' -> exists v', world_sim E w' v' /\ undone v v'.
Proof.
  intros (H1 & H2 & H3 & H4 & H5) (U & T & W & N).
  assert (PRE : exists t, w_heap w' = w_heap w ++ t).
  { assert (G : forall h k : list mobj, (forall x o, nth_error h x = Some o -> nth_error k x = Some o) -> exists t, k = h ++ t).
    { induction h as [|o h IH]; intros k H; [now exists k|]. destruct k as [|o' k]; [discriminate (H 0 o eq_refl)|].
      pose proof (H 0 o eq_refl) as X. injection X as ->. destruct (IH k) as [t ->]; [intros x y Hx; exact (H (S x) y Hx)|]. now exists t. }
    apply G. exact U. }
  destruct PRE as [t PRE]. exists (mkWorld (w_heap v ++ t) (w_uuid w') (w_trace w') (w_nodes w')).
  assert (WSIM : world_sim E w' (mkWorld (w_heap v ++ t) (w_uuid w') (w_trace w') (w_nodes w'))).
  { repeat split; [|cbn; rewrite N; exact H5]. cbn. rewrite PRE. apply Forall2_app; [exact H1|].
    assert (G : forall o, In o t -> obj_sim E o o).
    { intros o I. repeat split. apply dict_sim_refl; [exact HE|]. assert (I' : In o (w_heap w')) by (rewrite PRE; apply in_or_app; now right).
      apply In_nth_error in I' as [r Hr]. exact (wf_attrs_entries w' r o W Hr). }
    clear - G. induction t; constructor; auto with datatypes. }
  split; [exact WSIM|]. split; [|split; [cbn; congruence|split; [|cbn; congruence]]].
  - intros x o Hx. unfold get_obj in *. cbn. rewrite nth_error_app1; [exact Hx|]. apply nth_error_Some. congruence.
  - eapply sim_wf; [apply world_sim_sym; exact WSIM|exact W].
Qed.

Theorem program_tracks {A} same_aval stateful t (f : prog A) r l : ok_prog f -> blind E (user_fun f) ->
  forall wd wd2 xs, run_plainly stateful f r E nodes ok wd l wd2 xs ->
  forall cache w v R, Forall entry_ok cache -> tracks r w wd v R ->
  exists w' v' R', run_jitted same_aval stateful t f r l cache w = (w', xs) /\ tracks r w' wd2 v' R' /\ w_trace w' = w_trace w /\
    (forall x o, get_obj w x = Some o -> (forall y, ~ R x y) -> get_obj w' x = Some o).
Proof.
  intros Hf HB wd wd2 xs H. induction H as [wd|wd wd1 res l wd2 xs U Hrun HN H IH|wd g wd1 res l wd2 xs Hg Bg Hrun H IH];
    intros cache w v R HC (WS & P & Hr & T); cbn [run_jitted].
  - exists w, v, R. split; [reflexivity|]. split; [exact (conj WS (conj P (conj Hr T)))|]. auto.
  - pose proof (usable_bisim v wd R r P Hr U) as UV.
    destruct (side_run f v wd R r wd1 res Hf P Hr Hrun) as (v1 & R1 & E1 & P1 & I1 & T1 & T2 & N1 & F1).
    assert (NR : forall x, (forall y, ~ R x y) -> ~ reaches w r x).
    { intros x Hx Hre. apply (reaches_sim w v WS) in Hre. destruct (bisim_reaches _ _ _ _ _ _ (pr_bi _ _ _ P) Hr Hre) as (y & _ & Hy). exact (Hx y Hy). }
    assert (CASE : (stateful = true /\ exists out, res = Ok out) \/ (stateful = false \/ exists e, res = Err e)).
    { destruct stateful; [|auto]. destruct res; [left; eauto|right; right; eauto]. }
    destruct CASE as [[-> [out ->]]|CASE].
    + destruct (HN out eq_refl eq_refl) as [HN1 HN2].
      pose proof (same_nodes_only v wd R v1 wd1 R1 r P Hr P1 I1 N1 HN1) as HV.
      pose proof (same_names v1 wd1 R1 r P1 (I1 _ _ Hr) HN2) as HV2.
      destruct (loop_carries same_aval t f cache w v r v1 out Hf HB HC WS UV E1 HV HV2) as (cache' & w' & v' & C & W1 & WS' & WV' & T' & N' & B' & K' & Fr).
      rewrite C. destruct (carried v v1 wd1 R1 r v' P1 (I1 _ _ Hr) (us_live _ _ _ _ UV) (us_valid _ _ _ _ UV) WV' T') as (R4 & P4 & Hr4 & I4); auto.
      { congruence. }
      destruct (IH cache' w' v' R4) as (w2 & v2 & R2 & C2 & TR & TT & F2).
      { eapply call_ok; [exact HC| |exact C]. eapply usable_sim; eauto. }
      { split; [exact WS'|]. split; [exact P4|]. split; [exact Hr4|]. congruence. }
      rewrite C2. exists w2, v2, R2. split; [reflexivity|]. split; [exact TR|]. split.
      { rewrite TT. destruct WS' as (_ & _ & -> & _). destruct WS as (_ & _ & -> & _). exact T'. }
      intros x o Ho Hx. apply F2; [apply Fr; auto|]. intros y Hy. apply I4 in Hy. destruct (sim_obj w v WS x o Ho) as (p & Hp & _).
      destruct (F1 x p Hp Hx) as [_ G]. exact (G y Hy).
    + destruct (loop_other same_aval stateful t f cache w v r v1 res Hf HB HC WS UV E1 CASE) as (cache' & w' & C & UD). rewrite C.
      destruct (undone_sim w w' v WS UD) as (v' & WS' & UV').
      destruct (IH cache' w' v' R) as (w2 & v2 & R2 & C2 & TR & TT & F2).
      { eapply call_ok; [exact HC| |exact C]. eapply usable_sim; eauto. }
      { split; [exact WS'|]. replace (match res with Ok _ => if stateful then wd1 else wd | Err _ => wd end) with wd.
        - split; [eapply pair_undone; eauto|]. split; [exact Hr|]. destruct UV' as (_ & -> & _). exact T.
        - destruct CASE as [-> |[e ->]]; [now destruct res|reflexivity]. }
      rewrite C2. exists w2, v2, R2. split; [reflexivity|]. split; [exact TR|]. split; [rewrite TT; apply UD|].
      intros x o Ho Hx. apply F2; [now apply UD|exact Hx].
  - destruct (side_run g v wd R r wd1 res Hg P Hr Hrun) as (v1 & R1 & E1 & P1 & I1 & T1 & T2 & N1 & F1).
    destruct (Bg w v r WS) as [B1 B2]. rewrite E1 in B1, B2. cbn [fst snd] in B1, B2.
    destruct (user_fun g w r) as [w1 res1] eqn:RW. cbn [fst snd] in B1, B2. subst res1.
    destruct (IH cache w1 v1 R1 HC) as (w2 & v2 & R2 & C2 & TR & TT & F2).
    { split; [exact B1|]. split; [exact P1|]. split; [exact (I1 _ _ Hr)|]. congruence. }
    rewrite C2. exists w2, v2, R2. split; [reflexivity|]. split; [exact TR|]. split.
    { rewrite TT. destruct B1 as (_ & _ & -> & _). destruct WS as (_ & _ & -> & _). exact T1. }
    intros x o Ho Hx. destruct (sim_obj w v WS x o Ho) as (p & Hp & _). destruct (F1 x p Hp Hx) as [_ G]. apply F2; [|exact G].
    assert (Ww : wf_world w) by (eapply sim_wf; [exact WS|apply P]).
    assert (Vr : valid w r). { unfold valid. rewrite (Forall2_length _ _ _ (proj1 WS)). eapply same_valid; eauto. }
    assert (Lw : live w r).
    { intros z oz Hz Hoz. destruct (sim_obj w v WS z oz Hoz) as (pz & Hpz & (_ & _ & _ & S & _)). apply (reaches_sim w v WS) in Hz.
      destruct WS as (_ & _ & TW & _). rewrite S, TW. exact (same_live v wd R r P Hr z pz Hz Hpz). }
    destruct (side_run g w w _ r w1 res Hg (pair_refl w r Ww Vr Lw)) as (w1' & R1' & E1' & _ & _ & _ & _ & _ & F1'); [|exact RW|].
    { split; [reflexivity|]. destruct (get_obj_ex _ _ Vr) as [ob Hob]. eapply reaches_refl; exact Hob. }
    rewrite RW in E1'. injection E1' as <-. apply F1'; [exact Ho|]. intros y [_ Hre]. apply (reaches_sim w v WS) in Hre.
    destruct (bisim_reaches _ _ _ _ _ _ (pr_bi _ _ _ P) Hr Hre) as (y' & _ & Hy'). exact (Hx y' Hy').
Qed.
End Loop.
