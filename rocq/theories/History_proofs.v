(** Invariants of every history, and the init bracket. *)
From Coq Require Import Permutation.
From Verif Require Import PyBase PyBaseFacts ValuesM Spec_Eq ValuesFacts FiltersM StateM State_proofs ModuleM Spec_Module Spec_History
  Graph_facts Dfs_proofs Build_proofs Clone_proofs Mdef_proofs Write_proofs ForEach_proofs.
Local Open Scope string_scope.
Local Open Scope list_scope.

(** ** The initialisation flag *)
Lemma run_init b V : forall w, NoDup V -> Forall (valid w) V ->
  exists w1, run_on (set_initializing b) V w = Ok w1 /\
    w_uuid w1 = w_uuid w /\ w_trace w1 = w_trace w /\ w_nodes w1 = w_nodes w /\ List.length (w_heap w1) = List.length (w_heap w) /\
    forall x o, get_obj w x = Some o -> get_obj w1 x = Some (if nmem x V then set_init o b else o).
Proof.
  induction V as [|v V IH]; intros w Hn Hv; cbn [run_on].
  - exists w. repeat split; auto.
  - inversion Hn as [|? ? Hni Hn']; subst. inversion Hv as [|? ? Hvv Hv']; subst.
    destruct (get_obj_ex _ _ Hvv) as [o Ho]. unfold set_initializing at 1. rewrite Ho.
    assert (Hlen : List.length (w_heap (put_obj w v (set_init o b))) = List.length (w_heap w)) by apply list_set_length.
    destruct (IH (put_obj w v (set_init o b)) Hn') as (w1 & E & A1 & A2 & A3 & A4 & A5).
    { eapply Forall_impl; [|exact Hv']. intros x Hx. unfold valid in *. now rewrite Hlen. }
    exists w1. split; [exact E|]. rewrite A1, A2, A3, A4. repeat split; auto. intros x ox Hx. cbn [nmem existsb].
    destruct (Nat.eqb_spec x v) as [->|Hne].
    + rewrite (A5 v (set_init o b)) by (eapply get_put_same; eauto). assert (o = ox) by congruence. subst ox.
      assert (nmem v V = false) as -> by now apply nmem_false. reflexivity.
    + apply A5. rewrite get_put_other by congruence. exact Hx.
Qed.

Lemma set_init_shape b w r w' : set_initializing b w r = Ok w' -> same_shape w w'.
Proof.
  unfold set_initializing. destruct (get_obj w r) as [o|] eqn:Ho; [|discriminate]. intros [= <-] x.
  destruct (Nat.eq_dec r x) as [<-|Hne].
  - rewrite Ho, (get_put_same _ _ _ _ Ho). cbn. auto.
  - rewrite get_put_other by assumption. destruct (get_obj w x); auto.
Qed.

Lemma set_init_all_flags b w r : wf_world w -> valid w r -> exists w1, set_init_all b w r = Ok w1 /\ flags_set b w r w1.
Proof.
  intros Hw Hr. destruct (for_each_visits (fun w => w) (set_initializing b) "Module" w Hw) with (r := r) (fuel := dfs_fuel w)
    as (V & V1 & V2 & V3).
  { intros s x s' Hs He. eapply shape_trans; [exact Hs|]. eapply set_init_shape; eauto. }
  { exact Hr. } { unfold dfs_fuel. lia. }
  destruct (run_init b V w V1) as (w1 & E & A1 & A2 & A3 & A4 & A5).
  { apply Forall_forall. intros x Hx. apply V2 in Hx as [_ (o & Ho & _)]. eapply get_obj_lt; eauto. }
  exists w1. split. { unfold set_init_all. rewrite V3; [exact E|apply shape_refl]. }
  constructor; auto.
  - intros x o Ho Hx Hm. rewrite (A5 _ _ Ho). assert (nmem x V = true) as ->; [|reflexivity]. apply nmem_In, V2. eauto.
  - intros x o Ho Hx. rewrite (A5 _ _ Ho). assert (nmem x V = false) as ->; [|reflexivity]. apply nmem_false. rewrite V2.
    intros [G1 (o' & G2 & G3)]. apply Hx. split; [exact G1|]. congruence.
Qed.

(** ** Building any ModuleDef *)
Definition new_ok (c0 : nat) (o : mobj) : Prop :=
  NoDup (keys (m_vars o)) /\ ~ In "_module__state" (keys (m_vars o)) /\ In "Module" (m_cls o) /\
  (forall n a, In (n, a) (m_vars o) -> wf_attr a /\ forall x, a = ARaw (PyMod x) -> x < c0).
Lemma new_ok_mono c0 c1 o : c0 <= c1 -> new_ok c0 o -> new_ok c1 o.
Proof. intros Hc (A & B & C & D). repeat split; auto; destruct (D _ _ H); auto. intros x Hx. specialize (H1 x Hx). lia. Qed.

Definition im_valid (im : list (nat * nat)) (c0 : nat) : Prop := forall i x, im_get i im = Some x -> x < c0.

Lemma In_dupdate {A} (x : string * A) items : forall d, In x (dupdate d items) -> In x d \/ In x items.
Proof.
  induction items as [|[k a] t IH]; intros d Hx; [auto|]. rewrite dupdate_cons in Hx. apply IH in Hx as [Hx|Hx]; [|right; now right].
  cbn in Hx. assert (G : forall d, In x (dset k a d) -> x = (k, a) \/ In x d).
  { clear. induction d as [|[m b] d IH]; cbn; [intros [<-|[]]; auto|]. destruct (String.eqb_spec k m) as [->|]; cbn; intuition. }
  apply G in Hx as [->|Hx]; [right; now left|auto].
Qed.

Lemma build_new d : wf_mdef d -> forall im w r im' w', build d im w = Ok (r, im', w') -> im_valid im (List.length (w_heap w)) ->
  exists objs, grown w w' objs /\ Forall (new_ok (List.length (w_heap w'))) objs /\
    r < List.length (w_heap w') /\ im_valid im' (List.length (w_heap w')) /\
    (forall c i s t b, d = MDef c i s t b -> r = List.length (w_heap w)).
Proof.
  induction d as [i|c i subs st ini IH] using mdef_rect'; intros Hd im w r im' w' H Him.
  - cbn in H. destruct (im_get i im) as [x|] eqn:E; [|discriminate]. injection H as <- <- <-. exists []. split; [apply grown_nil|].
    split; [constructor|]. split; [eauto|]. split; [exact Him|]. discriminate.
  - inversion Hd as [|? ? ? ? ? Hc Hsubs Hst]; subst. rewrite build_MDef in H.
    destruct (im_get i im); [discriminate|]. set (w0 := set_heap w (w_heap w ++ [mkMobj c 0 false (0, 0) []])) in *.
    destruct (build_subs subs ((i, List.length (w_heap w)) :: im) w0) as [[[ds im2] w2]|] eqn:Eb; [|discriminate].
    cbn [rbind] in H. injection H as <- <- <-.
    assert (Hlen0 : List.length (w_heap w0) = S (List.length (w_heap w))) by (cbn; rewrite app_length; cbn; lia).
    assert (Him0 : im_valid ((i, List.length (w_heap w)) :: im) (List.length (w_heap w0))).
    { intros j x. cbn [im_get]. destruct (Nat.eqb j i); [intros [= <-]; lia|]. intros Hx. apply Him in Hx. lia. }
    assert (G : exists objs, grown w0 w2 objs /\ Forall (new_ok (List.length (w_heap w2))) objs /\
              im_valid im2 (List.length (w_heap w2)) /\
              (forall n a, In (n, a) ds -> n <> "_module__state" /\ exists x, a = ARaw (PyMod x) /\ x < List.length (w_heap w2))).
    { clear Hd Hst. revert Eb Him0. generalize ((i, List.length (w_heap w)) :: im) as im0. generalize w0 as v. clear w0 Hlen0.
      revert ds im2 w2. induction IH as [|[n d] subs Hnd IHs IHrest]; intros ds im2 w2 v im0 Eb Him0.
      - cbn in Eb. injection Eb as <- <- <-. exists []. split; [apply grown_nil|]. split; [constructor|]. split; [exact Him0|]. intros n a [].
      - cbn [build_subs] in Eb. fold build_subs in Eb. cbn [snd] in Hnd.
        destruct (build d im0 v) as [[[r1 im1] v1]|] eqn:E1; [|discriminate]. cbn [rbind] in Eb.
        destruct (build_subs subs im1 v1) as [[[ds2 im3] v2]|] eqn:E2; [|discriminate]. cbn [rbind] in Eb. injection Eb as <- <- <-.
        destruct (Hnd (proj2 (Hsubs n d (or_introl eq_refl))) _ _ _ _ _ E1 Him0) as (o1 & P1 & P2 & P3 & P4 & _).
        destruct (IHrest (fun n' d' Hi => Hsubs n' d' (or_intror Hi)) _ _ _ _ _ E2 P4) as (o2 & Q1 & Q2 & Q3 & Q4).
        assert (Hle : List.length (w_heap v1) <= List.length (w_heap v2)).
        { rewrite (gr_heap _ _ _ Q1), app_length. lia. }
        exists (o1 ++ o2). split; [eapply grown_app; eauto|]. split.
        { apply Forall_app. split; [|exact Q2]. eapply Forall_impl; [|exact P2]. intros o. now apply new_ok_mono. }
        split; [exact Q3|]. intros n' a [[= <- <-]|Hi]; [|eauto]. split; [apply (Hsubs n d); now left|]. exists r1. split; [reflexivity|]. lia. }
    destruct G as (objs & G1 & G2 & G3 & G4).
    set (o := mkMobj c (S (w_uuid w2)) ini (w_trace w2) (dupdate (dupdate [] st) (dict_of ds))).
    assert (Hh : list_set (List.length (w_heap w)) o (w_heap w2) = w_heap w ++ o :: objs).
    { rewrite (gr_heap _ _ _ G1). cbn [w_heap w0 set_heap]. rewrite <- app_assoc. rewrite list_set_app_r by lia.
      now rewrite Nat.sub_diag. }
    assert (Hl2 : List.length (w_heap w2) = S (List.length (w_heap w)) + List.length objs).
    { rewrite (gr_heap _ _ _ G1), app_length, Hlen0. lia. }
    exists (o :: objs). rewrite Hh. cbn [w_heap].
    assert (Hl3 : List.length (w_heap w ++ o :: objs) = List.length (w_heap w2)). { rewrite app_length. cbn. lia. }
    split; [|split; [|split; [|split]]].
    + constructor; cbn [w_heap w_uuid w_trace w_nodes].
      * reflexivity.
      * rewrite (gr_uuid _ _ _ G1). cbn. lia.
      * apply (gr_trace _ _ _ G1).
      * apply (gr_nodes _ _ _ G1).
      * cbn. constructor; [|apply G1]. intros Hi. apply in_map_iff in Hi as (o' & E & Hi).
        pose proof (gr_fresh _ _ _ G1) as F. rewrite Forall_forall in F. specialize (F o' Hi). lia.
      * constructor.
        { cbn. rewrite (gr_uuid _ _ _ G1). cbn. lia. }
        eapply Forall_impl; [|apply G1]. cbn. intros o' Ho'. lia.
    + rewrite Hl3. constructor; [|exact G2]. repeat split; cbn [m_vars m_cls o].
      * apply NoDup_keys_dupdate, NoDup_keys_dupdate. constructor.
      * rewrite !In_keys_dupdate. intros [Hi|[Hi|[]]].
        -- apply in_map_iff in Hi as ([n a] & E & Hi). unfold dict_of in Hi. apply In_dupdate in Hi as [[]|Hi]. exact (proj1 (G4 _ _ Hi) E).
        -- apply in_map_iff in Hi as ([n a] & E & Hi). exact (proj1 (Hst _ _ Hi) E).
      * exact Hc.
      * apply In_dupdate in H as [H|H]; [apply In_dupdate in H as [[]|H]; now apply (Hst _ _ H)|].
        unfold dict_of in H. apply In_dupdate in H as [[]|H]. destruct (G4 _ _ H) as (_ & x & -> & _). exact I.
      * intros x ->. apply In_dupdate in H as [H|H]; [apply In_dupdate in H as [[]|H]; destruct (Hst _ _ H) as (_ & _ & Hs); discriminate|].
        unfold dict_of in H. apply In_dupdate in H as [[]|H]. destruct (G4 _ _ H) as (_ & y & [= <-] & Hx). exact Hx.
    + rewrite Hl3, Hl2. lia.
    + intros j x Hx. rewrite Hl3. eauto.
    + intros. reflexivity.
Qed.

Lemma grown_wf w w' objs : wf_world w -> grown w w' objs -> Forall (new_ok (List.length (w_heap w'))) objs -> wf_world w'.
Proof.
  intros Hw G HN. assert (Hl : List.length (w_heap w') = List.length (w_heap w) + List.length objs) by (rewrite (gr_heap _ _ _ G), app_length; lia).
  constructor.
  - rewrite (gr_heap _ _ _ G), map_app. apply NoDup_app_intro; [apply Hw|apply G|]. intros i H1 H2.
    apply in_map_iff in H1 as (o1 & <- & H1). apply in_map_iff in H2 as (o2 & E & H2).
    pose proof (gr_fresh _ _ _ G) as F. rewrite Forall_forall in F. specialize (F o2 H2).
    apply In_nth_error in H1 as [j Hj]. pose proof (wfo_id _ _ (wf_objs _ Hw j o1 Hj)). lia.
  - intros r o Ho. unfold get_obj in Ho. rewrite (gr_heap _ _ _ G) in Ho. destruct (Nat.lt_ge_cases r (List.length (w_heap w))) as [Hlt|Hge].
    + rewrite nth_error_app1 in Ho by assumption. destruct (wf_objs _ Hw r o Ho) as [A B C D E]. constructor; auto.
      * rewrite (gr_uuid _ _ _ G). lia.
      * intros n x Hx. specialize (D n x Hx). lia.
    + rewrite nth_error_app2 in Ho by assumption. apply nth_error_In in Ho. rewrite Forall_forall in HN. destruct (HN o Ho) as (A & B & C & D).
      constructor; auto.
      * pose proof (gr_fresh _ _ _ G) as F. rewrite Forall_forall in F. specialize (F o Ho). lia.
      * intros n x Hx. apply dget_In in Hx. now apply (D _ _ Hx).
      * intros n a Ha. apply dget_In in Ha. now apply (D _ _ Ha).
Qed.

(** ** ModuleDefs of modules, States of modules *)
Lemma fspec_wf_mdef w : wf_world w -> all_modules w ->
  (forall sr r d sr', dspec w sr r d sr' -> wf_mdef d) /\
  (forall l sr subs st sr', fspec w l sr subs st sr' ->
     (forall n a, In (n, a) l -> n <> "_module__state" /\ wf_attr a) ->
     (forall n d, In (n, d) subs -> n <> "_module__state" /\ wf_mdef d) /\
     (forall n a, In (n, a) st -> n <> "_module__state" /\ wf_attr a /\ is_submodule a = false)).
Proof.
  intros Hw Hm. apply dfs_ind.
  - constructor.
  - intros sr r o subs st sr' _ Ho _ IH. destruct IH as [I1 I2].
    { intros n a Hi. apply (Permutation_in _ (sort_perm _)) in Hi. pose proof (wf_objs _ Hw _ _ Ho) as W.
      apply In_dget in Hi; [|apply W]. split; [|exact (wfo_attrs _ _ W _ _ Hi)]. intros ->. apply (wfo_reserved _ _ W). eapply dget_In_keys; eauto. }
    constructor; auto. eapply Hm; eauto.
  - intros sr _. split; intros ? ? [].
  - intros n r t sr d sr1 subs st sr2 _ IHd _ IHf Hl. destruct IHf as [I1 I2]; [intros; apply Hl; now right|]. split; [|exact I2].
    intros n' d' [[= <- <-]|Hi]; [|auto]. split; [|exact IHd]. eapply Hl. left. reflexivity.
  - intros n a t sr subs st sr2 Hs _ _ _ IHf Hl. destruct IHf as [I1 I2]; [intros; apply Hl; now right|]. split; [exact I1|].
    intros n' a' [[= <- <-]|Hi]; [|auto]. destruct (Hl n a (or_introl eq_refl)). auto.
  - intros n a t sr subs st sr2 _ _ _ IHf Hl. apply IHf. intros; apply Hl; now right.
Qed.

Lemma get_module_def_wf w r d : wf_world w -> all_modules w -> get_module_def w r = Ok d -> wf_mdef d.
Proof.
  intros Hw Hm H. destruct (get_obj w r) as [o|] eqn:Ho.
  - assert (Hr : valid w r) by (eapply get_obj_lt; eauto). destruct (graph_exists w r Hw Hr) as (d' & L & G).
    rewrite (get_module_def_graph _ _ _ _ Hw Hr G) in H. injection H as <-. eapply (proj1 (fspec_wf_mdef w Hw Hm)); exact G.
  - unfold get_module_def, dfs_fuel in H. cbn in H. rewrite Ho in H. discriminate.
Qed.

Lemma mk_state_plain xs : (forall k a, In (k, a) xs -> wf_attr a /\ is_submodule a = false) -> plain_state (mk_state xs).
Proof.
  intros H k a Hi. unfold mk_state, dict_of in Hi. apply In_dupdate in Hi as [[]|Hi]. apply (H k).
  now apply (Permutation_in _ (sort_perm _)) in Hi.
Qed.

Lemma get_state_plain w r s : wf_world w -> get_state w r = Ok s -> plain_state s.
Proof.
  intros Hw H. destruct (get_obj w r) as [o|] eqn:Ho.
  - assert (Hr : valid w r) by (eapply get_obj_lt; eauto). destruct (graph_exists w r Hw Hr) as (d' & L & G).
    destruct (iter_state_graph w r d' L Hw Hr G) as (E & (E1 & E2 & E3) & E4 & E5). unfold get_state in H. rewrite E5 in H. cbn in H. injection H as <-.
    apply mk_state_plain. intros k a Hi. apply in_map_iff in Hi as (i & Ei & Hi). injection Ei as _ <-.
    destruct (E1 i Hi) as (_ & o' & Ho' & Hd & Hs & _). split; [|exact Hs]. eapply wfo_attrs; [apply (wf_objs _ Hw _ _ Ho')|exact Hd].
  - unfold get_state, iter_state, dfs_fuel in H. cbn in H. rewrite Ho in H. discriminate.
Qed.

Lemma plain_state_items s : plain_state s -> plain_items s.
Proof. intros H. apply Forall_forall. intros [k a] Hi. apply (H k a Hi). Qed.

(** ** One step *)
Record good (w w' : world) : Prop := { gd_wf : wf_world w'; gd_mod : all_modules w'; gd_pers : persists w w' }.
Lemma persists_refl w : persists w w.
Proof. split; [lia|]. intros x o Ho. exists o. auto. Qed.
Lemma persists_trans w1 w2 w3 : persists w1 w2 -> persists w2 w3 -> persists w1 w3.
Proof.
  intros [A1 A2] [B1 B2]. split; [lia|]. intros x o Ho. destruct (A2 x o Ho) as (o1 & H1 & H2 & H3 & H4).
  destruct (B2 x o1 H1) as (o2 & K1 & K2 & K3 & K4). exists o2. repeat split; congruence.
Qed.
Lemma good_trans w1 w2 w3 : good w1 w2 -> good w2 w3 -> good w1 w3.
Proof. intros A B. constructor; try apply B. eapply persists_trans; [apply A|apply B]. Qed.
Lemma good_refl w : wf_world w -> all_modules w -> good w w.
Proof. intros; constructor; auto using persists_refl. Qed.

Lemma same_objs_good w w' : wf_world w' -> all_modules w -> w_uuid w <= w_uuid w' -> List.length (w_heap w') = List.length (w_heap w) ->
  (forall x o, get_obj w x = Some o -> exists o', get_obj w' x = Some o' /\ m_id o' = m_id o /\ m_cls o' = m_cls o /\ m_trace o' = m_trace o) ->
  good w w'.
Proof.
  intros Hw Hm Hu Hl H. constructor; [exact Hw| |split; auto]. intros x o Ho.
  destruct (get_obj_ex w x) as [o0 Ho0]. { rewrite <- Hl. eapply get_obj_lt; eauto. }
  destruct (H x o0 Ho0) as (o' & E & _ & Hc & _). assert (o' = o) by congruence. subst. rewrite Hc. eapply Hm; eauto.
Qed.

Lemma setattr_good w r n a w' : wf_world w -> all_modules w -> attr_ok w a -> setattr w r n a = Ok w' -> good w w'.
Proof.
  intros Hw Hm Ha H. destruct (setattr_shape _ _ _ _ _ H) as (S1 & S2 & S3 & S4 & S5 & S6).
  apply same_objs_good; auto; [eapply setattr_wf; eauto|lia|]. intros x o Ho. destruct (Nat.eq_dec x r) as [->|Hne].
  - destruct (S6 o Ho) as (_ & d & Hd). exists (set_vars o d). auto.
  - exists o. rewrite S5; auto.
Qed.
Lemma delattr_good w r n w' : wf_world w -> all_modules w -> delattr w r n = Ok w' -> good w w'.
Proof.
  intros Hw Hm H. pose proof (delattr_wf _ _ _ _ Hw H) as Hw'. destruct (delattr_inv _ _ _ _ H) as (o & Ho & _ & ->).
  apply same_objs_good; auto; [cbn; rewrite list_set_length; reflexivity|]. intros x ox Hx.
  destruct (Nat.eq_dec r x) as [<-|Hne].
  - eexists. split; [eapply get_put_same; eauto|]. assert (ox = o) by congruence. subst. auto.
  - exists ox. rewrite get_put_other; auto.
Qed.
Lemma update_safe_good w w' r : all_modules w -> update_safe w w' r -> good w w'.
Proof.
  intros Hm [A (B1 & B2 & B3 & B4) C _ _ _]. apply same_objs_good; auto; [lia|]. intros x o Ho. destruct (C x o Ho) as [d Hd]. exists (set_vars o d). auto.
Qed.

Lemma update_module_good w r cur us w' res : wf_world w -> all_modules w -> plain_state cur -> Forall plain_state us ->
  update_module w r cur us = (w', res) -> good w w'.
Proof.
  intros Hw Hm Hc Hu H. apply (update_safe_good _ _ r); auto. eapply update_loop_safe; [exact Hw| |exact H].
  apply plain_fold; [|constructor]. constructor; [now apply plain_state_items|]. eapply Forall_impl; [|exact Hu]. apply plain_state_items.
Qed.

Lemma merge_good w d ss r w' : wf_world w -> all_modules w -> wf_mdef d -> Forall plain_state ss -> merge w d ss = Ok (r, w') -> good w w'.
Proof.
  intros Hw Hm Hd Hs H. unfold merge, build_module in H. destruct (build d [] w) as [[[r1 im] w1]|] eqn:Eb; [|discriminate]. cbn [rbind] in H.
  destruct (update_module w1 r1 [] ss) as [w2 [u|e]] eqn:Eu; [|discriminate]. injection H as <- <-.
  destruct (build_new d Hd _ _ _ _ _ Eb) as (objs & G1 & G2 & _); [intros i x Hx; discriminate|].
  pose proof (grown_wf _ _ _ Hw G1 G2) as Hw1.
  assert (Hm1 : all_modules w1).
  { intros x o Ho. unfold get_obj in Ho. rewrite (gr_heap _ _ _ G1) in Ho. destruct (Nat.lt_ge_cases x (List.length (w_heap w))).
    - rewrite nth_error_app1 in Ho by assumption. eapply Hm; eauto.
    - rewrite nth_error_app2 in Ho by assumption. apply nth_error_In in Ho. rewrite Forall_forall in G2. now apply (G2 o Ho). }
  apply (good_trans _ w1).
  - constructor; auto. split; [rewrite (gr_uuid _ _ _ G1); lia|]. intros x o Ho. exists o. split; auto. unfold get_obj in *.
    rewrite (gr_heap _ _ _ G1). apply nth_error_app1_lt || (rewrite nth_error_app1; [exact Ho|apply nth_error_Some; congruence]).
  - eapply update_module_good; eauto. intros k a [].
Qed.

Lemma pop_fields_good rec nt ps self :
  (forall w r mi parts states w' res, wf_world w -> all_modules w -> rec w r mi parts states = (w', res) -> good w w') ->
  forall l w mi parts states w' res, wf_world w -> all_modules w -> pop_fields rec nt ps self l w mi parts states = (w', res) -> good w w'.
Proof.
  intros Hrec. induction l as [|[n a] l IH]; intros w mi parts states w' res Hw Hm H; cbn in H; [injection H as <- <-; now apply good_refl|].
  assert (Hskip : pop_fields rec nt ps self l w mi parts states = (w', res) -> good w w') by eauto.
  assert (Hnode : (if is_node nt a then
            match pop_match ps states (join_path (parts ++ [n])) a with
            | Some states1 => match delattr w self n with
                | Ok w1 => pop_fields rec nt ps self l w1 mi parts states1
                | Err e => (w, Err e) end
            | None => pop_fields rec nt ps self l w mi parts states end
          else pop_fields rec nt ps self l w mi parts states) = (w', res) -> good w w').
  { destruct (is_node nt a); [|exact Hskip]. destruct (pop_match ps states (join_path (parts ++ [n])) a); [|exact Hskip].
    destruct (delattr w self n) as [w1|] eqn:E; [|intros [= <- <-]; now apply good_refl]. intros G.
    pose proof (delattr_good _ _ _ _ Hw Hm E) as G1. eapply good_trans; [exact G1|]. eapply IH; [apply G1|apply G1|exact G]. }
  destruct a as [[]|]; try exact (Hnode H).
  destruct (rec w r mi (parts ++ [n]) states) as [w1 [[mi1 s1]|e]] eqn:E.
  - pose proof (Hrec _ _ _ _ _ _ _ Hw Hm E) as G1. eapply good_trans; [exact G1|]. eapply IH; [apply G1|apply G1|exact H].
  - injection H as <- <-. eapply Hrec; eauto.
Qed.
Lemma pop_rec_good fuel ps : forall w r mi parts states w' res, wf_world w -> all_modules w -> pop_rec fuel ps w r mi parts states = (w', res) -> good w w'.
Proof.
  induction fuel as [|fuel IH]; intros w r mi parts states w' res Hw Hm H; cbn [pop_rec] in H; [injection H as <- <-; now apply good_refl|].
  destruct (get_obj w r) as [o|]; [|injection H as <- <-; now apply good_refl].
  destruct (nmem (m_id o) mi); [injection H as <- <-; now apply good_refl|].
  destruct (pop_fields (fun w r mi parts st => pop_rec fuel ps w r mi parts st) (w_nodes w) ps r (m_vars o) w mi parts states) as [w1 [[mi1 s1]|e]] eqn:E;
    injection H as <- <-; (eapply pop_fields_good; [|exact Hw|exact Hm|exact E]); exact IH.
Qed.

Lemma set_init_good b w r w' : wf_world w -> all_modules w -> set_init_all b w r = Ok w' -> good w w'.
Proof.
  intros Hw Hm H. destruct (get_obj w r) as [o|] eqn:Ho.
  - destruct (set_init_all_flags b w r Hw) as (w1 & E & [(A1 & A2 & A3 & A4) B C]); [eapply get_obj_lt; eauto|].
    assert (w1 = w') by congruence. subst w1.
    assert (G : forall x ox, get_obj w x = Some ox -> exists b', get_obj w' x = Some (set_init ox b')).
    { intros x ox Hx. destruct (in_dec Nat.eq_dec x (seq 0 (List.length (w_heap w)))) as [_|Hni].
      - destruct (graph_exists w r Hw) as (d & L & G); [eapply get_obj_lt; eauto|].
        assert (Hr : valid w r) by (eapply get_obj_lt; eauto).
        destruct (in_dec Nat.eq_dec x L) as [Hi|Hi]; rewrite (graph_reaches _ _ _ _ Hw Hr G) in Hi.
        + exists b. apply B; auto. eapply Hm; eauto.
        + exists (m_init ox). rewrite (C x ox Hx); [destruct ox; reflexivity|tauto].
      - exfalso. apply Hni, in_seq. apply get_obj_lt in Hx. lia. }
    apply same_objs_good; auto; [|lia|].
    + constructor.
      * replace (map m_id (w_heap w')) with (map m_id (w_heap w)); [apply Hw|]. apply nth_error_ext. intros i. rewrite !nth_error_map.
        change (nth_error (w_heap w) i) with (get_obj w i). change (nth_error (w_heap w') i) with (get_obj w' i).
        destruct (get_obj w i) as [oi|] eqn:Ei.
        -- destruct (G i oi Ei) as [b' ->]. reflexivity.
        -- destruct (get_obj w' i) eqn:Ei'; [|reflexivity]. apply get_obj_lt in Ei'. rewrite A4 in Ei'. apply get_obj_ex in Ei' as [? ?]. congruence.
      * intros x ox' Hx. destruct (get_obj_ex w x) as [ox Hox]. { rewrite <- A4. eapply get_obj_lt; eauto. }
        destruct (G x ox Hox) as [b' E']. assert (ox' = set_init ox b') by congruence. subst. destruct (wf_objs _ Hw _ _ Hox) as [W1 W2 W3 W4 W5].
        constructor; cbn; auto; [lia|]. intros n y Hy. rewrite A4. eauto.
    + intros x ox Hx. destruct (G x ox Hx) as [b' E']. exists (set_init ox b'). auto.
  - unfold set_init_all, for_each, dfs_fuel in H. cbn in H. rewrite Ho in H. discriminate.
Qed.

Lemma container_call_wf_val vt v c : In "Container" vt -> container_call vt (CVal v) [] = Ok c -> wf_container c.
Proof.
  intros Hv H. unfold container_call, container_init, init_meta in H. destruct (smem "Static" vt) eqn:E1.
  - cbn in H. injection H as <-. unfold wf_container. cbn [c_cls c_meta keys map]. rewrite E1. repeat split; auto; [constructor|discriminate].
  - destruct (smem "Variable" vt) eqn:E2; cbn in H; injection H as <-; unfold wf_container; cbn [c_cls c_meta keys map fst]; rewrite E1, E2; repeat split; auto; try discriminate.
    + repeat constructor. intros [].
    + intros [|[]]; discriminate.
    + eauto.
    + constructor.
Qed.

Lemma sow_good h w r vt n v w' : wf_world w -> all_modules w -> In "Container" vt -> sow h w r vt n v = Ok w' -> good w w'.
Proof.
  intros Hw Hm Hv H. unfold sow in H. destruct (get_obj w r) as [o|]; [|discriminate].
  destruct (dmem n (m_vars o) || h n).
  - destruct (dget n (m_vars o)) as [[|c]|]; try discriminate. destruct (negb (smem "Variable" (c_cls c))); [discriminate|].
    destruct (negb (cls_eqb (c_cls c) vt)); [discriminate|]. destruct (c_val c) as [| | | |l| |]; try discriminate.
    eapply setattr_good; [exact Hw|exact Hm| |exact H]. split; [exact I|]. intros x. discriminate.
  - destruct (container_call vt (CVal (PyTuple [v])) []) as [c|] eqn:E; [|discriminate]. cbn [rbind] in H.
    eapply setattr_good; [exact Hw|exact Hm| |exact H]. split; [|intros x; discriminate]. eapply container_call_wf_val; eauto.
Qed.

Lemma step_good w w' : step w w' -> wf_world w -> all_modules w -> good w w'.
Proof.
  intros H Hw Hm. destruct H as [w c Hc|w r n a w' Ha H|w r n w' H|w r u w' res Hu H|fuel w r fs w' res H|w d ss r w' Hd Hs H|w r r' w' H|w b r w' H
    |w h r vt n v w' Hv H|w l a w' Ha H|w t|w t].
  - unfold new_module. cbn [snd]. set (o := mkMobj c (S (w_uuid w)) false (w_trace w) []).
    assert (G : grown w (mkWorld (w_heap w ++ [o]) (S (w_uuid w)) (w_trace w) (w_nodes w)) [o]).
    { constructor; cbn; auto; try lia; repeat constructor; cbn; auto; lia. }
    constructor.
    + eapply grown_wf; [exact Hw|exact G|]. repeat constructor; cbn; auto; try (intros []); intros; contradiction.
    + intros x ox Hx. unfold get_obj in Hx. cbn in Hx. destruct (Nat.lt_ge_cases x (List.length (w_heap w))).
      * rewrite nth_error_app1 in Hx by assumption. eapply Hm; eauto.
      * rewrite nth_error_app2 in Hx by assumption. apply nth_error_In in Hx as [<-|[]]. exact Hc.
    + split; [cbn; lia|]. intros x ox Hx. exists ox. split; auto. unfold get_obj in *. cbn. rewrite nth_error_app1; [exact Hx|apply nth_error_Some; congruence].
  - eapply setattr_good; eauto.
  - eapply delattr_good; eauto.
  - unfold update_state in H. destruct (get_state w r) as [cur|] eqn:Ec; [|injection H as <- <-; now apply good_refl].
    pose proof (get_state_plain _ _ _ Hw Ec) as Pc. destruct u as [r2|p|x]; cbn in Hu.
    + destruct (get_obj w r) as [o|]; [|injection H as <- <-; now apply good_refl].
      destruct (get_obj w r2) as [o2|]; [|injection H as <- <-; now apply good_refl].
      destruct (cls_eqb (m_cls o) (m_cls o2)); [|injection H as <- <-; now apply good_refl].
      destruct (get_state w r2) as [s2|] eqn:E2; [|injection H as <- <-; now apply good_refl].
      eapply update_module_good; [exact Hw|exact Hm|exact Pc| |exact H]. constructor; [|constructor]. eapply get_state_plain; eauto.
    + eapply update_module_good; eauto.
    + eapply update_module_good; eauto.
  - unfold pop_state in H. destruct fs as [|f fs]; [injection H as <- <-; now apply good_refl|].
    destruct (rmapM to_predicate (f :: fs)) as [ps|]; [|injection H as <- <-; now apply good_refl].
    destruct (pop_rec fuel ps w r [] [] (repeat [] (List.length ps))) as [w1 [[mi st]|e]] eqn:E; injection H as <- <-; eapply pop_rec_good; eauto.
  - eapply merge_good; eauto.
  - unfold clone in H. destruct (module_partition w r []) as [p|] eqn:Ep; [|discriminate]. cbn [rbind] in H. unfold pure_merge in H.
    unfold module_partition in Ep. destruct (get_module_def w r) as [d|] eqn:Ed; [|discriminate]. cbn in Ep.
    destruct (get_state w r) as [s|] eqn:Es; [|discriminate]. cbn in Ep. injection Ep as <-. cbn in H.
    eapply merge_good; [exact Hw|exact Hm|eapply get_module_def_wf; eauto| |exact H]. constructor; [|constructor]. eapply get_state_plain; eauto.
  - eapply set_init_good; eauto.
  - eapply sow_good; eauto.
  - eapply setattr_good; eauto.
  - constructor; [|exact Hm|split; [cbn; lia|]].
    + constructor; [apply Hw|]. intros x o Ho. destruct (wf_objs _ Hw x o Ho) as [A B C D E]. constructor; auto.
    + intros x o Ho. exists o. auto.
  - constructor; [|exact Hm|split; [cbn; lia|]].
    + constructor; [apply Hw|]. intros x o Ho. destruct (wf_objs _ Hw x o Ho) as [A B C D E]. constructor; auto.
    + intros x o Ho. exists o. auto.
Qed.

Lemma steps_good w w' : steps w w' -> wf_world w -> all_modules w -> good w w'.
Proof.
  induction 1 as [w|w1 w2 w3 H H2 IH]; intros Hw Hm; [now apply good_refl|].
  pose proof (step_good _ _ H Hw Hm) as G. eapply good_trans; [exact G|]. apply IH; apply G.
Qed.
Lemma start_wf t nt : wf_world (start t nt) /\ all_modules (start t nt).
Proof. split; [constructor; [constructor|]|]; intros [|x] o Ho; discriminate. Qed.
