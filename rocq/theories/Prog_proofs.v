(** Programs cannot tell two bisimilar modules apart. *)
From Coq Require Import Lia.
From Verif Require Import PyBase PyBaseFacts ValuesM Spec_Eq ValuesFacts FiltersM StateM Spec_State State_proofs ModuleM Spec_Module Spec_History Spec_Prog
  Graph_facts Dfs_proofs Build_proofs Bisim_proofs Skel_proofs RoundTrip_proofs Clone_proofs Update_proofs Write_proofs History_proofs.
Local Open Scope string_scope.
Local Open Scope list_scope.

Record pair (w w' : world) (R : nat -> nat -> Prop) : Prop := {
  pr_bi : bisim w w' R;
  pr_wf : wf_world w;
  pr_wf' : wf_world w';
  pr_nodes : w_nodes w = w_nodes w';
  pr_live : forall x y o, R x y -> get_obj w x = Some o -> m_trace o = w_trace w;
  pr_live' : forall x y o, R x y -> get_obj w' y = Some o -> m_trace o = w_trace w'
}.

Record moves (w w' : world) (R : nat -> nat -> Prop) (w2 w2' : world) (R2 : nat -> nat -> Prop) : Prop := {
  mv_pair : pair w2 w2' R2;
  mv_incl : forall x y, R x y -> R2 x y;
  mv_new : forall x y, R2 x y -> R x y \/ (List.length (w_heap w) <= x /\ List.length (w_heap w') <= y);
  mv_fr : forall x, x < List.length (w_heap w) -> (forall y, ~ R x y) -> get_obj w2 x = get_obj w x;
  mv_fr' : forall y, y < List.length (w_heap w') -> (forall x, ~ R x y) -> get_obj w2' y = get_obj w' y;
  mv_len : List.length (w_heap w) <= List.length (w_heap w2);
  mv_len' : List.length (w_heap w') <= List.length (w_heap w2');
  mv_tr : w_trace w2 = w_trace w;
  mv_tr' : w_trace w2' = w_trace w';
  mv_nt : w_nodes w2 = w_nodes w
}.

Lemma moves_refl w w' R : pair w w' R -> moves w w' R w w' R.
Proof. intros H. constructor; auto. Qed.

Lemma moves_trans w w' R w2 w2' R2 w3 w3' R3 : moves w w' R w2 w2' R2 -> moves w2 w2' R2 w3 w3' R3 -> moves w w' R w3 w3' R3.
Proof.
  intros [A1 A2 A3 A4 A5 A6 A7 A8 A9 A10] [B1 B2 B3 B4 B5 B6 B7 B8 B9 B10]. constructor; auto; try congruence; try lia.
  - intros x y H. apply B3 in H as [H|[H1 H2]]; [now apply A3|right; lia].
  - intros x Hx Hn. rewrite <- A4 by assumption. apply B4; [lia|]. intros y Hy. apply A3 in Hy as [Hy|[Hy _]]; [now apply Hn in Hy|lia].
  - intros y Hy Hn. rewrite <- A5 by assumption. apply B5; [lia|]. intros x Hx. apply A3 in Hx as [Hx|[_ Hx]]; [now apply Hn in Hx|lia].
Qed.

Lemma length_put w x o : List.length (w_heap (put_obj w x o)) = List.length (w_heap w).
Proof. cbn. apply list_set_length. Qed.

Lemma pair_put w w' R x y o o' d d' : pair w w' R -> R x y -> get_obj w x = Some o -> get_obj w' y = Some o' ->
  wf_world (put_obj w x (set_vars o d)) -> wf_world (put_obj w' y (set_vars o' d')) ->
  (forall n, orel R (dget n d) (dget n d')) ->
  moves w w' R (put_obj w x (set_vars o d)) (put_obj w' y (set_vars o' d')) R.
Proof.
  intros HP Hxy Ho Ho' W W' Hd. pose proof (pr_bi _ _ _ HP) as HB. destruct (bi_obj _ _ _ HB _ _ Hxy) as (o1 & o1' & A & B & C & D & E).
  assert (o1 = o) by congruence. assert (o1' = o') by congruence. subst o1 o1'.
  assert (Hlv : forall u oo, get_obj (put_obj w x (set_vars o d)) u = Some oo -> exists p, get_obj w u = Some p /\ m_trace oo = m_trace p).
  { intros u oo Hu. destruct (Nat.eq_dec x u) as [<-|Hne].
    - rewrite (get_put_same _ _ _ _ Ho) in Hu. injection Hu as <-. exists o. auto.
    - rewrite get_put_other in Hu by assumption. eauto. }
  assert (Hlv' : forall u oo, get_obj (put_obj w' y (set_vars o' d')) u = Some oo -> exists p, get_obj w' u = Some p /\ m_trace oo = m_trace p).
  { intros u oo Hu. destruct (Nat.eq_dec y u) as [<-|Hne].
    - rewrite (get_put_same _ _ _ _ Ho') in Hu. injection Hu as <-. exists o'. auto.
    - rewrite get_put_other in Hu by assumption. eauto. }
  constructor; auto; try (rewrite length_put; lia).
  - constructor; auto.
    + constructor.
      * intros u v Huv. destruct (Nat.eq_dec x u) as [<-|Hne].
        -- assert (v = y) by (eapply (bi_fun _ _ _ HB); eauto). subst v.
           exists (set_vars o d), (set_vars o' d'). rewrite (get_put_same _ _ _ _ Ho), (get_put_same _ _ _ _ Ho'). auto.
        -- assert (Hne' : y <> v). { intros <-. apply Hne. eapply (bi_inj _ _ _ HB); eauto. }
           rewrite !get_put_other by assumption. apply (bi_obj _ _ _ HB); auto.
      * apply (bi_fun _ _ _ HB).
      * apply (bi_inj _ _ _ HB).
    + apply HP.
    + intros u v oo Huv Hu. apply Hlv in Hu as (p & Hp & ->). cbn. eapply (pr_live _ _ _ HP); eauto.
    + intros u v oo Huv Hu. apply Hlv' in Hu as (p & Hp & ->). cbn. eapply (pr_live' _ _ _ HP); eauto.
  - intros u Hu Hn. apply get_put_other. intros <-. now apply (Hn y).
  - intros u Hu Hn. apply get_put_other. intros <-. now apply (Hn x).
Qed.

Definition is_cont (a : option attr) : bool := match a with Some (ACont _) => true | _ => false end.

Lemma orel_cont R a b : orel R a b -> is_cont a = is_cont b /\ (is_cont a = true -> a = b).
Proof. destruct a as [[[]|]|], b as [[[]|]|]; cbn; try tauto; intros H; split; auto; try discriminate; destruct H; congruence. Qed.

Lemma assign_rel R old old' a a' : orel R old old' -> orel R (Some a) (Some a') ->
  (is_submodule a = true -> is_cont old = false) ->
  (exists b b', assign_value old a = Ok b /\ assign_value old' a' = Ok b' /\ orel R (Some b) (Some b')) \/
  (exists e, assign_value old a = Err e /\ assign_value old' a' = Err e).
Proof.
  intros Ho Ha Hc. destruct (orel_cont _ _ _ Ho) as [C1 C2]. destruct (is_submodule a) eqn:Es.
  - specialize (Hc eq_refl). apply is_sub_inv in Es as [x ->]. apply orel_mod in Ha as (y & [= ->] & Hxy).
    left. exists (ARaw (PyMod x)), (ARaw (PyMod y)). rewrite Hc in C1.
    split; [destruct old as [[]|]; try discriminate; reflexivity|].
    split; [destruct old' as [[]|]; try discriminate; reflexivity|exact Hxy].
  - apply orel_val in Ha; [|exact Es]. injection Ha as ->.
    assert (E : assign_value old' a = assign_value old a).
    { destruct (is_cont old) eqn:Ec.
      - rewrite C2; reflexivity.
      - destruct old as [[]|], old' as [[]|]; try discriminate; reflexivity. }
    rewrite E. destruct (assign_value old a) as [b|e] eqn:Eb; [left|right; eauto].
    exists b, b. split; [reflexivity|]. split; [reflexivity|]. apply orel_refl_val.
    unfold assign_value in Eb. destruct old as [[v|c]|], a as [v'|c']; try (injection Eb as <-; exact Es);
      try (destruct (container_copy c') as [z|]; [|discriminate]; injection Eb as <-; reflexivity).
    + destruct (container_replace c (Some (ARaw v')) []) as [z|]; [|discriminate]. injection Eb as <-. reflexivity.
    + destruct (container_replace c (Some (ACont c')) []) as [z|]; [|discriminate]. injection Eb as <-. reflexivity.
Qed.

Lemma pair_setattr w w' R x y n a a' : pair w w' R -> R x y -> attr_ok w a -> attr_ok w' a' -> orel R (Some a) (Some a') ->
  (is_submodule a = true -> forall o, get_obj w x = Some o -> is_cont (dget n (m_vars o)) = false) ->
  (exists w2 w2', setattr w x n a = Ok w2 /\ setattr w' y n a' = Ok w2' /\ moves w w' R w2 w2' R) \/
  (exists e, setattr w x n a = Err e /\ setattr w' y n a' = Err e).
Proof.
  intros HP Hxy Ha Ha' Hr Hc. destruct (bi_obj _ _ _ (pr_bi _ _ _ HP) _ _ Hxy) as (o & o' & A & B & C & D & E).
  assert (T : trace_valid w (m_trace o) = true). { apply trace_valid_iff. eapply (pr_live _ _ _ HP); eauto. }
  assert (T' : trace_valid w' (m_trace o') = true). { apply trace_valid_iff. eapply (pr_live' _ _ _ HP); eauto. }
  destruct (setattr w x n a) as [w2|e] eqn:S; destruct (setattr w' y n a') as [w2'|e'] eqn:S';
    pose proof S as S0; pose proof S' as S0'; unfold setattr in S, S'; rewrite A, T in S; rewrite B, T' in S'; cbn [negb] in S, S';
    destruct (String.eqb n "_module__state"); try discriminate; try (right; eexists; split; [reflexivity|congruence]);
    destruct (assign_rel R _ _ a a' (E n) Hr (fun h => Hc h o A)) as [(b & b' & G1 & G2 & G3)|(e0 & G1 & G2)];
    rewrite G1 in S; rewrite G2 in S'; cbn [rbind] in S, S'; try discriminate; try (right; eexists; split; [reflexivity|congruence]).
  left. exists w2, w2'. split; [reflexivity|]. split; [reflexivity|].
  injection S as <-. injection S' as <-. apply pair_put; auto.
  - eapply setattr_wf; [exact (pr_wf _ _ _ HP)|exact Ha|exact S0].
  - eapply setattr_wf; [exact (pr_wf' _ _ _ HP)|exact Ha'|exact S0'].
  - intros m. rewrite !dget_dset. destruct (String.eqb m n); [exact G3|apply E].
Qed.

Lemma plain_attr_ok w a : plain_attr a -> attr_ok w a.
Proof. intros [H1 H2]. split; [exact H1|]. intros x ->. discriminate. Qed.

Lemma pair_delattr w w' R x y n : pair w w' R -> R x y ->
  (exists w2 w2', delattr w x n = Ok w2 /\ delattr w' y n = Ok w2' /\ moves w w' R w2 w2' R) \/
  (exists e, delattr w x n = Err e /\ delattr w' y n = Err e).
Proof.
  intros HP Hxy. destruct (bi_obj _ _ _ (pr_bi _ _ _ HP) _ _ Hxy) as (o & o' & A & B & C & D & E).
  assert (Hm : dmem n (m_vars o) = dmem n (m_vars o')).
  { apply Bool.eq_iff_eq_true. rewrite !dmem_In. specialize (E n). split; intros H; apply dget_Some_keys in H as [v Hv]; rewrite Hv in E.
    - destruct (dget n (m_vars o')) eqn:F; [eapply dget_In_keys; eauto|]. destruct v as [[]|]; destruct E.
    - destruct (dget n (m_vars o)) as [b|] eqn:F; [eapply dget_In_keys; eauto|]. destruct v as [[]|]; destruct E. }
  destruct (delattr w x n) as [w2|e] eqn:S; destruct (delattr w' y n) as [w2'|e'] eqn:S'; pose proof S as S0; pose proof S' as S0';
    unfold delattr in S, S'; rewrite A in S; rewrite B in S'; rewrite <- Hm in S'; destruct (dmem n (m_vars o)); try discriminate.
  - left. exists w2, w2'. split; [reflexivity|]. split; [reflexivity|]. injection S as <-. injection S' as <-. apply pair_put; auto.
    + eapply delattr_wf; [exact (pr_wf _ _ _ HP)|exact S0].
    + eapply delattr_wf; [exact (pr_wf' _ _ _ HP)|exact S0'].
    + intros m. destruct (string_dec m n) as [->|Hne].
      * rewrite !dget_ddel_same; [exact Logic.I|apply (wf_objs _ (pr_wf' _ _ _ HP) _ _ B)|apply (wf_objs _ (pr_wf _ _ _ HP) _ _ A)].
      * rewrite !dget_ddel_other by assumption. apply E.
  - right. exists e. split; congruence.
Qed.

Lemma pair_set_path w w' R a p : plain_attr a -> pair w w' R -> forall x y, R x y ->
  (exists w2 w2', set_path w x p a = Ok w2 /\ set_path w' y p a = Ok w2' /\ moves w w' R w2 w2' R) \/
  (exists e, set_path w x p a = Err e /\ set_path w' y p a = Err e).
Proof.
  intros Ha HP. induction p as [|n p IH]; intros x y Hxy; [right; exists IndexError; auto|].
  destruct p as [|m p].
  - cbn [set_path]. apply pair_setattr; auto using plain_attr_ok.
    + apply orel_refl_val. apply Ha.
    + intros H. destruct Ha as [_ Ha]. congruence.
  - change (set_path w x (n :: m :: p) a) with
      (match get_obj w x with None => Err OutOfModel | Some o => match dget n (m_vars o) with
         | Some (ARaw (PyMod r')) => set_path w r' (m :: p) a | Some _ => Err OutOfModel
         | None => if String.eqb n "_module__state" then Err OutOfModel else Err KeyError end end).
    change (set_path w' y (n :: m :: p) a) with
      (match get_obj w' y with None => Err OutOfModel | Some o => match dget n (m_vars o) with
         | Some (ARaw (PyMod r')) => set_path w' r' (m :: p) a | Some _ => Err OutOfModel
         | None => if String.eqb n "_module__state" then Err OutOfModel else Err KeyError end end).
    destruct (bi_obj _ _ _ (pr_bi _ _ _ HP) _ _ Hxy) as (o & o' & A & B & C & D & E). rewrite A, B. specialize (E n).
    destruct (dget n (m_vars o)) as [b|] eqn:Eb.
    + destruct (is_submodule b) eqn:Es.
      * apply is_sub_inv in Es as [u ->]. apply orel_mod in E as (v & -> & Huv). apply IH. exact Huv.
      * apply orel_val in E; [|exact Es]. rewrite E. right. exists OutOfModel. destruct b as [[]|]; try discriminate; auto.
    + destruct (dget n (m_vars o')) as [[[]|]|] eqn:Eb'; cbn in E; try contradiction.
      right. destruct (String.eqb n "_module__state"); eauto.
Qed.

Lemma pair_loop R items : Forall (fun ka => plain_attr (snd ka)) items -> forall w w' x y, pair w w' R -> R x y ->
  exists w2 w2' res, update_loop w x items = (w2, res) /\ update_loop w' y items = (w2', res) /\ moves w w' R w2 w2' R.
Proof.
  induction 1 as [|[k a] items Ha H IH]; intros w w' x y HP Hxy; cbn [update_loop].
  - exists w, w', (Ok tt). auto using moves_refl.
  - destruct (pair_set_path w w' R a (split_slash k) Ha HP x y Hxy) as [(w2 & w2' & E1 & E2 & M)|(e & E1 & E2)]; rewrite E1, E2.
    + destruct (IH w2 w2' x y (mv_pair _ _ _ _ _ _ M) Hxy) as (w3 & w3' & res & F1 & F2 & M2).
      exists w3, w3', res. split; [exact F1|]. split; [exact F2|]. eapply moves_trans; eauto.
    + exists w, w', (Err e). auto using moves_refl.
Qed.

Lemma plain_dup (s : dict attr) : forall acc, Forall (fun ka => plain_attr (snd ka)) s -> Forall (fun ka => plain_attr (snd ka)) acc ->
  Forall (fun ka => plain_attr (snd ka)) (dupdate acc s).
Proof. intros acc H1 H2. apply plain_dupdate; assumption. Qed.

Lemma state_plain w r s : wf_world w -> get_state w r = Ok s -> Forall (fun ka => plain_attr (snd ka)) s.
Proof. intros Hw Hs. apply Forall_forall. intros [k a] Hi. exact (get_state_plain _ _ _ Hw Hs k a Hi). Qed.

Lemma pair_update w w' R x y u : plain_sts u -> pair w w' R -> R x y ->
  exists w2 w2' res, update_state w x (UStates u) = (w2, res) /\ update_state w' y (UStates u) = (w2', res) /\ moves w w' R w2 w2' R.
Proof.
  intros Hu HP Hxy. unfold update_state.
  rewrite <- (bisim_get_state _ _ _ _ _ (pr_wf _ _ _ HP) (pr_wf' _ _ _ HP) (pr_bi _ _ _ HP) (pr_nodes _ _ _ HP) Hxy).
  destruct (get_state w x) as [cur|e] eqn:Ec.
  - unfold update_module. apply pair_loop; auto. apply plain_fold; [|constructor]. constructor; [|exact Hu].
    eapply state_plain; [exact (pr_wf _ _ _ HP)|exact Ec].
  - exists w, w', (Err e). auto using moves_refl.
Qed.

Lemma get_app_last {A} (l : list A) x n : nth_error (l ++ [x]) n = if Nat.eqb n (List.length l) then Some x else nth_error l n.
Proof.
  destruct (Nat.eqb_spec n (List.length l)) as [->|H].
  - rewrite nth_error_app2, Nat.sub_diag by lia. reflexivity.
  - destruct (Nat.lt_ge_cases n (List.length l)).
    + now rewrite nth_error_app1.
    + rewrite nth_error_app2 by lia. destruct (n - List.length l) as [|k] eqn:E; [lia|]. cbn.
      rewrite (proj2 (nth_error_None l n)) by lia. now destruct k.
Qed.

Lemma new_module_wf w c : In "Module" c -> wf_world w -> wf_world (snd (new_module w c)).
Proof.
  intros Hc Hw. set (o := mkMobj c (S (w_uuid w)) false (w_trace w) []).
  assert (G : grown w (mkWorld (w_heap w ++ [o]) (S (w_uuid w)) (w_trace w) (w_nodes w)) [o]).
  { constructor; cbn; auto; try lia; repeat constructor; cbn; auto; lia. }
  unfold new_module. cbn [snd]. eapply grown_wf; [exact Hw|exact G|].
  repeat constructor; cbn; auto; try (intros []); intros; contradiction.
Qed.

Lemma pair_new w w' R c : In "Module" c -> pair w w' R ->
  moves w w' R (snd (new_module w c)) (snd (new_module w' c))
    (fun x y => R x y \/ (x = List.length (w_heap w) /\ y = List.length (w_heap w'))).
Proof.
  intros Hmc HP. pose proof (pr_bi _ _ _ HP) as HB.
  assert (Hold : forall x y, R x y -> x < List.length (w_heap w) /\ y < List.length (w_heap w')).
  { intros x y H. destruct (bisim_valid _ _ _ _ _ HB H). auto. }
  assert (Hg : forall v c x, get_obj (snd (new_module v c)) x =
     if Nat.eqb x (List.length (w_heap v)) then Some (mkMobj c (S (w_uuid v)) false (w_trace v) []) else get_obj v x).
  { intros v c0 x. unfold new_module, get_obj. cbn. apply get_app_last. }
  constructor; try (cbn; rewrite ?app_length; cbn; lia).
  - constructor; try (apply new_module_wf; [exact Hmc|]); try apply HP.
    + constructor.
      * intros x y [H|[-> ->]].
        -- destruct (Hold _ _ H). rewrite !Hg. destruct (Nat.eqb_spec x (List.length (w_heap w))); [lia|].
           destruct (Nat.eqb_spec y (List.length (w_heap w'))); [lia|].
           destruct (bi_obj _ _ _ HB _ _ H) as (o & o' & A & B & C & D & E). exists o, o'. repeat (split; [assumption|]).
           intros nm. specialize (E nm). destruct (dget nm (m_vars o)) as [[[]|]|], (dget nm (m_vars o')) as [[[]|]|]; cbn in *; try tauto; auto.
        -- rewrite !Hg, !Nat.eqb_refl. eexists _, _. split; [reflexivity|]. split; [reflexivity|]. cbn. auto.
      * intros x y y' [H|[-> ->]] [H'|[E ->]].
        -- eapply (bi_fun _ _ _ HB); eauto.
        -- apply Hold in H. lia.
        -- apply Hold in H'. lia.
        -- reflexivity.
      * intros x x' y [H|[-> ->]] [H'|[-> E]].
        -- eapply (bi_inj _ _ _ HB); eauto.
        -- apply Hold in H. lia.
        -- apply Hold in H'. lia.
        -- reflexivity.
    + intros x y o [H|[-> ->]] Ho; rewrite Hg in Ho.
      * destruct (Hold _ _ H). destruct (Nat.eqb_spec x (List.length (w_heap w))); [lia|]. cbn. eapply (pr_live _ _ _ HP); eauto.
      * rewrite Nat.eqb_refl in Ho. injection Ho as <-. reflexivity.
    + intros x y o [H|[-> ->]] Ho; rewrite Hg in Ho.
      * destruct (Hold _ _ H). destruct (Nat.eqb_spec y (List.length (w_heap w'))); [lia|]. cbn. eapply (pr_live' _ _ _ HP); eauto.
      * rewrite Nat.eqb_refl in Ho. injection Ho as <-. reflexivity.
  - intros x y H. now left.
  - intros x y [H|[-> ->]]; [now left|right; lia].
  - intros x Hx _. rewrite Hg. destruct (Nat.eqb_spec x (List.length (w_heap w))); [lia|reflexivity].
  - intros x Hx _. rewrite Hg. destruct (Nat.eqb_spec x (List.length (w_heap w'))); [lia|reflexivity].
  - reflexivity.
  - reflexivity.
  - reflexivity.
Qed.

Lemma Forall2_impl {A B} (P Q : A -> B -> Prop) l l' : (forall x y, P x y -> Q x y) -> Forall2 P l l' -> Forall2 Q l l'.
Proof. intros H. induction 1; constructor; auto. Qed.
Lemma Forall2_None {A B} (P : A -> B -> Prop) l l' i : Forall2 P l l' -> nth_error l i = None -> nth_error l' i = None.
Proof. intros H. rewrite !nth_error_None. now rewrite (Forall2_length _ _ _ H). Qed.

Lemma exec_pair w w' R env env' c : pair w w' R -> Forall2 R env env' -> ok_cmd c ->
  exists w2 env2 w2' env2' a R2, exec w env c = (w2, env2, a) /\ exec w' env' c = (w2', env2', a) /\
    ok_ans a /\ moves w w' R w2 w2' R2 /\ Forall2 R2 env2 env2'.
Proof.
  intros HP He Hc.
  assert (Hstuck : exists w2 env2 w2' env2' a R2, (w, env, ARaised OutOfModel) = (w2, env2, a) /\ (w', env', ARaised OutOfModel) = (w2', env2', a) /\
    ok_ans a /\ moves w w' R w2 w2' R2 /\ Forall2 R2 env2 env2').
  { eexists _, _, _, _, _, R. split; [reflexivity|]. split; [reflexivity|]. split; [exact Logic.I|]. split; [now apply moves_refl|exact He]. }
  assert (Hstay : forall a, ok_ans a -> exists w2 env2 w2' env2' a0 R2, (w, env, a) = (w2, env2, a0) /\ (w', env', a) = (w2', env2', a0) /\
    ok_ans a0 /\ moves w w' R w2 w2' R2 /\ Forall2 R2 env2 env2').
  { intros a Ha. eexists _, _, _, _, _, R. split; [reflexivity|]. split; [reflexivity|]. split; [exact Ha|]. split; [now apply moves_refl|exact He]. }
  assert (Hreg : forall i, match nth_error env i, nth_error env' i with
                  | Some x, Some y => R x y /\ exists o o', get_obj w x = Some o /\ get_obj w' y = Some o' /\
                       m_cls o = m_cls o' /\ m_init o = m_init o' /\ forall n, orel R (dget n (m_vars o)) (dget n (m_vars o'))
                  | None, None => True | _, _ => False end).
  { intros i. destruct (nth_error env i) as [x|] eqn:Ex.
    - destruct (Forall2_nth _ _ _ _ _ He Ex) as (y & -> & Hxy). split; [exact Hxy|]. apply (bi_obj _ _ _ (pr_bi _ _ _ HP) _ _ Hxy).
    - now rewrite (Forall2_None _ _ _ _ He Ex). }
  destruct c as [i n|i n a|i n j|i n|c|i|i j|i|i u]; cbn [exec] in *.
  - specialize (Hreg i). destruct (nth_error env i) as [x|], (nth_error env' i) as [y|]; try contradiction; [|exact Hstuck].
    destruct Hreg as (Hxy & o & o' & A & B & C & D & E). rewrite A, B. specialize (E n).
    destruct (dget n (m_vars o)) as [b|] eqn:Eb.
    + destruct (is_submodule b) eqn:Es.
      * apply is_sub_inv in Es as [u ->]. apply orel_mod in E as (v & -> & Huv).
        exists w, (env ++ [u]), w', (env' ++ [v]), AModule, R. split; [reflexivity|]. split; [reflexivity|]. split; [exact Logic.I|].
        split; [now apply moves_refl|]. apply Forall2_app; auto.
      * apply orel_val in E; [|exact Es]. rewrite E.
        assert (Hb : plain_attr b). { split; [|exact Es]. exact (wfo_attrs _ _ (wf_objs _ (pr_wf _ _ _ HP) _ _ A) _ _ Eb). }
        destruct b as [[]|]; try discriminate; apply Hstay; exact Hb.
    + destruct (dget n (m_vars o')) as [[[]|]|]; cbn in E; try contradiction. apply Hstay. exact Logic.I.
  - specialize (Hreg i). destruct (nth_error env i) as [x|], (nth_error env' i) as [y|]; try contradiction; [|exact Hstuck].
    destruct Hreg as (Hxy & _).
    destruct (pair_setattr w w' R x y n a a HP Hxy) as [(w2 & w2' & E1 & E2 & M)|(e & E1 & E2)].
    + now apply plain_attr_ok.
    + now apply plain_attr_ok.
    + apply orel_refl_val. apply Hc.
    + intros H. destruct Hc as [_ Hc]. congruence.
    + rewrite E1, E2. exists w2, env, w2', env', ADone, R. split; [reflexivity|]. split; [reflexivity|]. split; [exact Logic.I|]. auto.
    + rewrite E1, E2. apply Hstay. exact Logic.I.
  - pose proof (Hreg i) as Hi. pose proof (Hreg j) as Hj.
    destruct (nth_error env i) as [x|], (nth_error env' i) as [y|]; try contradiction; [|exact Hstuck].
    destruct (nth_error env j) as [u|], (nth_error env' j) as [v|]; try contradiction; [|exact Hstuck].
    destruct Hi as (Hxy & o & o' & A & B & C & D & E). destruct Hj as (Huv & _). rewrite A, B.
    destruct (orel_cont _ _ _ (E n)) as [G1 G2].
    destruct (is_cont (dget n (m_vars o))) eqn:Ec.
    + rewrite <- (G2 eq_refl). destruct (dget n (m_vars o)) as [[]|]; try discriminate. exact Hstuck.
    + destruct (bisim_valid _ _ _ _ _ (pr_bi _ _ _ HP) Huv) as [Vu Vv].
      destruct (pair_setattr w w' R x y n (ARaw (PyMod u)) (ARaw (PyMod v)) HP Hxy) as [(w2 & w2' & E1 & E2 & M)|(e & E1 & E2)].
      * split; [exact Logic.I|]. intros z [= <-]. exact Vu.
      * split; [exact Logic.I|]. intros z [= <-]. exact Vv.
      * exact Huv.
      * intros _ o1 Ho1. assert (o1 = o) by congruence. subst o1. exact Ec.
      * rewrite E1, E2.
        assert (X : exists w3 env2 w3' env2' a R2, (w2, env, ADone) = (w3, env2, a) /\ (w2', env', ADone) = (w3', env2', a) /\
           ok_ans a /\ moves w w' R w3 w3' R2 /\ Forall2 R2 env2 env2').
        { eexists _, _, _, _, _, R. split; [reflexivity|]. split; [reflexivity|]. split; [exact Logic.I|]. auto. }
        destruct (dget n (m_vars o)) as [[]|], (dget n (m_vars o')) as [[]|]; try discriminate; exact X.
      * rewrite E1, E2. pose proof (Hstay (ARaised e) Logic.I) as X.
        destruct (dget n (m_vars o)) as [[]|], (dget n (m_vars o')) as [[]|]; try discriminate; exact X.
  - specialize (Hreg i). destruct (nth_error env i) as [x|], (nth_error env' i) as [y|]; try contradiction; [|exact Hstuck].
    destruct Hreg as (Hxy & _).
    destruct (pair_delattr w w' R x y n HP Hxy) as [(w2 & w2' & E1 & E2 & M)|(e & E1 & E2)]; rewrite E1, E2.
    + exists w2, env, w2', env', ADone, R. split; [reflexivity|]. split; [reflexivity|]. split; [exact Logic.I|]. auto.
    + apply Hstay. exact Logic.I.
  - cbn. pose proof (pair_new w w' R c Hc HP) as M.
    eexists _, _, _, _, _, _. split; [reflexivity|]. split; [reflexivity|]. split; [exact Logic.I|]. split; [exact M|].
    apply Forall2_app; [|constructor; [right; auto|constructor]]. eapply Forall2_impl; [|exact He]. cbn. auto.
  - specialize (Hreg i). destruct (nth_error env i) as [x|], (nth_error env' i) as [y|]; try contradiction; [|exact Hstuck].
    destruct Hreg as (Hxy & o & o' & A & B & C & D & E). rewrite A, B, C, D. apply Hstay. exact Logic.I.
  - pose proof (Hreg i) as Hi. pose proof (Hreg j) as Hj.
    destruct (nth_error env i) as [x|], (nth_error env' i) as [y|]; try contradiction; [|exact Hstuck].
    destruct (nth_error env j) as [u|], (nth_error env' j) as [v|]; try contradiction; [|exact Hstuck].
    destruct Hi as (Hxy & _). destruct Hj as (Huv & _).
    assert (E : Nat.eqb x u = Nat.eqb y v).
    { destruct (Nat.eqb_spec x u) as [->|H1], (Nat.eqb_spec y v) as [->|H2]; auto.
      - exfalso. apply H2. eapply (bi_fun _ _ _ (pr_bi _ _ _ HP)); eauto.
      - exfalso. apply H1. eapply (bi_inj _ _ _ (pr_bi _ _ _ HP)); eauto. }
    rewrite E. apply Hstay. exact Logic.I.
  - specialize (Hreg i). destruct (nth_error env i) as [x|], (nth_error env' i) as [y|]; try contradiction; [|exact Hstuck].
    destruct Hreg as (Hxy & _).
    rewrite <- (bisim_get_state _ _ _ _ _ (pr_wf _ _ _ HP) (pr_wf' _ _ _ HP) (pr_bi _ _ _ HP) (pr_nodes _ _ _ HP) Hxy).
    destruct (get_state w x) as [s|e] eqn:Es; apply Hstay; [|exact Logic.I]. eapply state_plain; [exact (pr_wf _ _ _ HP)|exact Es].
  - specialize (Hreg i). destruct (nth_error env i) as [x|], (nth_error env' i) as [y|]; try contradiction; [|exact Hstuck].
    destruct Hreg as (Hxy & _). destruct (pair_update w w' R x y u Hc HP Hxy) as (w2 & w2' & res & E1 & E2 & M). rewrite E1, E2.
    destruct res as [[]|e].
    + exists w2, env, w2', env', ADone, R. split; [reflexivity|]. split; [reflexivity|]. split; [exact Logic.I|]. auto.
    + exists w2, env, w2', env', (ARaised e), R. split; [reflexivity|]. split; [reflexivity|]. split; [exact Logic.I|]. auto.
Qed.

Theorem run_pair {A} (p : prog A) : ok_prog p -> forall w w' R env env', pair w w' R -> Forall2 R env env' ->
  exists w2 w2' res R2, run p w env = (w2, res) /\ run p w' env' = (w2', res) /\ moves w w' R w2 w2' R2.
Proof.
  induction 1 as [res|c k Hc Hk IH]; intros w w' R env env' HP He; cbn [run].
  - exists w, w', res, R. auto using moves_refl.
  - destruct (exec_pair w w' R env env' c HP He Hc) as (w2 & env2 & w2' & env2' & a & R2 & E1 & E2 & Ha & M & He2).
    rewrite E1, E2. destruct (IH a Ha w2 w2' R2 env2 env2' (mv_pair _ _ _ _ _ _ M) He2) as (w3 & w3' & res & R3 & F1 & F2 & M2).
    exists w3, w3', res, R3. split; [exact F1|]. split; [exact F2|]. eapply moves_trans; eauto.
Qed.
