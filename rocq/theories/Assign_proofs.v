(** Where get_state lists the nodes of a Module depends on the submodules only. *)
From Verif Require Import PyBase PyBaseFacts ValuesM Spec_Eq ValuesFacts StateM ModuleM Spec_State Spec_Module Graph_facts State_proofs Dfs_proofs Mdef_proofs Write_proofs Spec_Assign.
Local Open Scope string_scope.
Local Open Scope list_scope.

(** the Modules in the order of the traversal, with the path each is first met at *)
Fixpoint homes_fields (rec : nat -> list nat -> list string -> result (list (nat * list string) * list nat))
    (l : list (string * nat)) (seen : list nat) (parts : list string) : result (list (nat * list string) * list nat) :=
  match l with
  | [] => Ok ([], seen)
  | (name, r) :: t =>
      do (xs, seen1) <- rec r seen (parts ++ [name]);
      do (ys, seen2) <- homes_fields rec t seen1 parts;
      Ok (xs ++ ys, seen2)
  end.
Fixpoint homes_rec (fuel : nat) (w : world) (r : nat) (seen : list nat) (parts : list string) {struct fuel}
  : result (list (nat * list string) * list nat) :=
  match fuel with
  | 0 => Err RecursionError
  | S n =>
      match get_obj w r with
      | None => Err OutOfModel
      | Some o =>
          if nmem (m_id o) seen then Ok ([], seen)
          else do (xs, s) <- homes_fields (homes_rec n w) (submods (sort_by_key (m_vars o))) (seen ++ [m_id o]) parts;
               Ok ((r, parts) :: xs, s)
      end
  end.

(** *** the entries that get_state collects *)
Definition entry (w : world) (hs : list (nat * list string)) (k : string) (a : attr) : Prop :=
  exists y p n, In (y, p) hs /\ node_attr w y n a /\ k = join_path (p ++ [n]).

Lemma node_attr_in w x o n a : wf_world w -> get_obj w x = Some o ->
  (node_attr w x n a <-> In (n, a) (sort_by_key (m_vars o)) /\ is_submodule a = false /\ is_node (w_nodes w) a = true).
Proof.
  intros Hw Ho. rewrite node_attr_iff. pose proof (wf_objs _ Hw _ _ Ho) as W.
  assert (Hin : In (n, a) (sort_by_key (m_vars o)) <-> dget n (m_vars o) = Some a).
  { rewrite <- (dget_sort n) by apply W. split; [apply In_dget; apply NoDup_keys_sort; apply W|apply dget_In]. }
  split.
  - intros (o' & Ho' & Hd & H1 & H2). assert (o' = o) by congruence. subst. now rewrite Hin.
  - intros (Hi & H1 & H2). exists o. rewrite <- Hin. auto.
Qed.

Lemma iter_homes w : wf_world w -> forall fuel r seen parts xs s, iter_state_rec fuel w r seen parts = Ok (xs, s) ->
  exists hs, homes_rec fuel w r seen parts = Ok (hs, s) /\ forall k a, In (k, a) xs <-> entry w hs k a.
Proof.
  intros Hw fuel. induction fuel as [|fuel IH]; intros r seen parts xs s E; [discriminate|].
  cbn [iter_state_rec] in E. cbn [homes_rec]. destruct (get_obj w r) as [o|] eqn:Ho; [|discriminate].
  destruct (nmem (m_id o) seen).
  { injection E as <- <-. exists []. split; [reflexivity|]. intros k a. split; [intros []|intros (y & p & n & [] & _)]. }
  assert (G : forall l seen xs s, iter_fields (iter_state_rec fuel w) (w_nodes w) l seen parts = Ok (xs, s) ->
    exists hs, homes_fields (homes_rec fuel w) (submods l) seen parts = Ok (hs, s) /\
      forall k a, In (k, a) xs <-> (exists n, In (n, a) l /\ is_submodule a = false /\ is_node (w_nodes w) a = true /\ k = join_path (parts ++ [n])) \/ entry w hs k a).
  { clear seen xs s E. intros l. induction l as [|[n b] l IHl]; intros seen xs s E.
    - cbn in E. injection E as <- <-. exists []. split; [reflexivity|]. intros k a. split; [intros []|].
      intros [(n & [] & _)|(y & p & n & [] & _)].
    - cbn [iter_fields] in E. destruct (is_submodule b) eqn:B.
      + destruct b as [[]|]; try discriminate. destruct (iter_state_rec fuel w r0 seen (parts ++ [n])) as [[xs1 s1]|] eqn:E1; [|discriminate].
        cbn [rbind] in E. destruct (iter_fields _ _ l s1 parts) as [[ys s2]|] eqn:E2; [|discriminate]. cbn [rbind] in E. injection E as <- <-.
        destruct (IH _ _ _ _ _ E1) as (h1 & H1 & M1). destruct (IHl _ _ _ E2) as (h2 & H2 & M2). exists (h1 ++ h2). cbn. rewrite H1. cbn [rbind].
        rewrite H2. split; [reflexivity|]. intros k a. rewrite in_app_iff, M1, M2. unfold entry. split.
        * intros [(y & p & m & Hi & Hna & K)|[(m & Hi & Hr)|(y & p & m & Hi & Hna & K)]].
          -- right. exists y, p, m. rewrite in_app_iff. auto.
          -- left. exists m. split; [now right|exact Hr].
          -- right. exists y, p, m. rewrite in_app_iff. auto.
        * intros [(m & [[= -> <-]|Hi] & S1 & Hr)|(y & p & m & Hi & Hna & K)]; [discriminate| |].
          -- right. left. eauto.
          -- apply in_app_iff in Hi as [Hi|Hi]; [left|right; right]; exists y, p, m; auto.
      + assert (E' : (do (ys, seen2) <- iter_fields (iter_state_rec fuel w) (w_nodes w) l seen parts;
          (if is_node (w_nodes w) b then Ok ((join_path (parts ++ [n]), b) :: ys, seen2) else Ok (ys, seen2))) = Ok (xs, s)).
        { destruct b as [[]|]; try discriminate; exact E. }
        clear E. destruct (iter_fields _ _ l seen parts) as [[ys s2]|] eqn:E2; [|discriminate]. cbn [rbind] in E'.
        destruct (IHl _ _ _ E2) as (h2 & H2 & M2). exists h2. rewrite submods_nonsub by assumption.
        destruct (is_node (w_nodes w) b) eqn:N; injection E' as <- <-; (split; [exact H2|]); intros k a.
        * cbn [In]. rewrite M2. split.
          -- intros [[= <- <-]|[(m & Hi & Hr)|Hr]]; [left; exists n; auto|left; exists m; split; [now right|exact Hr]|auto].
          -- intros [(m & [[= -> <-]|Hi] & S1 & N1 & ->)|Hr]; [now left|right; left; eauto|auto].
        * rewrite M2. split.
          -- intros [(m & Hi & Hr)|Hr]; [left; exists m; split; [now right|exact Hr]|auto].
          -- intros [(m & [[= -> <-]|Hi] & S1 & N1 & ->)|Hr]; [congruence|left; eauto 6|auto]. }
  destruct (G _ _ _ _ E) as (hs & H & M). rewrite H. cbn [rbind]. exists ((r, parts) :: hs). split; [reflexivity|].
  intros k a. rewrite M. unfold entry. split.
  - intros [(n & Hi & S1 & N1 & ->)|(y & p & n & Hi & Hr)].
    + exists r, parts, n. split; [now left|]. split; [|reflexivity]. now apply (node_attr_in w r o).
    + exists y, p, n. split; [now right|exact Hr].
  - intros (y & p & n & [[= <- <-]|Hi] & Hna & K); [left|right; eauto 6].
    apply (node_attr_in w r o) in Hna as (Hi & S1 & N1); auto. eauto.
Qed.

(** *** the homes of an edited world *)
Lemma submods_edit w w' x o o' : wf_world w -> wf_world w' -> get_obj w x = Some o -> get_obj w' x = Some o' ->
  (forall n c, dget n (m_vars o') = Some (ARaw (PyMod c)) <-> dget n (m_vars o) = Some (ARaw (PyMod c))) ->
  submods (sort_by_key (m_vars o')) = submods (sort_by_key (m_vars o)).
Proof.
  intros Hw Hw' Ho Ho' H. pose proof (wfo_names _ _ (wf_objs _ Hw _ _ Ho)) as N. pose proof (wfo_names _ _ (wf_objs _ Hw' _ _ Ho')) as N'.
  pose proof (submods_sorted _ (sort_strict _ N)) as S1. pose proof (submods_sorted _ (sort_strict _ N')) as S2.
  assert (I : forall n c, In (n, c) (submods (sort_by_key (m_vars o'))) <-> In (n, c) (submods (sort_by_key (m_vars o)))).
  { intros n c. rewrite !submods_dget by (apply NoDup_keys_sort; assumption). rewrite !dget_sort by assumption. apply H. }
  pose proof (sorted_sync eq _ _ S2 S1) as F. 
  assert (Forall2 (fun a b => fst a = fst b /\ snd a = snd b) (submods (sort_by_key (m_vars o'))) (submods (sort_by_key (m_vars o)))).
  { apply F; [intros n c Hc; exists c; split; [now apply I|reflexivity]|intros n c Hc; exists c; now apply I]. }
  clear -H0. induction H0 as [|[] [] ? ? [E1 E2] ? IH]; [reflexivity|]. cbn in *. now subst.
Qed.

Lemma homes_edit w w' x : wf_world w -> wf_world w' -> edited w w' x -> forall fuel r seen parts,
  homes_rec fuel w' r seen parts = homes_rec fuel w r seen parts.
Proof.
  intros Hw Hw' (_ & _ & Hy & o & o' & Ho & Ho' & Ec & Ei & En & Hs) fuel. induction fuel as [|fuel IH]; intros r seen parts; [reflexivity|].
  cbn [homes_rec]. assert (F : forall l seen, homes_fields (homes_rec fuel w') l seen parts = homes_fields (homes_rec fuel w) l seen parts).
  { intros l. induction l as [|[n c] l IHl]; intros s; [reflexivity|]. cbn [homes_fields]. rewrite IH. destruct (homes_rec fuel w c s (parts ++ [n])) as [[xs s1]|]; [|reflexivity].
    cbn [rbind]. now rewrite IHl. }
  destruct (Nat.eq_dec r x) as [->|Hne].
  - rewrite Ho, Ho', Ei. destruct (nmem (m_id o) seen); [reflexivity|]. rewrite F. now rewrite (submods_edit w w' x o o').
  - rewrite Hy by assumption. destruct (get_obj w r) as [q|]; [|reflexivity]. destruct (nmem (m_id q) seen); [reflexivity|]. now rewrite F.
Qed.

(** *** the homes are paths, one for each reachable Module *)
Lemma homes_follow w : wf_world w -> forall fuel r seen parts hs s, homes_rec fuel w r seen parts = Ok (hs, s) ->
  forall y p, In (y, p) hs -> exists q, p = parts ++ q /\ follow w r q = Some y.
Proof.
  intros Hw fuel. induction fuel as [|fuel IH]; intros r seen parts hs s E y p Hi; [discriminate|].
  cbn [homes_rec] in E. destruct (get_obj w r) as [o|] eqn:Ho; [|discriminate]. destruct (nmem (m_id o) seen); [injection E as <- <-; destruct Hi|].
  destruct (homes_fields _ _ _ parts) as [[xs s1]|] eqn:F; [|discriminate]. cbn [rbind] in E. injection E as <- <-.
  destruct Hi as [[= <- <-]|Hi]; [exists []; rewrite app_nil_r; split; [reflexivity|cbn; now rewrite Ho]|].
  assert (G : forall l seen xs s, homes_fields (homes_rec fuel w) l seen parts = Ok (xs, s) -> In (y, p) xs ->
    exists n c q, In (n, c) l /\ p = parts ++ n :: q /\ follow w c q = Some y).
  { clear -IH. intros l. induction l as [|[n c] l IHl]; intros seen xs s E Hi; cbn in E; [injection E as <- <-; destruct Hi|].
    destruct (homes_rec fuel w c seen (parts ++ [n])) as [[xs1 s1]|] eqn:E1; [|discriminate]. cbn [rbind] in E.
    destruct (homes_fields _ l s1 parts) as [[ys s2]|] eqn:E2; [|discriminate]. cbn [rbind] in E. injection E as <- <-.
    apply in_app_iff in Hi as [Hi|Hi].
    - destruct (IH _ _ _ _ _ E1 _ _ Hi) as (q & -> & Hq). exists n, c, q. rewrite <- app_assoc. split; [now left|]. auto.
    - destruct (IHl _ _ _ E2 Hi) as (m & c' & q & H1 & H2). exists m, c', q. split; [now right|exact H2]. }
  destruct (G _ _ _ _ F Hi) as (n & c & q & Hc & -> & Hq). exists (n :: q). split; [reflexivity|].
  pose proof (wfo_names _ _ (wf_objs _ Hw _ _ Ho)) as N. apply submods_dget in Hc; [|now apply NoDup_keys_sort]. rewrite dget_sort in Hc by assumption.
  rewrite follow_cons, Ho, Hc. exact Hq.
Qed.

Lemma homes_ids w : wf_world w -> forall fuel r seen parts hs s, homes_rec fuel w r seen parts = Ok (hs, s) ->
  s = seen ++ map (fun h => idof w (fst h)) hs /\ (NoDup seen -> NoDup s).
Proof.
  intros Hw fuel. induction fuel as [|fuel IH]; intros r seen parts hs s E; [discriminate|].
  cbn [homes_rec] in E. destruct (get_obj w r) as [o|] eqn:Ho; [|discriminate]. destruct (nmem (m_id o) seen) eqn:M.
  { injection E as <- <-. cbn. now rewrite app_nil_r. }
  destruct (homes_fields _ _ _ parts) as [[xs s1]|] eqn:F; [|discriminate]. cbn [rbind] in E. injection E as <- <-.
  assert (G : forall l seen xs s, homes_fields (homes_rec fuel w) l seen parts = Ok (xs, s) ->
    s = seen ++ map (fun h => idof w (fst h)) xs /\ (NoDup seen -> NoDup s)).
  { clear -IH. intros l. induction l as [|[n c] l IHl]; intros seen xs s E; cbn in E; [injection E as <- <-; cbn; now rewrite app_nil_r|].
    destruct (homes_rec fuel w c seen (parts ++ [n])) as [[xs1 s1]|] eqn:E1; [|discriminate]. cbn [rbind] in E.
    destruct (homes_fields _ l s1 parts) as [[ys s2]|] eqn:E2; [|discriminate]. cbn [rbind] in E. injection E as <- <-.
    destruct (IH _ _ _ _ _ E1) as [A1 A2]. destruct (IHl _ _ _ E2) as [B1 B2]. rewrite map_app, app_assoc, <- A1. auto. }
  destruct (G _ _ _ _ F) as [A1 A2]. cbn. rewrite (idof_get _ _ _ Ho). rewrite <- app_assoc in A1. split; [exact A1|].
  intros N. apply A2. apply NoDup_app_intro; auto; [repeat constructor; auto|]. intros z Hz [<-|[]]. apply nmem_false in M. auto.
Qed.

Lemma homes_closed w r hs s : wf_world w -> valid w r -> homes_rec (dfs_fuel w) w r [] [] = Ok (hs, s) ->
  forall y, reaches w r y -> exists p, In (y, p) hs.
Proof.
  intros Hw Hr H y Hy.
  assert (G : forall fuel r seen parts hs s, homes_rec fuel w r seen parts = Ok (hs, s) -> In (idof w r) s /\ incl seen s /\
     forall x p n c, In (x, p) hs -> child w x n c -> In (idof w c) s).
  { clear -Hw. intros fuel. induction fuel as [|fuel IH]; intros r seen parts hs s E; [discriminate|].
    pose proof (homes_ids w Hw _ _ _ _ _ _ E) as [I _].
    cbn [homes_rec] in E. destruct (get_obj w r) as [o|] eqn:Ho; [|discriminate]. destruct (nmem (m_id o) seen) eqn:M.
    { injection E as <- <-. split; [rewrite (idof_get _ _ _ Ho); now apply nmem_In|]. split; [apply incl_refl|]. intros ? ? ? ? []. }
    destruct (homes_fields _ _ _ parts) as [[xs s1]|] eqn:F; [|discriminate]. cbn [rbind] in E. injection E as <- <-.
    assert (G : forall l seen xs s, homes_fields (homes_rec fuel w) l seen parts = Ok (xs, s) -> incl seen s /\
      (forall n c, In (n, c) l -> In (idof w c) s) /\ forall x p n c, In (x, p) xs -> child w x n c -> In (idof w c) s).
    { clear -IH. intros l. induction l as [|[n c] l IHl]; intros seen xs s E; cbn in E; [injection E as <- <-; split; [apply incl_refl|]; split; [intros ? ? []|intros ? ? ? ? []]|].
      destruct (homes_rec fuel w c seen (parts ++ [n])) as [[xs1 s1]|] eqn:E1; [|discriminate]. cbn [rbind] in E.
      destruct (homes_fields _ l s1 parts) as [[ys s2]|] eqn:E2; [|discriminate]. cbn [rbind] in E. injection E as <- <-.
      destruct (IH _ _ _ _ _ E1) as (A1 & A2 & A3). destruct (IHl _ _ _ E2) as (B1 & B2 & B3). split; [eapply incl_tran; eauto|]. split.
      - intros m d [[= <- <-]|Hi]; eauto.
      - intros x p m d Hi Hc. apply in_app_iff in Hi as [Hi|Hi]; eauto. }
    destruct (G _ _ _ _ F) as (A1 & A2 & A3). split; [|split].
    - rewrite (idof_get _ _ _ Ho). apply A1. apply in_or_app. right. now left.
    - intros z Hz. apply A1. apply in_or_app. now left.
    - intros x p n c [[= <- <-]|Hi] Hc; [|eauto]. destruct Hc as (o1 & Ho1 & Hd). assert (o1 = o) by congruence. subst o1.
      apply (A2 n). pose proof (wfo_names _ _ (wf_objs _ Hw _ _ Ho)) as N. apply submods_dget; [now apply NoDup_keys_sort|]. now rewrite dget_sort. }
  destruct (G _ _ _ _ _ _ H) as (A1 & _ & A3). pose proof (homes_ids w Hw _ _ _ _ _ _ H) as [I _]. cbn in I.
  assert (K : forall x, valid w x -> In (idof w x) s -> exists p, In (x, p) hs).
  { intros x Hx Hi. rewrite I in Hi. apply in_map_iff in Hi as ([z p] & E & Hz). cbn in E. exists p.
    destruct (homes_follow w Hw _ _ _ _ _ _ H _ _ Hz) as (q & _ & Hq). apply idof_inj in E; auto; [now subst|].
    destruct (reaches_valid w r z (ex_intro _ q Hq)) as [oz Hoz]. eapply get_obj_lt; eauto. }
  destruct Hy as [q Hq]. revert y Hq. induction q as [|n q IH] using rev_ind; intros y Hq.
  - cbn in Hq. destruct (get_obj w r); [|discriminate]. injection Hq as <-. now apply K.
  - rewrite follow_app in Hq. destruct (follow w r q) as [z|] eqn:E; [|discriminate]. destruct (IH z eq_refl) as [p Hp].
    apply follow_cons_child in Hq as (y' & Hc & Hy'). assert (y' = y).
    { cbn in Hy'. destruct (get_obj w y'); [congruence|discriminate]. }
    subst y'. apply K; [|eapply A3; eauto]. destruct Hc as (oz & Hoz & Hd). exact (wfo_refs _ _ (wf_objs _ Hw _ _ Hoz) _ _ Hd).
Qed.

Lemma homes_unique w r hs s : wf_world w -> homes_rec (dfs_fuel w) w r [] [] = Ok (hs, s) ->
  forall y p q, In (y, p) hs -> In (y, q) hs -> p = q.
Proof.
  intros Hw H. pose proof (homes_ids w Hw _ _ _ _ _ _ H) as [I N]. specialize (N (NoDup_nil _)). cbn in I. subst s. clear H.
  induction hs as [|[z u] hs IH]; intros y p q Hp Hq; [destruct Hp|]. cbn in N. inversion N as [|? ? N1 N2]; subst.
  destruct Hp as [E1|Hp], Hq as [E2|Hq].
  - congruence.
  - exfalso. apply N1. apply in_map_iff. exists (y, q). split; [cbn; congruence|exact Hq].
  - exfalso. apply N1. apply in_map_iff. exists (y, p). split; [cbn; congruence|exact Hp].
  - eauto.
Qed.

(** *** get_state by homes *)
Lemma get_state_homes w r : wf_world w -> valid w r -> names_ok w r ->
  exists hs s st, homes_rec (dfs_fuel w) w r [] [] = Ok (hs, s) /\ get_state w r = Ok st /\
    forall k a, dget k st = Some a <-> entry w hs k a.
Proof.
  intros Hw Hr Hn. destruct (graph_exists w r Hw Hr) as (d & L & Hg). destruct (iter_state_graph w r d L Hw Hr Hg) as (E & H1 & H2 & H3).
  destruct (items_keys w r d L E Hw Hr Hg Hn H1 H2) as [_ ND]. unfold iter_state in H3.
  destruct (iter_state_rec (dfs_fuel w) w r [] []) as [[xs s]|] eqn:I; [|discriminate]. cbn [rbind] in H3. injection H3 as ->.
  destruct (iter_homes w Hw _ _ _ _ _ _ I) as (hs & Hh & M). exists hs, s, (mk_state (map (i_kv []) E)). split; [exact Hh|].
  unfold get_state, iter_state. rewrite I. cbn [rbind]. split; [reflexivity|]. intros k a. rewrite dget_mk_state by assumption. rewrite <- M.
  split; [apply dget_In|now apply In_dget].
Qed.

Lemma edit_follow w w' x : edited w w' x -> forall p r, follow w' r p = follow w r p.
Proof.
  intros (_ & _ & Hy & o & o' & Ho & Ho' & _ & _ & _ & Hs) p. induction p as [|n p IH]; intros r.
  - cbn. destruct (Nat.eq_dec r x) as [->|Hne]; [now rewrite Ho, Ho'|now rewrite Hy].
  - rewrite !follow_cons. destruct (Nat.eq_dec r x) as [->|Hne]; [|rewrite Hy by assumption; destruct (get_obj w r) as [q|]; [|reflexivity]; destruct (dget n (m_vars q)) as [[[]|]|]; auto].
    rewrite Ho, Ho'. destruct (dget n (m_vars o')) as [[[| | | | |c|]|]|] eqn:E'; destruct (dget n (m_vars o)) as [[[| | | | |c2|]|]|] eqn:E; try reflexivity;
      try (apply Hs in E'; congruence); try (apply Hs in E; congruence).
Qed.

Theorem edit_state w r x : wf_world w -> valid w r -> names_ok w r -> reaches w r x ->
  exists p, follow w r p = Some x /\
    forall w', edited w w' x -> wf_world w' -> names_ok w' r -> exists s s', get_state w r = Ok s /\ get_state w' r = Ok s' /\
      (forall n a, has_char "/" n = false -> (dget (join_path (p ++ [n])) s' = Some a <-> node_attr w' x n a)) /\
      (forall k, (forall n, has_char "/" n = false -> k <> join_path (p ++ [n])) -> dget k s' = dget k s).
Proof.
  intros Hw Hr Hn Hx. destruct (get_state_homes w r Hw Hr Hn) as (hs & sn & s & H & G & D).
  destruct (homes_closed w r hs sn Hw Hr H x Hx) as [p Hp]. exists p.
  destruct (homes_follow w Hw _ _ _ _ _ _ H _ _ Hp) as (p' & E & Hf). cbn in E. subst p'. split; [exact Hf|].
  intros w' He Hw' Hn'. assert (Hr' : valid w' r). { unfold valid. destruct He as (_ & -> & _). exact Hr. }
  destruct (get_state_homes w' r Hw' Hr' Hn') as (hs' & sn' & s' & H' & G' & D'). exists s, s'. split; [exact G|]. split; [exact G'|].
  assert (hs' = hs). { rewrite (homes_edit w w' x Hw Hw' He) in H'. unfold dfs_fuel in *. destruct He as (_ & L & _). rewrite L in H'. congruence. }
  subst hs'. clear H'.
  assert (SL : forall q y, follow w r q = Some y -> Forall no_slash q) by (intros q y Hq; exact (names_no_slash w r q y Hn Hq)).
  assert (Inj : forall y q m n a, In (y, q) hs -> node_attr w' y m a -> has_char "/" n = false -> join_path (p ++ [n]) = join_path (q ++ [m]) -> y = x /\ m = n).
  { intros y q m n a Hq Hna Sn K. destruct (homes_follow w Hw _ _ _ _ _ _ H _ _ Hq) as (q' & E & Hfq). cbn in E. subst q'.
    assert (Sm : has_char "/" m = false). { pose proof Hna as (oy & Hoy & Hd & _). refine (proj1 (proj2 (Hn' y oy m a _ Hoy Hd)) Hna). exists q. now rewrite (edit_follow w w' x He). }
    apply join_inj in K.
    - apply app_inj_tail in K as [-> ->]. split; [congruence|reflexivity].
    - destruct p; discriminate.
    - destruct q; discriminate.
    - apply Forall_app. split; [eapply SL; eauto|]. constructor; [exact Sn|constructor].
    - apply Forall_app. split; [eapply SL; eauto|]. constructor; [exact Sm|constructor]. }
  split.
  - intros n a Sn. rewrite D'. split.
    + intros (y & q & m & Hq & Hna & K). destruct (Inj y q m n a Hq Hna Sn K) as [-> ->]. exact Hna.
    + intros Hna. exists x, p, n. auto.
  - intros k Hk. assert (Eq : forall a, dget k s' = Some a <-> dget k s = Some a).
    { intros a. rewrite D, D'. split.
      - intros (y & q & m & Hq & Hna & K). destruct (Nat.eq_dec y x) as [->|Hne].
        + exfalso. rewrite (homes_unique w r hs sn Hw H x q p Hq Hp) in K. apply (Hk m); [|exact K].
          pose proof Hna as (oy & Hoy & Hd & _). refine (proj1 (proj2 (Hn' x oy m a _ Hoy Hd)) Hna). exists p. now rewrite (edit_follow w w' x He).
        + exists y, q, m. split; [exact Hq|]. split; [|exact K]. destruct Hna as (oy & Hoy & Hd & Hs & t & T1 & T2). destruct He as (En & _ & Hy & _).
          exists oy. rewrite <- Hy, <- En by assumption. eauto 6.
      - intros (y & q & m & Hq & Hna & K). destruct (Nat.eq_dec y x) as [->|Hne].
        + exfalso. rewrite (homes_unique w r hs sn Hw H x q p Hq Hp) in K. apply (Hk m); [|exact K].
          pose proof Hna as (oy & Hoy & Hd & _). refine (proj1 (proj2 (Hn x oy m a Hx Hoy Hd)) Hna).
        + exists y, q, m. split; [exact Hq|]. split; [|exact K]. destruct Hna as (oy & Hoy & Hd & Hs & t & T1 & T2). destruct He as (En & _ & Hy & _).
          exists oy. rewrite Hy, En by assumption. eauto 6. }
    destruct (dget k s') as [a|]; [symmetry; now apply Eq|]. destruct (dget k s) as [a|]; [|reflexivity]. now apply Eq.
Qed.

(** *** the definition *)
Lemma is_node_false nodes a : is_node nodes a = false <-> (forall t, In t nodes -> ~ In t (cls_of_attr a)).
Proof.
  unfold is_node. split.
  - intros H t Ht Hi. assert (E : existsb (isinstance a) nodes = true) by (apply existsb_exists; exists t; split; [exact Ht|now apply smem_In]). congruence.
  - intros H. destruct (existsb (isinstance a) nodes) eqn:E; [|reflexivity]. apply existsb_exists in E as (t & Ht & Hi). apply smem_In in Hi. exfalso. exact (H t Ht Hi).
Qed.
Fixpoint def_fields (rec : nat -> list nat -> result (mdef * list nat)) (l : list (string * nat)) (mi : list nat)
  : result (list (string * mdef) * list nat) :=
  match l with
  | [] => Ok ([], mi)
  | (name, r) :: t =>
      do (d, mi1) <- rec r mi;
      do (subs, mi2) <- def_fields rec t mi1;
      Ok ((name, d) :: subs, mi2)
  end.
Lemma make_fields_split rec nt l : forall mi, make_fields rec nt l mi =
  rmap (fun x => (fst x, statics nt l, snd x)) (def_fields rec (submods l) mi).
Proof.
  induction l as [|[n a] l IH]; intros mi; [reflexivity|]. cbn [make_fields]. destruct (is_submodule a) eqn:B.
  - destruct a as [[]|]; try discriminate. cbn [submods def_fields statics is_submodule negb andb]. destruct (rec r mi) as [[d mi1]|]; [|reflexivity]. cbn [rbind].
    rewrite IH. destruct (def_fields rec (submods l) mi1) as [[subs mi2]|]; reflexivity.
  - rewrite submods_nonsub by assumption.
    transitivity (do (subs, st, mi2) <- make_fields rec nt l mi;
          (if negb (is_node nt a) && negb (starts_with "_module__" n) then Ok (subs, (n, a) :: st, mi2) else Ok (subs, st, mi2))).
    { destruct a as [[]|]; try discriminate; reflexivity. }
    rewrite IH. cbn [statics]. rewrite B. cbn [negb andb]. destruct (def_fields rec (submods l) mi) as [[subs mi2]|]; [|reflexivity]. cbn.
    destruct (negb (is_node nt a) && negb (starts_with "_module__" n)); reflexivity.
Qed.

Lemma def_edit w w' x : wf_world w -> wf_world w' -> edited w w' x ->
  (forall n a, static_attr w' x n a <-> static_attr w x n a) ->
  forall fuel r mi, make_def fuel w' r mi = make_def fuel w r mi.
Proof.
  intros Hw Hw' (En & _ & Hy & o & o' & Ho & Ho' & Ec & Ei & Ein & Hs) St fuel.
  pose proof (wfo_names _ _ (wf_objs _ Hw _ _ Ho)) as N. pose proof (wfo_names _ _ (wf_objs _ Hw' _ _ Ho')) as N'.
  assert (Est : statics (w_nodes w) (sort_by_key (m_vars o')) = statics (w_nodes w) (sort_by_key (m_vars o))).
  { pose proof (statics_sorted (w_nodes w) _ (sort_strict _ N)) as S1. pose proof (statics_sorted (w_nodes w) _ (sort_strict _ N')) as S2.
    assert (SA : forall v q, get_obj v x = Some q -> w_nodes v = w_nodes w -> forall n a, static_attr v x n a <-> dget n (m_vars q) = Some a /\ is_submodule a = false /\ is_node (w_nodes w) a = false).
    { intros v q Hq Ev n a. unfold static_attr. rewrite Ev. split.
      - intros (q' & Hq' & Hd & B & T). assert (q' = q) by congruence. subst. split; [exact Hd|]. split; [exact B|]. now apply is_node_false.
      - intros (Hd & B & I). exists q. split; [exact Hq|]. split; [exact Hd|]. split; [exact B|]. now apply is_node_false. }
    assert (I : forall n a, In (n, a) (statics (w_nodes w) (sort_by_key (m_vars o'))) <-> In (n, a) (statics (w_nodes w) (sort_by_key (m_vars o)))).
    { intros n a. rewrite !statics_dget by (apply NoDup_keys_sort; assumption). rewrite !dget_sort by assumption.
      pose proof (SA w' o' Ho' En n a) as A1. pose proof (SA w o Ho eq_refl n a) as A2. pose proof (St n a) as A3. tauto. }
    assert (F : Forall2 (fun a b => fst a = fst b /\ snd a = snd b) (statics (w_nodes w) (sort_by_key (m_vars o'))) (statics (w_nodes w) (sort_by_key (m_vars o)))).
    { apply (sorted_sync eq _ _ S2 S1); [intros n c Hc; exists c; split; [now apply I|reflexivity]|intros n c Hc; exists c; now apply I]. }
    clear -F. induction F as [|[] [] ? ? [E1 E2] ? IH]; [reflexivity|]. cbn in *. now subst. }
  induction fuel as [|fuel IH]; intros r mi; [reflexivity|]. cbn [make_def].
  assert (F : forall l mi, def_fields (make_def fuel w') l mi = def_fields (make_def fuel w) l mi).
  { intros l. induction l as [|[n c] l IHl]; intros m; [reflexivity|]. cbn [def_fields]. rewrite IH. destruct (make_def fuel w c m) as [[d m1]|]; [|reflexivity].
    cbn [rbind]. now rewrite IHl. }
  destruct (Nat.eq_dec r x) as [->|Hne].
  - rewrite Ho, Ho', Ei, Ec, Ein, En. destruct (index_of (m_id o) mi); [reflexivity|]. rewrite !make_fields_split, F.
    rewrite (submods_edit w w' x o o') by assumption. now rewrite Est.
  - rewrite Hy by assumption. destruct (get_obj w r) as [q|]; [|reflexivity]. destruct (index_of (m_id q) mi); [reflexivity|].
    rewrite !make_fields_split, F, En. reflexivity.
Qed.
Theorem edit_def w w' x r : wf_world w -> wf_world w' -> edited w w' x ->
  (forall n a, static_attr w' x n a <-> static_attr w x n a) -> get_module_def w' r = get_module_def w r.
Proof.
  intros Hw Hw' He St. unfold get_module_def, dfs_fuel. destruct (He) as (_ & L & _). rewrite L. now rewrite (def_edit w w' x).
Qed.

(** *** assignment and deletion are such edits *)
Lemma put_edited w x o d : get_obj w x = Some o ->
  (forall n c, dget n d = Some (ARaw (PyMod c)) <-> dget n (m_vars o) = Some (ARaw (PyMod c))) -> edited w (put_obj w x (set_vars o d)) x.
Proof.
  intros Ho H. split; [reflexivity|]. split; [cbn; apply list_set_length|]. split; [intros y Hy; apply get_put_other; congruence|].
  exists o, (set_vars o d). split; [exact Ho|]. split; [eapply get_put_same; eauto|]. repeat split; apply H.
Qed.
Lemma edited_names w w' x r n : edited w w' x -> names_ok w r -> has_char "/" n = false -> starts_with "_module__" n = false ->
  (forall m a, m <> n -> has_attr w' x m a -> has_attr w x m a) -> names_ok w' r.
Proof.
  intros He Hn S1 S2 Hm y oy m a [p Hy] Hoy Hd. rewrite (edit_follow w w' x He) in Hy. pose proof He as (En & _ & Hother & o & o' & Ho & Ho' & _ & _ & _ & Hs).
  destruct (Nat.eq_dec y x) as [->|Hne].
  - destruct (string_dec m n) as [->|Hmn]; [auto|]. destruct (Hm m a Hmn (ex_intro _ oy (conj Hoy Hd))) as (o1 & Ho1 & Hd1).
    destruct (Hn x o1 m a (ex_intro _ p Hy) Ho1 Hd1) as (A1 & A2 & A3). split; [exact A1|]. unfold node_attr, static_attr in *. rewrite En. split.
    + intros (q & _ & _ & R). apply A2. exists o1. auto.
    + intros (q & _ & _ & R). apply A3. exists o1. auto.
  - rewrite Hother in Hoy by assumption. destruct (Hn y oy m a (ex_intro _ p Hy) Hoy Hd) as (A1 & A2 & A3). unfold node_attr, static_attr in *.
    rewrite Hother, En by assumption. auto.
Qed.

Lemma setattr_edited w x n a w' : setattr w x n a = Ok w' -> is_submodule a = false -> (forall c, ~ has_attr w x n (ARaw (PyMod c))) ->
  edited w w' x /\ (exists b, has_attr w' x n b /\ is_submodule b = false) /\ forall m b, m <> n -> (has_attr w' x m b <-> has_attr w x m b).
Proof.
  intros H Ha Hold. apply setattr_inv in H as (o & a' & Ho & Ht & Hne & Has & ->). assert (Ha' : is_submodule a' = false) by (eapply assign_not_sub; eauto).
  split; [|split].
  - apply put_edited; [exact Ho|]. intros m c. rewrite dget_dset. destruct (String.eqb_spec m n) as [->|Hm]; [|reflexivity]. split.
    + intros [= ->]. discriminate.
    + intros Hd. exfalso. apply (Hold c). exists o. auto.
  - exists a'. split; [|exact Ha']. eexists. split; [eapply get_put_same; eauto|]. cbn. rewrite dget_dset, String.eqb_refl. reflexivity.
  - intros m b Hm. unfold has_attr. rewrite (get_put_same w x _ o) by assumption. split.
    + intros (q & [= <-] & Hd). cbn in Hd. rewrite dget_dset in Hd. destruct (String.eqb_spec m n); [contradiction|]. eauto.
    + intros (q & Hq & Hd). assert (q = o) by congruence. subst. eexists. split; [reflexivity|]. cbn. rewrite dget_dset. destruct (String.eqb_spec m n); [contradiction|]. exact Hd.
Qed.
Lemma delattr_edited w x n w' : wf_world w -> delattr w x n = Ok w' -> (forall c, ~ has_attr w x n (ARaw (PyMod c))) ->
  edited w w' x /\ (forall b, ~ has_attr w' x n b) /\ forall m b, m <> n -> (has_attr w' x m b <-> has_attr w x m b).
Proof.
  intros Hw H Hold. apply delattr_inv in H as (o & Ho & Hi & ->). pose proof (wfo_names _ _ (wf_objs _ Hw _ _ Ho)) as N. split; [|split].
  - apply put_edited; [exact Ho|]. intros m c. destruct (string_dec m n) as [->|Hm]; [|now rewrite dget_ddel_other]. rewrite dget_ddel_same by assumption. split; [discriminate|].
    intros Hd. exfalso. apply (Hold c). exists o. auto.
  - intros b (q & Hq & Hd). rewrite (get_put_same w x _ o) in Hq by assumption. injection Hq as <-. cbn in Hd. rewrite dget_ddel_same in Hd by assumption. discriminate.
  - intros m b Hm. unfold has_attr. rewrite (get_put_same w x _ o) by assumption. split.
    + intros (q & [= <-] & Hd). cbn in Hd. rewrite dget_ddel_other in Hd by assumption. eauto.
    + intros (q & Hq & Hd). assert (q = o) by congruence. subst. eexists. split; [reflexivity|]. cbn. now rewrite dget_ddel_other.
Qed.
