(** Building a module from any definition. *)
From Coq Require Import Permutation Sorted.
From Verif Require Import PyBase PyBaseFacts ValuesM Spec_Eq StateM Spec_State State_proofs ModuleM Spec_Module Spec_History Graph_facts Dfs_proofs Build_proofs Mdef_proofs History_proofs Spec_AnyDef.
Local Open Scope string_scope.
Local Open Scope list_scope.

(** ** Reading the tokens *)
Fixpoint first_bad (seen : list nat) (l : list token) : option exn :=
  match l with
  | [] => None
  | Defines i :: t => if nmem i seen then Some AssertionError else first_bad (i :: seen) t
  | Refers i :: t => if nmem i seen then first_bad seen t else Some KeyError
  end.
Lemma numbers_app l m : numbers (l ++ m) = numbers l ++ numbers m.
Proof. induction l as [|[i|i] l IH]; cbn; auto. now rewrite IH. Qed.
Lemma first_bad_app l : forall m seen,
  first_bad seen (l ++ m) = match first_bad seen l with Some e => Some e | None => first_bad (rev (numbers l) ++ seen) m end.
Proof.
  induction l as [|[i|i] l IH]; intros m seen; cbn [app first_bad numbers]; [reflexivity| |].
  - destruct (nmem i seen); [reflexivity|]. rewrite IH. cbn [rev]. now rewrite <- app_assoc.
  - destruct (nmem i seen); [apply IH|reflexivity].
Qed.
Lemma first_bad_none l : forall seen, NoDup seen ->
  (first_bad seen l = None <-> NoDup (rev (numbers l) ++ seen) /\
     forall before i after, l = before ++ Refers i :: after -> In (Defines i) before \/ In i seen).
Proof.
  induction l as [|[i|i] l IH]; intros seen N; cbn [first_bad numbers rev].
  - split; [|reflexivity]. intros _. split; [exact N|]. intros [|] ? ? H; discriminate.
  - destruct (nmem i seen) eqn:E.
    + split; [discriminate|]. intros [H _]. exfalso. apply nmem_In in E. rewrite <- app_assoc in H. cbn in H. apply NoDup_remove_2 in H.
      apply H. apply in_or_app. auto.
    + apply nmem_false in E. rewrite IH by (constructor; auto). rewrite <- app_assoc. cbn [app]. split.
      * intros [H1 H2]. split; [exact H1|]. intros [|b before] j after Hl; [discriminate|]. injection Hl as <- Hl.
        destruct (H2 _ _ _ Hl) as [H|[<-|H]]; [left; now right|left; now left|now right].
      * intros [H1 H2]. split; [exact H1|]. intros before j after Hl. destruct (H2 (Defines i :: before) j after) as [[H|H]|H]; [cbn; congruence| | |].
        { injection H as <-. right. now left. } { now left. } right. now right.
  - destruct (nmem i seen) eqn:E.
    + apply nmem_In in E. rewrite IH by exact N. split; intros [H1 H2]; (split; [exact H1|]).
      * intros [|b before] j after Hl; [injection Hl as <- _; now right|]. injection Hl as <- Hl. destruct (H2 _ _ _ Hl); [left; now right|now right].
      * intros before j after Hl. destruct (H2 (Refers i :: before) j after) as [[H|H]|H]; [cbn; congruence|discriminate|now left|now right].
    + split; [discriminate|]. intros [_ H]. exfalso. apply nmem_false in E. destruct (H [] i l eq_refl) as [[]|H']. contradiction.
Qed.
Lemma well_numbered_iff d : well_numbered d <-> first_bad [] (tokens d) = None.
Proof.
  rewrite first_bad_none by constructor. rewrite app_nil_r. unfold well_numbered, well_read. split; intros [H1 H2]; split.
  - now apply NoDup_rev.
  - intros b i a H. left. eauto.
  - rewrite <- (rev_involutive (numbers _)). now apply NoDup_rev.
  - intros b i a H. destruct (H2 _ _ _ H) as [|[]]; auto.
Qed.

Lemma In_numbers i l : In i (numbers l) <-> In (Defines i) l.
Proof. induction l as [|[j|j] l IH]; cbn; [tauto| |]; rewrite IH; intuition congruence. Qed.
Lemma well_read_iff l : well_read l <-> first_bad [] l = None.
Proof.
  rewrite first_bad_none by constructor. rewrite app_nil_r. unfold well_read. split; intros [H1 H2]; split.
  - now apply NoDup_rev.
  - intros b i a H. left. eauto.
  - rewrite <- (rev_involutive (numbers _)). now apply NoDup_rev.
  - intros b i a H. destruct (H2 _ _ _ H) as [|[]]; auto.
Qed.
Lemma stops_at_iff l e : stops_at l e <-> first_bad [] l = Some e.
Proof.
  split.
  - intros [before i after -> H N|before i after -> H N]; apply well_read_iff in H; rewrite first_bad_app, H, app_nil_r; cbn [first_bad].
    + assert (nmem i (rev (numbers before)) = false) as ->; [|reflexivity]. apply nmem_false. rewrite <- in_rev, In_numbers. exact N.
    + assert (nmem i (rev (numbers before)) = true) as ->; [|reflexivity]. apply nmem_In. rewrite <- in_rev, In_numbers. exact N.
  - assert (G : forall l before, first_bad [] before = None -> first_bad (rev (numbers before)) l = Some e -> stops_at (before ++ l) e).
    { clear. induction l as [|t l IH]; intros before B H; [discriminate|].
      assert (Q : first_bad (rev (numbers before)) [t] = None -> stops_at (before ++ t :: l) e).
      { intros Ht. change (t :: l) with ([t] ++ l). rewrite app_assoc. apply IH.
        - now rewrite first_bad_app, B, app_nil_r.
        - change (t :: l) with ([t] ++ l) in H. rewrite first_bad_app, Ht in H. now rewrite numbers_app, rev_app_distr. }
      cbn [first_bad] in *. destruct t as [i|i]; destruct (nmem i (rev (numbers before))) eqn:E.
      - injection H as <-. apply nmem_In in E. rewrite <- in_rev, In_numbers in E. eapply stops_again; [reflexivity|now apply well_read_iff|exact E].
      - now apply Q.
      - now apply Q.
      - injection H as <-. apply nmem_false in E. rewrite <- in_rev, In_numbers in E. eapply stops_unknown; [reflexivity|now apply well_read_iff|exact E]. }
    apply (G l []). reflexivity.
Qed.

(** ** Building *)
Lemma im_get_In i im a : NoDup (map fst im) -> (im_get i im = Some a <-> In (i, a) im).
Proof.
  induction im as [|[j b] im IH]; intros N; cbn; [split; [discriminate|tauto]|]. inversion N as [|? ? H1 H2]; subst. destruct (Nat.eqb_spec i j) as [->|].
  - split; [intros [= ->]; auto|]. intros [[= ->]|H]; [reflexivity|]. exfalso. apply H1. apply (in_map fst) in H. exact H.
  - rewrite IH by exact H2. split; [auto|]. intros [[= -> ->]|H]; [congruence|exact H].
Qed.
Lemma im_get_none i im : im_get i im = None <-> ~ In i (map fst im).
Proof.
  induction im as [|[j b] im IH]; cbn; [tauto|]. destruct (Nat.eqb_spec i j) as [->|]; [split; [discriminate|tauto]|]. rewrite IH. intuition congruence.
Qed.
Lemma im_get_app new im i a : NoDup (map fst (new ++ im)) -> im_get i im = Some a -> im_get i (new ++ im) = Some a.
Proof.
  intros N H. apply im_get_In; [exact N|]. apply in_or_app. right. apply im_get_In; [|exact H]. rewrite map_app in N. clear -N. induction (map fst new); cbn in N; [exact N|]. inversion N; auto.
Qed.
Lemma nmem_im i im : nmem i (map fst im) = match im_get i im with Some _ => true | None => false end.
Proof.
  induction im as [|[j b] im IH]; cbn; [reflexivity|]. unfold nmem in *. cbn. destruct (Nat.eqb i j); [reflexivity|exact IH].
Qed.
Definition addr (im : list (nat * nat)) (i : nat) : nat := match im_get i im with Some a => a | None => 0 end.
Definition link (im : list (nat * nat)) (ne : string * mdef) : string * attr := (fst ne, ARaw (PyMod (addr im (number (snd ne))))).

Definition sub_tokens (l : list (string * mdef)) : list token := flat_map (fun nd => tokens (snd nd)) l.
Definition sub_parts (l : list (string * mdef)) : list mdef := flat_map (fun nd => parts (snd nd)) l.
Definition made (w : world) (im : list (nat * nat)) (p : mdef) : Prop :=
  match p with
  | MRef _ => True
  | MDef c i subs st ini => exists a o, im_get i im = Some a /\ get_obj w a = Some o /\ m_cls o = c /\ m_init o = ini /\ m_trace o = w_trace w /\
      m_vars o = dupdate (dupdate [] st) (dict_of (map (link im) subs)) /\ Forall (fun ne => im_get (number (snd ne)) im <> None) subs
  end.
Record step (ts : list token) (ps : list mdef) (im : list (nat * nat)) (w : world) (im' : list (nat * nat)) (w' : world) : Prop := {
  st_good : first_bad (map fst im) ts = None;
  st_im : exists new, im' = new ++ im /\ map fst new = rev (numbers ts) /\ NoDup (map snd new) /\
            Forall (fun ia => List.length (w_heap w) <= snd ia < List.length (w_heap w')) new;
  st_len : List.length (w_heap w') = List.length (w_heap w) + List.length (numbers ts);
  st_old : forall x, x < List.length (w_heap w) -> get_obj w' x = get_obj w x;
  st_trace : w_trace w' = w_trace w;
  st_nodes : w_nodes w' = w_nodes w;
  st_made : forall p, In p ps -> made w' im' p
}.
Lemma step_nodup ts ps im w im' w' : NoDup (map fst im) -> step ts ps im w im' w' -> NoDup (map fst im').
Proof.
  intros N S. destruct (st_im _ _ _ _ _ _ S) as (new & -> & E & _). rewrite map_app, E. apply first_bad_none; [exact N|apply S].
Qed.
Lemma step_get ts ps im w im' w' i a : NoDup (map fst im) -> step ts ps im w im' w' -> im_get i im = Some a -> im_get i im' = Some a.
Proof.
  intros N S H. pose proof (step_nodup _ _ _ _ _ _ N S) as N'. destruct (st_im _ _ _ _ _ _ S) as (new & -> & _). now apply im_get_app.
Qed.
Lemma step_addr ts ps im w im' w' i : NoDup (map fst im) -> step ts ps im w im' w' -> im_get i im <> None -> addr im' i = addr im i /\ im_get i im' <> None.
Proof.
  intros N S H. unfold addr. destruct (im_get i im) as [a|] eqn:E; [|congruence]. rewrite (step_get _ _ _ _ _ _ _ _ N S E). split; [reflexivity|discriminate].
Qed.
Lemma step_app ts ps im w im1 w1 ts2 ps2 im2 w2 :
  NoDup (map fst im) -> (forall i a, In (i, a) im -> a < List.length (w_heap w)) ->
  step ts ps im w im1 w1 -> step ts2 ps2 im1 w1 im2 w2 -> step (ts ++ ts2) (ps ++ ps2) im w im2 w2.
Proof.
  intros N V S1 S2. pose proof (step_nodup _ _ _ _ _ _ N S1) as N1. destruct (st_im _ _ _ _ _ _ S1) as (n1 & E1 & F1 & D1 & A1), (st_im _ _ _ _ _ _ S2) as (n2 & E2 & F2 & D2 & A2).
  pose proof (st_len _ _ _ _ _ _ S1). pose proof (st_len _ _ _ _ _ _ S2). constructor.
  - rewrite first_bad_app, (st_good _ _ _ _ _ _ S1). rewrite <- F1, <- map_app, <- E1. apply S2.
  - exists (n2 ++ n1). rewrite <- app_assoc, <- E1. split; [exact E2|]. split; [rewrite map_app, F1, F2, numbers_app, rev_app_distr; reflexivity|]. split.
    + rewrite map_app. apply NoDup_app_intro; auto. intros a Ha Hb. apply in_map_iff in Ha as ([i a'] & <- & Ha), Hb as ([j b] & E & Hb). cbn in E. subst b.
      rewrite Forall_forall in A1, A2. specialize (A1 _ Hb). specialize (A2 _ Ha). cbn in *. lia.
    + apply Forall_app. split; (eapply Forall_impl; [|eassumption]); intros ia; cbn; lia.
  - rewrite numbers_app, app_length. lia.
  - intros x Hx. rewrite (st_old _ _ _ _ _ _ S2) by lia. now apply (st_old _ _ _ _ _ _ S1).
  - rewrite (st_trace _ _ _ _ _ _ S2). apply S1.
  - rewrite (st_nodes _ _ _ _ _ _ S2). apply S1.
  - intros p Hp. apply in_app_or in Hp as [Hp|Hp]; [|now apply (st_made _ _ _ _ _ _ S2)].
    pose proof (st_made _ _ _ _ _ _ S1 p Hp) as M. destruct p as [|c i subs st ini]; [exact Logic.I|].
    destruct M as (a & o & G & Ho & Hc & Hi & Ht & Hv & Hs). exists a, o. split; [eapply step_get; eauto|]. split.
    + rewrite (st_old _ _ _ _ _ _ S2); [exact Ho|]. apply get_obj_lt in Ho. exact Ho.
    + split; [exact Hc|]. split; [exact Hi|]. split; [rewrite Ht; symmetry; apply S2|]. split.
      * rewrite Hv. f_equal. f_equal. apply map_ext_Forall. eapply Forall_impl; [|exact Hs]. intros ne Hne. unfold link. now rewrite (proj1 (step_addr _ _ _ _ _ _ _ N1 S2 Hne)).
      * eapply Forall_impl; [|exact Hs]. intros ne Hne. eapply step_addr; eauto.
Qed.

Definition built_ok (d : mdef) (im : list (nat * nat)) (w : world) : Prop :=
  match build d im w with
  | Ok (r, im', w') => step (tokens d) (parts d) im w im' w' /\ im_get (number d) im' = Some r
  | Err e => first_bad (map fst im) (tokens d) = Some e
  end.
Lemma build_step d : forall im w, NoDup (map fst im) -> (forall i a, In (i, a) im -> a < List.length (w_heap w)) -> built_ok d im w.
Proof.
  induction d as [i|c i subs st ini IH] using mdef_rect'; intros im w N V; unfold built_ok.
  - cbn [build tokens first_bad number]. rewrite nmem_im. destruct (im_get i im) as [r|] eqn:E; [|reflexivity]. split; [|exact E].
    constructor; auto; [|exists []; repeat split; constructor|intros p []]. cbn [tokens first_bad]. now rewrite nmem_im, E.
  - rewrite build_MDef. cbn [tokens first_bad]. rewrite nmem_im. destruct (im_get i im) as [r|] eqn:E; [reflexivity|].
    set (r := List.length (w_heap w)). set (w0 := set_heap w (w_heap w ++ [mkMobj c 0 false (0, 0) []])).
    assert (L0 : List.length (w_heap w0) = S r) by (cbn; rewrite app_length; cbn; lia).
    assert (N0 : NoDup (map fst ((i, r) :: im))) by (cbn; constructor; [now apply im_get_none|exact N]).
    assert (V0 : forall j a, In (j, a) ((i, r) :: im) -> a < List.length (w_heap w0)).
    { intros j a [[= <- <-]|H]; [lia|]. apply V in H. fold r in H. lia. }
    assert (G : match build_subs subs ((i, r) :: im) w0 with
      | Ok (ds, im', w') => step (sub_tokens subs) (sub_parts subs) ((i, r) :: im) w0 im' w' /\ ds = map (link im') subs /\ Forall (fun ne => im_get (number (snd ne)) im' <> None) subs
      | Err e => first_bad (map fst ((i, r) :: im)) (sub_tokens subs) = Some e end).
    { clear E. revert N0 V0. generalize ((i, r) :: im) as im0. generalize w0 as v. clear w0 L0.
      induction IH as [|[n d] subs Hd _ IHs]; intros v im0 N0 V0.
      - cbn. split; [|split; constructor]. constructor; auto; [exists []; repeat split; constructor|intros p []].
      - cbn [build_subs sub_tokens sub_parts flat_map snd]. fold build_subs. cbn [snd] in Hd. specialize (Hd im0 v N0 V0). unfold built_ok in Hd.
        destruct (build d im0 v) as [[[r1 im1] v1]|e] eqn:E1; cbn [rbind]; [|rewrite first_bad_app, Hd; reflexivity]. destruct Hd as [S1 G1].
        assert (N1 := step_nodup _ _ _ _ _ _ N0 S1).
        assert (V1 : forall j a, In (j, a) im1 -> a < List.length (w_heap v1)).
        { intros j a H. destruct (st_im _ _ _ _ _ _ S1) as (new & -> & _ & _ & A). pose proof (st_len _ _ _ _ _ _ S1). apply in_app_or in H as [H|H].
          - rewrite Forall_forall in A. apply (A _ H). - apply V0 in H. lia. }
        specialize (IHs v1 im1 N1 V1). destruct (build_subs subs im1 v1) as [[[ds im2] v2]|e] eqn:E2; cbn [rbind].
        + destruct IHs as (S2 & -> & F2). split; [now apply (step_app _ _ _ _ im1 v1)|]. split.
          * cbn [map]. f_equal. unfold link. cbn [fst snd]. unfold addr. now rewrite (step_get _ _ _ _ _ _ _ _ N1 S2 G1).
          * constructor; [cbn [snd]; rewrite (step_get _ _ _ _ _ _ _ _ N1 S2 G1); discriminate|exact F2].
        + rewrite first_bad_app, (st_good _ _ _ _ _ _ S1). destruct (st_im _ _ _ _ _ _ S1) as (new & E & F & _). rewrite <- F, <- map_app, <- E. exact IHs. }
    fold (sub_tokens subs). destruct (build_subs subs ((i, r) :: im) w0) as [[[ds im2] w2]|e]; cbn [rbind]; [|exact G]. destruct G as (S & -> & F).
    pose proof (step_nodup _ _ _ _ _ _ N0 S) as N2. destruct (st_im _ _ _ _ _ _ S) as (new & E2 & F2 & D2 & A2).
    assert (Gi : im_get i im2 = Some r) by (eapply step_get; [exact N0|exact S|cbn; now rewrite Nat.eqb_refl]).
    pose proof (st_len _ _ _ _ _ _ S) as L2. rewrite L0 in L2. pose proof (st_trace _ _ _ _ _ _ S) as T2. cbn in T2.
    set (o := mkMobj c (Datatypes.S (w_uuid w2)) ini (w_trace w2) (dupdate (dupdate [] st) (dict_of (map (link im2) subs)))).
    set (w3 := mkWorld (list_set r o (w_heap w2)) (Datatypes.S (w_uuid w2)) (w_trace w2) (w_nodes w2)).
    assert (Go : get_obj w3 r = Some o) by (unfold get_obj; cbn; apply nth_list_set_same; lia).
    assert (Gn : forall x, x <> r -> get_obj w3 x = get_obj w2 x) by (intros x Hx; unfold get_obj; cbn; apply nth_list_set_other; congruence).
    split; [|exact Gi]. constructor.
    + cbn [tokens first_bad]. rewrite nmem_im, E. apply S.
    + exists (new ++ [(i, r)]). rewrite <- app_assoc. cbn [app]. split; [exact E2|]. split; [rewrite map_app, F2; reflexivity|]. split.
      * rewrite map_app. cbn. apply NoDup_app_intro; [exact D2|constructor; [tauto|constructor]|]. intros a Ha [<-|[]].
        apply in_map_iff in Ha as ([j b] & Eb & Hb). rewrite Forall_forall in A2. specialize (A2 _ Hb). cbn in *. lia.
      * cbn [w_heap w3]. rewrite list_set_length. apply Forall_app. split; [|constructor; [cbn; fold r; lia|constructor]].
        eapply Forall_impl; [|exact A2]. intros [j b]. cbn [snd]. fold r. lia.
    + cbn [w_heap w3]. rewrite list_set_length. fold r. cbn [tokens numbers List.length]. fold (sub_tokens subs). lia.
    + intros x Hx. fold r in Hx. rewrite Gn by lia. rewrite (st_old _ _ _ _ _ _ S) by lia. unfold get_obj. cbn. now apply nth_error_app1.
    + exact T2.
    + cbn. rewrite (st_nodes _ _ _ _ _ _ S). reflexivity.
    + intros p [<-|Hp].
      * cbn [made]. exists r, o. repeat (split; [auto; reflexivity|]). exact F.
      * pose proof (st_made _ _ _ _ _ _ S p Hp) as M. destruct p as [|c' j subs' st' ini']; [exact Logic.I|]. destruct M as (a & oa & Ga & Ho & M).
        exists a, oa. split; [exact Ga|]. split; [|exact M]. rewrite Gn; [exact Ho|]. intros ->.
        (* the number of a part is not that of the whole *)
        assert (Hj : In j (numbers (sub_tokens subs))).
        { clear -Hp. assert (Q : forall d, In (MDef c' j subs' st' ini') (parts d) -> In j (numbers (tokens d))).
          { induction d as [k|k i s t b IH] using mdef_rect'; cbn [parts tokens numbers]; [intros []|]. intros [[= -> -> -> -> ->]|H]; [now left|right].
            induction IH as [|[n e] l He _ IHl]; cbn in *; [exact H|]. rewrite numbers_app. apply in_app_or in H as [H|H]; apply in_or_app; auto. }
          unfold sub_parts, sub_tokens in *. induction subs as [|[n e] l IHl]; cbn in *; [exact Hp|]. rewrite numbers_app. apply in_app_or in Hp as [H|H]; apply in_or_app; auto. }
        rewrite E2 in Ga. apply im_get_In in Ga; [|now rewrite <- E2]. apply in_app_or in Ga as [Ga|[[= <-]|Ga]].
        -- rewrite Forall_forall in A2. specialize (A2 _ Ga). cbn [snd] in A2. rewrite L0 in A2. lia.
        -- rewrite E2, map_app, F2 in N2. cbn in N2. apply NoDup_remove_2 in N2. apply N2. apply in_or_app. left. now apply in_rev in Hj.
        -- apply V in Ga. fold r in Ga. lia.
Qed.

(** ** Merging *)
Lemma bound_rev {A} n (l : list (string * A)) : bound n l = dget n (rev l).
Proof.
  induction l as [|[m x] l IH]; cbn [bound rev]; [reflexivity|]. rewrite dget_app, <- IH. cbn. destruct (bound n l); [reflexivity|]. reflexivity.
Qed.
Lemma bound_link im n subs : bound n (map (link im) subs) = match bound n subs with Some e => Some (ARaw (PyMod (addr im (number e)))) | None => None end.
Proof. induction subs as [|[m e] subs IH]; cbn; [reflexivity|]. rewrite IH. destruct (bound n subs); [reflexivity|]. destruct (String.eqb n m); reflexivity. Qed.
Lemma made_realizes w im p : made w im p -> realizes w (addr im) p.
Proof.
  destruct p as [|c i subs st ini]; [auto|]. intros (a & o & Ga & Ho & Hc & Hi & Ht & Hv & _). exists o.
  assert (addr im i = a) as -> by (unfold addr; now rewrite Ga). repeat (split; [assumption|]). intros n.
  rewrite Hv, dget_dupdate by apply NoDup_keys_dict_of. unfold dict_of. rewrite !dget_dupdate_rev, <- !bound_rev, bound_link. cbn [dget].
  destruct (bound n subs); [reflexivity|]. destruct (bound n st); reflexivity.
Qed.

Lemma merge_nil w d : merge w d [] = do (r, _, w') <- build d [] w; Ok (r, w').
Proof. unfold merge, build_module. destruct (build d [] w) as [[[r im] w']|e]; reflexivity. Qed.
Lemma merge_any w d :
  match first_bad [] (tokens d) with
  | Some e => merge w d [] = Err e
  | None => exists m w' at_, merge w d [] = Ok (m, w') /\ merged w d at_ m w'
  end.
Proof.
  rewrite merge_nil. pose proof (build_step d [] w ltac:(constructor) ltac:(intros ? ? [])) as H. unfold built_ok in H.
  destruct (build d [] w) as [[[r im] w']|e]; cbn [rbind]; [|cbn [map] in H; now rewrite H]. destruct H as [S G].
  pose proof (st_good _ _ _ _ _ _ S) as S0. cbn [map] in S0. rewrite S0. exists r, w', (addr im). split; [reflexivity|].
  assert (N : NoDup (map fst im)) by (eapply (step_nodup _ _ []); [constructor|exact S]).
  destruct (st_im _ _ _ _ _ _ S) as (new & E & F & D & A). rewrite app_nil_r in E. subst new.
  assert (B : forall i, In i (numbers (tokens d)) <-> exists a, In (i, a) im).
  { intros i. rewrite (in_rev (numbers _)), <- F, in_map_iff. split; [intros ([j a] & <- & H); eauto|intros (a & H); exists (i, a); auto]. }
  assert (Q : forall i a, In (i, a) im -> addr im i = a) by (intros i a H; unfold addr; now rewrite (proj2 (im_get_In _ _ _ N) H)).
  constructor.
  - unfold addr. now rewrite G.
  - intros p Hp. apply made_realizes. now apply (st_made _ _ _ _ _ _ S).
  - intros i j Hi Hj E. apply B in Hi as (a & Hi), Hj as (b & Hj). rewrite (Q _ _ Hi), (Q _ _ Hj) in E. subst b.
    clear -D Hi Hj. induction im as [|[k c] im IH]; [destruct Hi|]. cbn in D. inversion D as [|? ? D1 D2]; subst.
    destruct Hi as [Ei|Hi], Hj as [Ej|Hj]; [congruence| | |auto]; exfalso; apply D1; [injection Ei as -> ->; apply (in_map snd) in Hj|injection Ej as -> ->; apply (in_map snd) in Hi]; auto.
  - (* as many new addresses as numbers *)
    assert (L : List.length (map snd im) = List.length (seq (List.length (w_heap w)) (List.length (numbers (tokens d))))).
    { now rewrite seq_length, map_length, <- (map_length fst), F, rev_length. }
    assert (I : incl (map snd im) (seq (List.length (w_heap w)) (List.length (numbers (tokens d))))).
    { intros x Hx. apply in_map_iff in Hx as ([i a] & <- & Hx). rewrite Forall_forall in A. specialize (A _ Hx). rewrite (st_len _ _ _ _ _ _ S) in A.
      apply in_seq. exact A. }
    intros x. rewrite (st_len _ _ _ _ _ _ S). split.
    + intros Hx. apply in_seq in Hx. apply (NoDup_length_incl D (Nat.eq_le_incl _ _ (eq_sym L)) I) in Hx. apply in_map_iff in Hx as ([i a] & <- & Hx).
      exists i. split; [apply B; eauto|]. symmetry. now apply Q.
    + intros (i & Hi & ->). apply B in Hi as (a & Hi). rewrite (Q _ _ Hi). apply in_seq, I. now apply (in_map snd) in Hi.
  - apply S.
  - apply S.
  - apply S.
Qed.

(** paths *)
Lemma parts_number d p : In p (parts d) -> In (number p) (numbers (tokens d)).
Proof.
  induction d as [k|c i s t b IH] using mdef_rect'; cbn [parts tokens numbers]; [intros []|]. intros [<-|H]; [now left|right].
  induction IH as [|[n e] l He _ IHl]; cbn in *; [exact H|]. rewrite numbers_app. apply in_app_or in H as [H|H]; apply in_or_app; auto.
Qed.
Lemma number_part d i : In i (numbers (tokens d)) -> exists p, In p (parts d) /\ number p = i.
Proof.
  induction d as [k|c j s t b IH] using mdef_rect'; cbn [parts tokens numbers]; [intros []|]. intros [<-|H]; [eexists; split; [now left|reflexivity]|].
  assert (G : exists p, In p (sub_parts s) /\ number p = i).
  { unfold sub_parts. induction IH as [|[n e] l He _ IHl]; cbn in *; [destruct H|]. rewrite numbers_app in H.
    apply in_app_or in H as [H|H]; [destruct (He H) as (p & P1 & P2)|destruct (IHl H) as (p & P1 & P2)]; exists p; (split; [apply in_or_app; auto|exact P2]). }
  destruct G as (p & P1 & P2). exists p. split; [now right|exact P2].
Qed.
Lemma parts_def d p : In p (parts d) -> exists c i s t b, p = MDef c i s t b.
Proof.
  induction d as [k|c j s t b IH] using mdef_rect'; cbn [parts]; [intros []|]. intros [<-|H]; [eauto 6|].
  induction IH as [|[n e] l He _ IHl]; cbn in *; [destruct H|]. apply in_app_or in H as [H|H]; auto.
Qed.
(** a number mentioned in a part is the number of a part *)
Lemma sub_number d p n e : well_numbered d -> In p (parts d) ->
  match p with MDef _ _ subs _ _ => In (n, e) subs | MRef _ => False end -> In (number e) (numbers (tokens d)).
Proof.
  intros [_ R] Hp He.
  assert (G : forall r, In p (parts r) -> In (Defines (number e)) (tokens r) \/ In (Refers (number e)) (tokens r)).
  { induction r as [k|c j s t b IH] using mdef_rect'; cbn [parts tokens]; [intros []|]. intros [<-|H].
    - assert (T : exists x, (x = Defines (number e) \/ x = Refers (number e)) /\ In x (tokens e)) by (destruct e; cbn; eexists; (split; [|left; reflexivity]); auto).
      destruct T as (x & X1 & X2). assert (In x (flat_map (fun nd => tokens (snd nd)) s)) by (apply in_flat_map; exists (n, e); auto).
      destruct X1 as [-> | ->]; [left|right]; now right.
    - assert (Q : In (Defines (number e)) (sub_tokens s) \/ In (Refers (number e)) (sub_tokens s)).
      { unfold sub_tokens. induction IH as [|[m f] l Hf _ IHl]; cbn in *; [destruct H|].
        apply in_app_or in H as [H|H]; [destruct (Hf H)|destruct (IHl H)]; [left|right|left|right]; apply in_or_app; auto. }
      destruct Q; [left|right]; now right. }
  assert (D : In (Defines (number e)) (tokens d)).
  { destruct (G d Hp) as [H|H]; [exact H|]. apply in_split in H as (l1 & l2 & E). rewrite E. apply in_or_app. left. eapply R; eauto. }
  clear -D. induction (tokens d) as [|[i|i] l IH]; cbn in *; [destruct D| |]; destruct D as [D|D]; try discriminate; try (injection D as ->); auto.
Qed.
Lemma bound_In {A} n (l : list (string * A)) x : bound n l = Some x -> In (n, x) l.
Proof. rewrite bound_rev. intros H. apply dget_In in H. now apply in_rev. Qed.

Lemma follow_leads w d at_ m w' : well_numbered d -> no_modules d -> merged w d at_ m w' ->
  forall path p x, In p (parts d) -> (follow w' (at_ (number p)) path = Some x <-> exists q, leads d p path q /\ x = at_ (number q)).
Proof.
  intros W M H. induction path as [|n path IH]; intros p x Hp.
  - destruct (parts_def _ _ Hp) as (c & i & s & t & b & ->). destruct (mg_parts _ _ _ _ _ H _ Hp) as (o & Ho & _). cbn [follow number]. rewrite Ho. split.
    + intros [= <-]. eexists. split; [constructor|reflexivity].
    + intros (q & L & ->). inversion L; subst. reflexivity.
  - destruct (parts_def _ _ Hp) as (c & i & s & t & b & ->). destruct (mg_parts _ _ _ _ _ H _ Hp) as (o & Ho & _ & _ & _ & Hv).
    cbn [follow number]. rewrite Ho, (Hv n). destruct (bound n s) as [e|] eqn:Eb.
    + assert (Ne : In (number e) (numbers (tokens d))) by (eapply (sub_number d _ n e W Hp); now apply bound_In).
      destruct (number_part _ _ Ne) as (q & Hq & Eq). rewrite <- Eq, (IH q x Hq). split; intros (y & L & ->); exists y; (split; [|reflexivity]).
      * econstructor; eauto.
      * inversion L as [|? ? ? ? ? ? e' q' ? ? B' Hq' E' L']; subst. rewrite Eb in B'. injection B' as <-.
        assert (q' = q) as ->; [|exact L'].
        (* parts with one number are one part *)
        assert (U : forall r, NoDup (numbers (tokens r)) -> forall y z, In y (parts r) -> In z (parts r) -> number y = number z -> y = z).
        { clear. induction r as [k|c j s t b IH] using mdef_rect'; cbn [parts tokens numbers]; [intros _ ? ? []|].
          intros N y z Hy Hz E. inversion N as [|? ? N1 N2]; subst.
          assert (P : forall y, In y (sub_parts s) -> In (number y) (numbers (sub_tokens s))).
          { clear. unfold sub_parts, sub_tokens. induction s as [|[n e] l IHl]; cbn; [intros ? []|]. intros y H. rewrite numbers_app.
            apply in_app_or in H as [H|H]; apply in_or_app; [left; now apply parts_number|right; auto]. }
          fold (sub_parts s) in Hy, Hz. fold (sub_tokens s) in N1, N2.
          destruct Hy as [<-|Hy], Hz as [<-|Hz]; [reflexivity| | |].
          - exfalso. apply N1. cbn [number] in E. rewrite E. auto.
          - exfalso. apply N1. cbn [number] in E. rewrite <- E. auto.
          - clear N N1. unfold sub_parts, sub_tokens in *. induction IH as [|[n e] l He _ IHl]; cbn in *; [destruct Hy|].
            rewrite numbers_app in N2. pose proof (NoDup_app_l _ _ N2) as N1. pose proof (fun x => NoDup_app_disj _ _ x N2) as N3. apply NoDup_app_r in N2.
            assert (P' : forall y, In y (flat_map (fun nd : string * mdef => parts (snd nd)) l) -> In (number y) (numbers (flat_map (fun nd : string * mdef => tokens (snd nd)) l))).
            { clear. induction l as [|[n e] l IHl]; cbn; [intros ? []|]. intros y H. rewrite numbers_app.
              apply in_app_or in H as [H|H]; apply in_or_app; [left; now apply parts_number|right; auto]. }
            apply in_app_or in Hy as [Hy|Hy], Hz as [Hz|Hz]; [now apply (He N1)| | |apply IHl; auto; intros y' Hy'; now apply P'].
            + exfalso. apply parts_number in Hy. apply P' in Hz. rewrite E in Hy. exact (N3 _ Hy Hz).
            + exfalso. apply parts_number in Hz. apply P' in Hy. rewrite E in Hy. exact (N3 _ Hz Hy). }
        apply (U d (proj1 W)); auto. congruence.
    + split; [|intros (q & L & _); inversion L; subst; congruence]. destruct (bound n t) as [a|] eqn:Et; [|discriminate]. apply bound_In in Et.
      specialize (M _ _ _ _ _ _ _ Hp Et). destruct a as [[]|]; discriminate.
Qed.

(** ** The definition of what was merged *)
Lemma is_node_spec nodes a : is_node nodes a = false <-> (forall t, In t nodes -> ~ In t (cls_of_attr a)).
Proof.
  unfold is_node, isinstance. induction nodes as [|x l IH]; cbn; [split; [tauto|reflexivity]|]. rewrite Bool.orb_false_iff, IH, smem_false. split.
  - intros [H1 H2] t [<-|Ht]; auto.
  - intros H. split; [apply H; now left|]. intros t Ht. apply H. now right.
Qed.
Definition fits (nodes : list string) (n : string) (a : attr) : Prop :=
  is_submodule a = false /\ is_node nodes a = false /\ starts_with "_module__" n = false.
Lemma normal_MDef nodes c i subs st ini : normal_part nodes (MDef c i subs st ini) <->
  StronglySorted klt subs /\ StronglySorted klt st /\ (forall n, In n (keys subs) -> ~ In n (keys st)) /\ forall n a, In (n, a) st -> fits nodes n a.
Proof.
  cbn [normal_part]. rewrite !keys_increasing_klt. unfold fits. split; intros (A & B & C & D); repeat (split; [assumption|]); intros n a H; specialize (D n a H).
  - now rewrite is_node_spec.
  - now rewrite is_node_spec in D.
Qed.

Lemma app_len {A} (a b c d : list A) : a ++ b = c ++ d -> List.length a = List.length c -> a = c /\ b = d.
Proof. revert c. induction a as [|x a IH]; intros [|y c] H L; try discriminate; [auto|]. injection H as -> H. destruct (IH _ H ltac:(cbn in L; lia)) as [-> ->]. auto. Qed.
Lemma dfs_normal w : wf_world w ->
  (forall sr r d sr', dspec w sr r d sr' ->
     List.length sr <= List.length sr' /\ (forall p, In p (parts d) -> normal_part (w_nodes w) p) /\
     numbers (tokens d) = seq (List.length sr) (List.length sr' - List.length sr) /\ first_bad (rev (seq 0 (List.length sr))) (tokens d) = None) /\
  (forall l sr subs st sr', fspec w l sr subs st sr' -> StronglySorted klt l ->
     List.length sr <= List.length sr' /\ (forall p, In p (sub_parts subs) -> normal_part (w_nodes w) p) /\
     numbers (sub_tokens subs) = seq (List.length sr) (List.length sr' - List.length sr) /\ first_bad (rev (seq 0 (List.length sr))) (sub_tokens subs) = None /\
     StronglySorted klt subs /\ StronglySorted klt st /\
     (forall n, In n (keys subs) -> exists x, In (n, ARaw (PyMod x)) l) /\ (forall n a, In (n, a) st -> In (n, a) l /\ fits (w_nodes w) n a)).
Proof.
  intros W. apply dfs_ind.
  - intros sr r i H. split; [lia|]. split; [intros p []|]. rewrite Nat.sub_diag. split; [reflexivity|]. cbn [tokens first_bad].
    assert (nmem i (rev (seq 0 (List.length sr))) = true) as ->; [|reflexivity]. apply nmem_In. rewrite <- in_rev. apply in_seq.
    assert (i < List.length sr) by (apply nth_error_Some; congruence). lia.
  - intros sr r o subs st sr' Hni Ho _ IH. pose proof (wfo_names _ _ (wf_objs _ W _ _ Ho)) as Nd.
    destruct IH as (L & P & Nn & F & S1 & S2 & K & T); [now apply sort_strict|]. rewrite app_length in *. cbn [List.length] in *.
    split; [lia|]. split.
    + cbn [parts]. intros p [<-|Hp]; [|now apply P]. apply normal_MDef. repeat (split; [assumption|]). split; [|intros n a H; apply T; exact H].
      intros n H1 H2. destruct (K n H1) as (x & Hx). apply in_map_iff in H2 as ([n' a] & E & H2). cbn in E. subst n'. destruct (T _ _ H2) as [T1 [T2 _]].
      assert (Nds := NoDup_keys_sort _ Nd). apply In_dget in Hx, T1; auto. rewrite T1 in Hx. injection Hx as ->. discriminate.
    + split.
      * cbn [tokens numbers]. fold (sub_tokens subs). rewrite Nn. replace (List.length sr' - List.length sr) with (S (List.length sr' - (List.length sr + 1))) by lia.
        cbn [seq]. f_equal. f_equal. lia.
      * cbn [tokens first_bad]. fold (sub_tokens subs).
        assert (nmem (List.length sr) (rev (seq 0 (List.length sr))) = false) as ->.
        { apply nmem_false. rewrite <- in_rev. intros H. apply in_seq in H. lia. }
        rewrite Nat.add_1_r, seq_S, rev_app_distr in F. exact F.
  - intros sr _. split; [lia|]. split; [intros p []|]. rewrite Nat.sub_diag. repeat (split; [try reflexivity; constructor|]). split; [intros n []|intros n a []].
  - intros n r t sr d sr1 subs st sr2 _ (L1 & P1 & N1 & F1) _ IH Hs. inversion Hs as [|? ? Hs' Hf]; subst.
    destruct (IH Hs') as (L2 & P2 & N2 & F2 & S1 & S2 & K & T). split; [lia|]. split; [|split; [|split; [|split; [|split; [exact S2|split]]]]].
    + intros p Hp. unfold sub_parts in Hp. cbn [flat_map snd] in Hp. apply in_app_or in Hp as [Hp|Hp]; auto.
    + unfold sub_tokens. cbn [flat_map snd]. fold (sub_tokens subs). rewrite numbers_app, N1, N2. replace (List.length sr2 - List.length sr) with ((List.length sr1 - List.length sr) + (List.length sr2 - List.length sr1)) by lia.
      rewrite seq_app. f_equal. f_equal. lia.
    + unfold sub_tokens. cbn [flat_map snd]. fold (sub_tokens subs). rewrite first_bad_app, F1, N1, <- rev_app_distr.
      pose proof (seq_app (List.length sr) (List.length sr1 - List.length sr) 0) as Sq. cbn [Nat.add] in Sq. rewrite <- Sq. replace (List.length sr + (List.length sr1 - List.length sr)) with (List.length sr1) by lia. exact F2.
    + constructor; [exact S1|]. apply Forall_forall. intros [m e] He. apply (in_map fst) in He. destruct (K m He) as (x & Hx).
      rewrite Forall_forall in Hf. specialize (Hf _ Hx). exact Hf.
    + cbn [keys map]. intros m [<-|Hm]; [exists r; now left|]. destruct (K m Hm) as (x & Hx). exists x. now right.
    + intros m a Hm. destruct (T _ _ Hm). split; [now right|assumption].
  - intros n a t sr subs st sr2 H1 H2 H3 _ IH Hs. inversion Hs as [|? ? Hs' Hf]; subst. destruct (IH Hs') as (L2 & P2 & N2 & F2 & S1 & S2 & K & T).
    repeat (split; [assumption|]). split; [|split].
    + constructor; [exact S2|]. apply Forall_forall. intros [m b] Hb. rewrite Forall_forall in Hf. apply (Hf (m, b)). now apply T.
    + intros m Hm. destruct (K m Hm) as (x & Hx). exists x. now right.
    + intros m b [[= <- <-]|Hm]; [split; [now left|split; auto]|]. destruct (T _ _ Hm). split; [now right|assumption].
  - intros n a t sr subs st sr2 H1 H2 _ IH Hs. inversion Hs as [|? ? Hs' Hf]; subst. destruct (IH Hs') as (L2 & P2 & N2 & F2 & S1 & S2 & K & T).
    repeat (split; [assumption|]). split.
    + intros m Hm. destruct (K m Hm) as (x & Hx). exists x. now right.
    + intros m b Hm. destruct (T _ _ Hm). split; [now right|assumption].
Qed.
Lemma graph_normal w r d L : wf_world w -> graph w r d L -> normal (w_nodes w) d /\ well_numbered d.
Proof.
  intros W G. destruct (proj1 (dfs_normal w W) _ _ _ _ G) as (_ & P & N & F). cbn [List.length seq rev] in *. rewrite Nat.sub_0_r in N.
  split; [split; [exact P|]|now apply well_numbered_iff]. rewrite N, seq_length. reflexivity.
Qed.

(** the other way: a module that realizes a normal definition has it *)
Lemma strict_dget_eq {A} (l1 l2 : list (string * A)) : StronglySorted klt l1 -> StronglySorted klt l2 -> (forall n, dget n l1 = dget n l2) -> l1 = l2.
Proof.
  intros S1 S2 H. apply strict_perm_eq; auto. pose proof (strict_NoDup _ S1) as N1. pose proof (strict_NoDup _ S2) as N2.
  apply NoDup_Permutation; [eapply NoDup_map_inv; exact N1|eapply NoDup_map_inv; exact N2|]. intros [n a]. split; intros Hi; apply In_dget in Hi; auto; apply dget_In; congruence.
Qed.
Lemma dget_filter {A} (f : string * A -> bool) n l : NoDup (keys l) ->
  dget n (filter f l) = match dget n l with Some a => if f (n, a) then Some a else None | None => None end.
Proof.
  induction l as [|[m a] l IH]; cbn; intros N; [reflexivity|]. inversion N as [|? ? N1 N2]; subst. destruct (f (m, a)) eqn:E; cbn; destruct (String.eqb_spec n m) as [->|].
  - now rewrite E.
  - auto.
  - rewrite E, IH by exact N2. apply dget_None in N1. now rewrite N1.
  - auto.
Qed.
Lemma bound_dget {A} n (l : list (string * A)) : NoDup (keys l) -> bound n l = dget n l.
Proof.
  intros N. rewrite bound_rev. apply dget_perm; [|symmetry; apply Permutation_rev]. eapply NoDup_keys_perm; [apply Permutation_rev|exact N].
Qed.

Section Whole.
Variables (w : world) (at_ : nat -> nat) (K : nat).
Hypothesis W : wf_world w.
Hypothesis inj : forall i j, i < K -> j < K -> at_ i = at_ j -> i = j.
Definition linked (ne : string * mdef) : string * attr := (fst ne, ARaw (PyMod (at_ (number (snd ne))))).
Definition after (k : nat) : list nat := map at_ (seq 0 k).

Definition chain (e : mdef) : Prop := forall k, (forall p, In p (parts e) -> realizes w at_ p /\ normal_part (w_nodes w) p) ->
  k + List.length (numbers (tokens e)) <= K -> numbers (tokens e) = seq k (List.length (numbers (tokens e))) -> first_bad (rev (seq 0 k)) (tokens e) = None ->
  dspec w (after k) (at_ (number e)) e (after (k + List.length (numbers (tokens e)))).

Lemma fspec_whole subs (IH : Forall (fun ne => chain (snd ne)) subs) : forall l st k,
  filter (fun na => is_submodule (snd na)) l = map linked subs -> filter (fun na => negb (is_submodule (snd na))) l = st ->
  (forall n a, In (n, a) st -> fits (w_nodes w) n a) -> (forall p, In p (sub_parts subs) -> realizes w at_ p /\ normal_part (w_nodes w) p) ->
  k + List.length (numbers (sub_tokens subs)) <= K -> numbers (sub_tokens subs) = seq k (List.length (numbers (sub_tokens subs))) ->
  first_bad (rev (seq 0 k)) (sub_tokens subs) = None ->
  fspec w l (after k) subs st (after (k + List.length (numbers (sub_tokens subs)))).
Proof.
  intros l. revert subs IH. induction l as [|[n a] l IHl]; intros subs IH st k E1 E2 Hst Hp HK Hn Hb.
  - cbn in E1, E2. subst st. destruct subs; [|discriminate]. cbn. rewrite Nat.add_0_r. constructor.
  - cbn [filter snd] in E1, E2. destruct (is_submodule a) eqn:Ea; cbn [negb] in E2.
    + destruct subs as [|[m e] subs]; [discriminate|]. cbn [map linked] in E1. injection E1 as Em Eat El. cbn [fst snd] in *. subst m a.
      inversion IH as [|? ? He Hs]; subst. unfold sub_tokens in *. cbn [flat_map snd] in *. fold (sub_tokens subs) in *. fold (sub_parts subs) in *.
      rewrite numbers_app, app_length in *. rewrite seq_app in Hn.
      assert (Q : numbers (tokens e) = seq k (List.length (numbers (tokens e))) /\ numbers (sub_tokens subs) = seq (k + List.length (numbers (tokens e))) (List.length (numbers (sub_tokens subs)))).
      { apply app_len in Hn; [exact Hn|]. now rewrite seq_length. }
      destruct Q as [Q1 Q2]. rewrite first_bad_app in Hb. destruct (first_bad (rev (seq 0 k)) (tokens e)) eqn:Fe; [discriminate|].
      econstructor.
      * apply (He k); auto. { intros p Hpp. apply Hp. apply in_or_app. auto. } lia.
      * rewrite Nat.add_assoc. apply IHl; auto. { intros p Hpp. apply Hp. apply in_or_app. auto. } { fold (sub_tokens subs). lia. }
        rewrite seq_app. cbn [Nat.add]. rewrite rev_app_distr, <- Q1. exact Hb.
    + destruct st as [|s st]; [discriminate|]. injection E2 as <- E2. destruct (Hst n a (or_introl eq_refl)) as (F1 & F2 & F3). apply fs_static; auto.
      apply IHl; auto. intros m b Hm. apply Hst. now right.
Qed.
Lemma dspec_whole e : chain e.
Proof.
  induction e as [i|c i subs st ini IH] using mdef_rect'; intros k Hp HK Hn Hb.
  - cbn [tokens numbers List.length] in *. rewrite Nat.add_0_r. cbn [first_bad] in Hb. destruct (nmem i (rev (seq 0 k))) eqn:E; [|discriminate].
    apply nmem_In in E. rewrite <- in_rev in E. apply in_seq in E. constructor. cbn [number]. unfold after. erewrite map_nth_error; [reflexivity|].
    rewrite (nth_error_nth' _ 0) by (rewrite seq_length; lia). f_equal. now rewrite seq_nth by lia.
  - cbn [tokens numbers List.length number] in *. fold (sub_tokens subs) in *. injection Hn as Hi Hn. subst i.
    destruct (Hp _ (or_introl eq_refl)) as [(o & Ho & <- & <- & _ & Hv) Nm]. apply normal_MDef in Nm as (S1 & S2 & Dj & Ft).
    pose proof (wfo_names _ _ (wf_objs _ W _ _ Ho)) as Nd. pose proof (NoDup_keys_sort _ Nd) as Nds. pose proof (sort_strict _ Nd) as Ss.
    pose proof (strict_NoDup _ S1) as N1. pose proof (strict_NoDup _ S2) as N2.
    assert (Lk : List.length (after k) = k) by (unfold after; now rewrite map_length, seq_length).
    replace k with (List.length (after k)) at 3 by exact Lk. replace (at_ k) with (at_ k) by reflexivity.
    assert (G : dspec w (after k) (at_ k) (MDef (m_cls o) (List.length (after k)) subs st (m_init o)) (after (k + S (List.length (numbers (sub_tokens subs)))))).
    { constructor; [|exact Ho|].
      - unfold after. intros H. apply in_map_iff in H as (j & E & Hj). apply in_seq in Hj. apply inj in E; lia.
      - replace (after k ++ [at_ k]) with (after (S k)) by (unfold after; rewrite seq_S, map_app; reflexivity).
        rewrite Nat.add_succ_r. change (S (k + ?x)) with (S k + x). apply fspec_whole; auto.
        + apply strict_dget_eq; [now apply strict_filter| |].
          * clear -S1. induction S1 as [|[n e] l Hs IHl Hf]; cbn; constructor; [exact IHl|]. rewrite Forall_map. exact Hf.
          * intros n. rewrite dget_filter by exact Nds. rewrite dget_sort by exact Nd. rewrite (Hv n), !bound_dget by assumption.
            assert (E : dget n (map linked subs) = match dget n subs with Some e => Some (ARaw (PyMod (at_ (number e)))) | None => None end).
            { clear. induction subs as [|[m e] l IHl]; cbn; [reflexivity|]. destruct (String.eqb n m); auto. }
            rewrite E. destruct (dget n subs); [reflexivity|]. destruct (dget n st) as [a|] eqn:Es; [|reflexivity]. apply dget_In in Es. cbn [snd].
            destruct (Ft _ _ Es) as (-> & _). reflexivity.
        + apply strict_dget_eq; [now apply strict_filter|exact S2|].
          intros n. rewrite dget_filter by exact Nds. rewrite dget_sort by exact Nd. rewrite (Hv n), !bound_dget by assumption.
          destruct (dget n subs) eqn:Eb.
          * cbn. symmetry. apply dget_None. apply Dj. eapply dget_In_keys; eauto.
          * destruct (dget n st) as [a|] eqn:Es; [|reflexivity]. apply dget_In in Es. cbn [snd]. destruct (Ft _ _ Es) as (-> & _). reflexivity.
        + intros p Hpp. apply Hp. now right.
        + lia.
        + cbn [first_bad] in Hb. destruct (nmem k (rev (seq 0 k))); [discriminate|]. rewrite seq_S, rev_app_distr. exact Hb. }
    rewrite Lk in G. rewrite Lk. exact G.
Qed.
End Whole.

Lemma merged_wf w d m w' : wf_world w -> wf_mdef d -> merge w d [] = Ok (m, w') -> wf_world w' /\ m < List.length (w_heap w').
Proof.
  intros W D H. rewrite merge_nil in H. destruct (build d [] w) as [[[r im] w1]|] eqn:E; [|discriminate]. cbn in H. injection H as <- <-.
  destruct (build_new d D _ _ _ _ _ E) as (objs & G1 & G2 & V & _); [intros i x Hx; discriminate|]. split; [|exact V]. eapply grown_wf; eauto.
Qed.

Lemma merged_graph w d at_ m w' : wf_world w' -> well_numbered d -> normal (w_nodes w) d -> merged w d at_ m w' ->
  graph w' m d (map at_ (seq 0 (List.length (numbers (tokens d))))).
Proof.
  intros W Wn [Np Nn] M. rewrite (mg_root _ _ _ _ _ M). apply (dspec_whole w' at_ (List.length (numbers (tokens d))) W) with (k := 0); auto.
  - intros i j Hi Hj. apply (mg_inj _ _ _ _ _ M); rewrite Nn; apply in_seq; lia.
  - intros p Hp. split; [now apply (mg_parts _ _ _ _ _ M)|]. rewrite (mg_nodes _ _ _ _ _ M). now apply Np.
  - now apply well_numbered_iff.
Qed.
