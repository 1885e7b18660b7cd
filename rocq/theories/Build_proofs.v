(** [_build_module] on a definition made by [get_module_def]: it allocates one
    new object per module of the original graph, with the static attributes and
    the submodule links of the original. *)
From Coq Require Import Permutation.
From Verif Require Import PyBase PyBaseFacts ValuesM Spec_Eq ValuesFacts StateM ModuleM Spec_Module Graph_facts Dfs_proofs.
Local Open Scope string_scope.
Local Open Scope list_scope.

(** the inner loop of [build] (module.py:872-876), named *)
Definition build_subs : list (string * mdef) -> list (nat * nat) -> world ->
    result (list (string * attr) * list (nat * nat) * world) :=
  fix go (l : list (string * mdef)) (im : list (nat * nat)) (w : world) :=
    match l with
    | [] => Ok ([], im, w)
    | (name, sub) :: t =>
        do (r', im', w') <- build sub im w;
        do (ds, im'', w'') <- go t im' w';
        Ok ((name, ARaw (PyMod r')) :: ds, im'', w'')
    end.

Lemma build_MDef c idx subs st ini im w :
  build (MDef c idx subs st ini) im w =
    match im_get idx im with
    | Some _ => Err AssertionError
    | None =>
        do (ds, im2, w2) <- build_subs subs ((idx, List.length (w_heap w)) :: im)
                              (set_heap w (w_heap w ++ [mkMobj c 0 false (0, 0) []]));
        Ok (List.length (w_heap w), im2,
            mkWorld (list_set (List.length (w_heap w))
                       (mkMobj c (S (w_uuid w2)) ini (w_trace w2) (dupdate (dupdate [] st) (dict_of ds)))
                       (w_heap w2)) (S (w_uuid w2)) (w_trace w2) (w_nodes w2))
    end.
Proof. reflexivity. Qed.

(** what the new object holds under a name, given what the original holds *)
Definition image (L : list nat) (base : nat) (nt : list string) (n : string) (a b : option attr) : Prop :=
  match a with
  | None => b = None
  | Some a' =>
      match a' with
      | ARaw (PyMod c) => exists j, nth_error L j = Some c /\ b = Some (ARaw (PyMod (base + j)))
      | _ => b = if is_node nt a' || starts_with "_module__" n then None else Some a'
      end
  end.

Lemma image_mono L L2 base nt n a b : image L base nt n a b -> image (L ++ L2) base nt n a b.
Proof.
  destruct a as [[[]|]|]; cbn; auto. intros (j & H1 & H2). exists j. split; [|exact H2].
  rewrite nth_error_app1; [exact H1|]. apply nth_error_Some. congruence.
Qed.

Lemma image_not_sub L base nt n a b : is_submodule a = false ->
  (image L base nt n (Some a) b <-> b = if is_node nt a || starts_with "_module__" n then None else Some a).
Proof. destruct a as [[]|]; cbn; try discriminate; intros _; reflexivity. Qed.

Definition built (w : world) (L : list nat) (base : nat) (t : nat * nat) (x : nat) (o' : mobj) : Prop :=
  exists o, get_obj w x = Some o /\ m_cls o' = m_cls o /\ m_init o' = m_init o /\ m_trace o' = t /\
    NoDup (keys (m_vars o')) /\
    forall n, image L base (w_nodes w) n (dget n (m_vars o)) (dget n (m_vars o')).

Lemma built_mono w L L2 base t x o : built w L base t x o -> built w (L ++ L2) base t x o.
Proof.
  intros (o0 & H1 & H2 & H3 & H4 & H5 & H6). exists o0. repeat (split; [assumption|]).
  intros n. now apply image_mono.
Qed.
Lemma Forall2_impl {A B} (P Q : A -> B -> Prop) l1 l2 :
  (forall a b, P a b -> Q a b) -> Forall2 P l1 l2 -> Forall2 Q l1 l2.
Proof. intros H. induction 1; constructor; auto. Qed.

Definition im_ok (im : list (nat * nat)) (base k : nat) : Prop :=
  forall i, im_get i im = if Nat.ltb i k then Some (base + i) else None.

(** fields: which names end up among the statics and the submodules *)
Definition split_fields (L : list nat) (base : nat) (nt : list string) (l st ds : list (string * attr)) : Prop :=
  forall n, match dget n l with
            | None => dget n st = None /\ dget n ds = None
            | Some a =>
                match a with
                | ARaw (PyMod c) => dget n st = None /\
                    exists j, nth_error L j = Some c /\ dget n ds = Some (ARaw (PyMod (base + j)))
                | _ => dget n ds = None /\
                    dget n st = if is_node nt a || starts_with "_module__" n then None else Some a
                end
            end.

Record grown (wb wb' : world) (objs : list mobj) : Prop := {
  gr_heap : w_heap wb' = w_heap wb ++ objs;
  gr_uuid : w_uuid wb' = w_uuid wb + List.length objs;
  gr_trace : w_trace wb' = w_trace wb;
  gr_nodes : w_nodes wb' = w_nodes wb;
  gr_ids : NoDup (map m_id objs);
  gr_fresh : Forall (fun o => w_uuid wb < m_id o <= w_uuid wb') objs
}.

Lemma grown_nil w : grown w w [].
Proof. constructor; cbn; try rewrite app_nil_r; auto; constructor. Qed.

Lemma grown_app w1 w2 w3 a b : grown w1 w2 a -> grown w2 w3 b -> grown w1 w3 (a ++ b).
Proof.
  intros [A1 A2 A3 A4 A5 A6] [B1 B2 B3 B4 B5 B6]. constructor.
  - rewrite B1, A1. now rewrite <- app_assoc.
  - rewrite app_length. lia.
  - congruence.
  - congruence.
  - rewrite map_app. apply NoDup_app_intro; auto. intros i Ha Hb.
    apply in_map_iff in Ha as (x & <- & Hx). apply in_map_iff in Hb as (y & Hy & Hy2).
    rewrite Forall_forall in A6, B6. specialize (A6 x Hx). specialize (B6 y Hy2). lia.
  - apply Forall_app. split; eapply Forall_impl; eauto; cbn; intros o Ho; lia.
Qed.

Lemma nth_app_last {A} (l : list A) x : nth_error (l ++ [x]) (List.length l) = Some x.
Proof. rewrite nth_error_app2, Nat.sub_diag; reflexivity. Qed.

Lemma nth_prefix {A} (l l2 : list A) i x : nth_error l i = Some x -> nth_error (l ++ l2) i = Some x.
Proof. intros H. rewrite nth_error_app1; [exact H|]. apply nth_error_Some. congruence. Qed.

Lemma build_dspec w : wf_world w ->
  (forall sr r d sr', dspec w sr r d sr' -> valid w r -> NoDup sr -> Forall (valid w) sr ->
     forall base im wb, List.length (w_heap wb) = base + List.length sr -> im_ok im base (List.length sr) ->
     exists i im' wb' objs new,
       build d im wb = Ok (base + i, im', wb') /\ nth_error sr' i = Some r /\
       im_ok im' base (List.length sr') /\ grown wb wb' objs /\
       sr' = sr ++ new /\ Forall2 (built w sr' base (w_trace wb)) new objs) /\
  (forall l sr subs st sr', fspec w l sr subs st sr' -> refs_ok w l -> NoDup sr -> Forall (valid w) sr ->
     NoDup (keys l) ->
     forall base im wb, List.length (w_heap wb) = base + List.length sr -> im_ok im base (List.length sr) ->
     exists ds im' wb' objs new,
       build_subs subs im wb = Ok (ds, im', wb') /\
       im_ok im' base (List.length sr') /\ grown wb wb' objs /\
       sr' = sr ++ new /\ Forall2 (built w sr' base (w_trace wb)) new objs /\
       split_fields sr' base (w_nodes w) l st ds /\ NoDup (keys st) /\ NoDup (keys ds)).
Proof.
  intros Hw. apply dfs_ind.
  - intros sr r i Hi Hr Hn Hv base im wb Hlen Him. exists i, im, wb, [], [].
    rewrite app_nil_r. cbn [build]. rewrite Him.
    assert (Hlt : i < List.length sr) by (apply nth_error_Some; congruence).
    apply Nat.ltb_lt in Hlt. rewrite Hlt. split; [reflexivity|].
    split; [exact Hi|]. split; [exact Him|]. split; [apply grown_nil|]. split; [reflexivity|constructor].
  - intros sr r o subs st sr' Hni Ho Hf IH Hr Hn Hv base im wb Hlen Him.
    assert (Hn1 : NoDup (sr ++ [r])).
    { apply NoDup_app_intro; auto; [repeat constructor; auto|]. intros x Hx [<-|[]]. auto. }
    assert (Hv1 : Forall (valid w) (sr ++ [r])) by (apply Forall_app; auto).
    pose proof (wf_objs _ Hw _ _ Ho) as Hwo.
    set (ph := mkMobj (m_cls o) 0 false (0, 0) []).
    set (wb1 := set_heap wb (w_heap wb ++ [ph])).
    destruct (IH (refs_ok_obj _ _ _ Hw Ho) Hn1 Hv1 (NoDup_keys_sort _ (wfo_names _ _ Hwo)) base
                ((List.length sr, List.length (w_heap wb)) :: im) wb1)
      as (ds & im' & wb' & objs & new & Hb & Him' & Hg & Hsr' & Hall & Hsp & Hns & Hnd).
    { cbn. rewrite !app_length. cbn. lia. }
    { intros i. cbn [im_get]. rewrite Him, app_length. cbn [List.length].
      destruct (Nat.eqb_spec i (List.length sr)) as [->|Hne].
      - rewrite Hlen. assert (Nat.ltb (List.length sr) (List.length sr + 1) = true) as -> by (apply Nat.ltb_lt; lia). reflexivity.
      - destruct (Nat.ltb_spec i (List.length sr)), (Nat.ltb_spec i (List.length sr + 1)); try reflexivity; lia. }
    rewrite build_MDef. fold ph. fold wb1. rewrite Him.
    assert (Nat.ltb (List.length sr) (List.length sr) = false) as -> by (apply Nat.ltb_ge; lia).
    rewrite Hb. cbn [rbind].
    destruct Hg as [G1 G2 G3 G4 G5 G6].
    set (o' := mkMobj (m_cls o) (S (w_uuid wb')) (m_init o) (w_trace wb') (dupdate (dupdate [] st) (dict_of ds))).
    exists (List.length sr), im'. eexists. exists (o' :: objs), (r :: new).
    assert (Hvars : m_vars o' = st ++ ds).
    { cbn. rewrite (dict_of_nodup ds) by assumption. rewrite (dupdate_new st []) by (auto; cbn; tauto).
      cbn [app]. apply dupdate_new; auto. intros k Hk Hk2. specialize (Hsp k).
      apply dget_Some_keys in Hk as [a Ha]. apply dget_Some_keys in Hk2 as [b Hb2].
      rewrite Ha, Hb2 in Hsp. destruct (dget k (sort_by_key (m_vars o))) as [[[]|]|]; destruct Hsp; congruence. }
    split; [rewrite Hlen; reflexivity|].
    split. { rewrite Hsr', <- app_assoc.
             rewrite nth_error_app2 by lia. now rewrite Nat.sub_diag. }
    split; [exact Him'|]. split.
    + constructor; cbn [w_heap w_uuid w_trace w_nodes].
      * rewrite G1. unfold wb1. cbn [w_heap set_heap]. rewrite <- app_assoc.
        rewrite list_set_app_r by lia. rewrite <- Hlen, Nat.sub_diag. reflexivity.
      * rewrite G2. cbn. lia.
      * exact G3.
      * exact G4.
      * cbn. constructor; [|exact G5]. intros Hi. apply in_map_iff in Hi as (x & Hx1 & Hx2).
        rewrite Forall_forall in G6. specialize (G6 x Hx2). lia.
      * constructor; [cbn; rewrite G2; cbn; lia|]. eapply Forall_impl; [|exact G6]. cbn. intros. lia.
    + split; [now rewrite Hsr', <- app_assoc|]. constructor; [|exact Hall].
      exists o. split; [exact Ho|]. split; [reflexivity|]. split; [reflexivity|]. split; [exact G3|].
      rewrite Hvars. split.
      * rewrite keys_app. apply NoDup_app_intro; auto. intros k Hk Hk2. specialize (Hsp k).
        apply dget_Some_keys in Hk as [a Ha]. apply dget_Some_keys in Hk2 as [b Hb2].
        rewrite Ha, Hb2 in Hsp. destruct (dget k (sort_by_key (m_vars o))) as [[[]|]|]; destruct Hsp; congruence.
      * intros n. specialize (Hsp n). rewrite (dget_sort n) in Hsp by apply Hwo. rewrite dget_app. unfold image.
        destruct (dget n (m_vars o)) as [[[]|]|]; destruct Hsp as [S1 S2]; rewrite ?S1, ?S2; auto.
        all: try (destruct (is_node _ _ || _); reflexivity).
  - intros sr _ _ _ _ base im wb Hlen Him. exists [], im, wb, [], []. rewrite app_nil_r.
    split; [reflexivity|]. split; [exact Him|]. split; [apply grown_nil|]. split; [reflexivity|].
    split; [constructor|]. split; [intros n; cbn; auto|]. split; constructor.
  - intros n r t sr d sr1 subs st sr2 Hd IHd Hf IHf Hro Hn Hv Hnk base im wb Hlen Him.
    assert (Hr : valid w r) by (apply (Hro n r); now left).
    destruct (proj1 (dfs_grows w Hw) _ _ _ _ Hd) as (new' & _ & Hn2 & Hv2 & _); auto.
    destruct (IHd Hr Hn Hv base im wb Hlen Him) as (i & im1 & wb1 & objs1 & new1 & B1 & B2 & B3 & B4 & B5 & B6).
    inversion Hnk as [|? ? Hnk1 Hnk2]; subst.
    destruct (IHf (refs_ok_cons _ _ _ _ Hro) Hn2 Hv2 Hnk2 base im1 wb1) as
      (ds & im2 & wb2 & objs2 & new2 & C1 & C2 & C3 & C4 & C5 & C6 & C7 & C8); auto.
    { rewrite (gr_heap _ _ _ B4), !app_length, Hlen. rewrite (Forall2_length _ _ _ B6). lia. }
    exists ((n, ARaw (PyMod (base + i))) :: ds), im2, wb2, (objs1 ++ objs2), (new1 ++ new2).
    cbn [build_subs]. rewrite B1. cbn [rbind]. fold build_subs. rewrite C1. cbn [rbind].
    split; [reflexivity|]. split; [exact C2|]. split; [eapply grown_app; eauto|]. split; [now rewrite C4, app_assoc|].
    split.
    { apply Forall2_app; [|rewrite (gr_trace _ _ _ B4) in C5; exact C5].
      rewrite C4. eapply Forall2_impl; [|exact B6]. intros x o. apply built_mono. }
    assert (Hnt : dget n t = None) by (apply dget_None; exact Hnk1).
    split; [|split; [exact C7|]].
    + intros m. cbn [dget]. destruct (String.eqb_spec m n) as [->|Hmn].
      * pose proof (C6 n) as G. rewrite Hnt in G. destruct G as [G1 G2]. split; [exact G1|].
        exists i. split; [|reflexivity]. rewrite C4. now apply nth_prefix.
      * exact (C6 m).
    + cbn. constructor; [|exact C8]. pose proof (C6 n) as G. rewrite Hnt in G. apply dget_None. apply G.
  - intros n a t sr subs st sr2 H1 H2 H3 Hf IHf Hro Hn Hv Hnk base im wb Hlen Him.
    inversion Hnk as [|? ? Hnk1 Hnk2]; subst.
    destruct (IHf (refs_ok_cons _ _ _ _ Hro) Hn Hv Hnk2 base im wb Hlen Him) as
      (ds & im2 & wb2 & objs2 & new2 & C1 & C2 & C3 & C4 & C5 & C6 & C7 & C8).
    exists ds, im2, wb2, objs2, new2. repeat (split; [assumption|]).
    assert (Hnt : dget n t = None) by (apply dget_None; exact Hnk1).
    pose proof (C6 n) as G. rewrite Hnt in G. destruct G as [G1 G2].
    split; [|split; [|exact C8]].
    + intros m. cbn [dget]. destruct (String.eqb_spec m n) as [->|Hmn]; [|exact (C6 m)].
      rewrite H2, H3. cbn [orb]. destruct a as [[]|]; auto. discriminate.
    + cbn. constructor; [|exact C7]. now apply dget_None.
  - intros n a t sr subs st sr2 H1 H2 Hf IHf Hro Hn Hv Hnk base im wb Hlen Him.
    inversion Hnk as [|? ? Hnk1 Hnk2]; subst.
    destruct (IHf (refs_ok_cons _ _ _ _ Hro) Hn Hv Hnk2 base im wb Hlen Him) as
      (ds & im2 & wb2 & objs2 & new2 & C1 & C2 & C3 & C4 & C5 & C6 & C7 & C8).
    exists ds, im2, wb2, objs2, new2. repeat (split; [assumption|]).
    assert (Hnt : dget n t = None) by (apply dget_None; exact Hnk1).
    pose proof (C6 n) as G. rewrite Hnt in G. destruct G as [G1 G2].
    split; [|split; assumption].
    intros m. cbn [dget]. destruct (String.eqb_spec m n) as [->|Hmn]; [|exact (C6 m)].
    rewrite H2. destruct a as [[]|]; auto. discriminate.
Qed.

(** ** The module built from the definition of the graph below [r] *)
Lemma build_graph w r d L wb : wf_world w -> valid w r -> graph w r d L ->
  exists wb' objs, build_module wb d = Ok (List.length (w_heap wb), wb') /\ grown wb wb' objs /\
    Forall2 (built w L (List.length (w_heap wb)) (w_trace wb)) L objs.
Proof.
  intros Hw Hr Hg.
  destruct (proj1 (build_dspec w Hw) _ _ _ _ Hg Hr) with (base := List.length (w_heap wb)) (im := @nil (nat * nat)) (wb := wb)
    as (i & im' & wb' & objs & new & H1 & H2 & H3 & H4 & H5 & H6); auto; [constructor|intros ?; reflexivity|].
  cbn in H5. subst new. exists wb', objs. unfold build_module. rewrite H1. cbn [rbind].
  destruct (graph_NoDup _ _ _ _ Hw Hr Hg) as [Hn _].
  destruct (graph_root _ _ _ _ Hg) as (t & E & _).
  assert (i = 0).
  { rewrite NoDup_nth_error in Hn. symmetry. apply Hn; [rewrite E; cbn; lia|]. rewrite H2, E. reflexivity. }
  subst i. rewrite Nat.add_0_r. auto.
Qed.
