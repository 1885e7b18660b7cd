(** Proofs about copies made by python's [copy] module. *)
From Coq Require Import Permutation Sorted.
From Verif Require Import PyBase PyBaseFacts ValuesM Spec_Eq ValuesFacts StateM ModuleM Spec_State Spec_Module Graph_facts Dfs_proofs Bisim_proofs Clone_proofs CopyM Spec_Copy.
Local Open Scope string_scope.
Local Open Scope nat_scope.
Local Open Scope list_scope.

Lemma im_get_In x y (mm : memo) : im_get x mm = Some y -> In (x, y) mm.
Proof. induction mm as [|[j r] t IH]; cbn; [discriminate|]. destruct (Nat.eqb_spec x j) as [->|N]; [intros [= ->]; auto|]. auto. Qed.
Lemma im_get_None x (mm : memo) : im_get x mm = None <-> ~ In x (map fst mm).
Proof.
  induction mm as [|[j r] t IH]; cbn; [tauto|]. destruct (Nat.eqb_spec x j) as [->|N].
  - split; [discriminate|]. intros K. exfalso. auto.
  - rewrite IH. split; [intros K [E|I]; [congruence|auto]|]. tauto.
Qed.
Lemma im_get_dom x (mm : memo) : In x (map fst mm) -> exists y, im_get x mm = Some y.
Proof. intros I0. destruct (im_get x mm) eqn:E; [eauto|]. apply im_get_None in E. contradiction. Qed.
Lemma im_get_nodup x y (mm : memo) : NoDup (map fst mm) -> In (x, y) mm -> im_get x mm = Some y.
Proof.
  induction mm as [|[j r] t IH]; cbn; [tauto|]. intros N I0. inversion N; subst. destruct I0 as [[= -> ->]|I0].
  - now rewrite Nat.eqb_refl.
  - destruct (Nat.eqb_spec x j) as [->|Q]; [|auto]. exfalso. apply H1. exact (in_map fst _ _ I0).
Qed.
Lemma im_get_app x (new mm : memo) : NoDup (map fst (new ++ mm)) -> In x (map fst mm) -> im_get x (new ++ mm) = im_get x mm.
Proof.
  intros N I0. destruct (im_get_dom _ _ I0) as [y E]. rewrite E. apply im_get_nodup; [exact N|]. apply in_or_app. right. now apply im_get_In.
Qed.

Lemma snd_inj x y z (mm : memo) : NoDup (map snd mm) -> In (x, z) mm -> In (y, z) mm -> x = y.
Proof.
  induction mm as [|[a b] t IH]; cbn; [tauto|]. intros N A B. inversion N as [|? ? N1 N2]; subst. destruct A as [A|A], B as [B|B]; auto.
  - congruence.
  - injection A as -> ->. exfalso. apply N1. exact (in_map snd _ _ B).
  - injection B as -> ->. exfalso. apply N1. exact (in_map snd _ _ A).
Qed.
Definition ren (mm : memo) (x : nat) : nat := match im_get x mm with Some y => y | None => x end.
Definition ren_vars (f : nat -> nat) (d : dict attr) : dict attr := map (fun na => (fst na, attr_ren f (snd na))) d.

(** renaming depends only on the modules mentioned *)
Lemma val_ren_ext f g v : (forall x, In x (val_mods v) -> f x = g x) -> val_ren f v = val_ren g v.
Proof.
  induction v as [|b|z|s|l IH|r|c i] using pyval_ind'; intros H; cbn; auto.
  - f_equal. induction IH as [|x t P0 _ IH2]; [reflexivity|]. cbn in H. cbn. f_equal.
    + apply P0. intros y Hy. apply H. apply in_or_app. auto.
    + apply IH2. intros y Hy. apply H. cbn. apply in_or_app. auto.
  - f_equal. apply H. cbn. auto.
Qed.
Lemma attr_ren_ext f g a : (forall x, In x (attr_mods a) -> f x = g x) -> attr_ren f a = attr_ren g a.
Proof.
  destruct a as [v|[c md v]]; intros H; cbn in *; f_equal.
  - now apply val_ren_ext.
  - f_equal.
    + apply map_ext_in. intros [k u] Hu. cbn. f_equal. apply val_ren_ext. intros x Hx. apply H. apply in_or_app. left. apply in_flat_map. exists (k, u). auto.
    + apply val_ren_ext. intros x Hx. apply H. apply in_or_app. auto.
Qed.
Lemma vars_ren_ext f g d : (forall n a x, In (n, a) d -> In x (attr_mods a) -> f x = g x) -> ren_vars f d = ren_vars g d.
Proof. intros H. apply map_ext_in. intros [n a] Hn. cbn. f_equal. apply attr_ren_ext. intros x Hx. eapply H; eauto. Qed.

Lemma snoc_get (w : world) o u t nt y : get_obj (mkWorld (w_heap w ++ [o]) u t nt) y =
  if Nat.eqb y (List.length (w_heap w)) then Some o else get_obj w y.
Proof.
  unfold get_obj. cbn. destruct (Nat.eqb_spec y (List.length (w_heap w))) as [->|N].
  - rewrite nth_error_app2 by lia. now rewrite Nat.sub_diag.
  - destruct (Nat.lt_ge_cases y (List.length (w_heap w))) as [L|L]; [apply nth_error_app1; exact L|].
    rewrite nth_error_app2 by lia. destruct (y - List.length (w_heap w)) as [|k] eqn:E; [lia|]. cbn. rewrite (proj2 (nth_error_None (w_heap w) y)) by lia. now destruct k.
Qed.

Section Deep.
Variables (w0 : world) (r0 : nat) (tc : nat -> nat).
Hypothesis Hclosed : closed w0 r0.
Let n0 := List.length (w_heap w0).

Record inv (mm : memo) (w : world) : Prop := {
  i_heap : List.length (w_heap w) = n0 + List.length mm;
  i_old : forall y, y < n0 -> get_obj w y = get_obj w0 y;
  i_uuid : w_uuid w = w_uuid w0 + List.length mm;
  i_snd : forall x x', In (x, x') mm -> n0 <= x' < n0 + List.length mm;
  i_all : forall x', n0 <= x' < n0 + List.length mm -> exists x, In (x, x') mm;
  i_nd : NoDup (map fst mm);
  i_nd2 : NoDup (map snd mm);
  i_touch : forall x, In x (map fst mm) -> touches w0 r0 x;
  i_obj : forall x x', In (x, x') mm -> exists o o', get_obj w0 x = Some o /\ get_obj w x' = Some o' /\
      m_cls o' = m_cls o /\ m_init o' = m_init o /\ m_trace o' = copy_trace tc (m_trace o) /\ m_id o' = S (w_uuid w0 + (x' - n0));
  i_glob : w_trace w = w_trace w0 /\ w_nodes w = w_nodes w0
}.
Definition done (mm : memo) (w : world) (x x' : nat) : Prop :=
  exists o o', get_obj w0 x = Some o /\ get_obj w x' = Some o' /\ m_vars o' = ren_vars (ren mm) (m_vars o) /\
    forall n a y, In (n, a) (m_vars o) -> In y (attr_mods a) -> In y (map fst mm).
Definition grows (mm : memo) (w : world) (mm' : memo) (w' : world) : Prop :=
  exists new, mm' = new ++ mm /\ (forall y, y < List.length (w_heap w) -> get_obj w' y = get_obj w y) /\
    forall x x', In (x, x') new -> done mm' w' x x'.

Lemma grows_refl mm w : grows mm w mm w.
Proof. exists []. repeat split; auto. intros x x' []. Qed.
Lemma ren_app new mm x : NoDup (map fst (new ++ mm)) -> In x (map fst mm) -> ren (new ++ mm) x = ren mm x.
Proof. intros N I0. unfold ren. now rewrite im_get_app. Qed.
Lemma grows_dom mm w mm' w' x : grows mm w mm' w' -> In x (map fst mm) -> In x (map fst mm').
Proof. intros (new & -> & _ & _) I0. rewrite map_app. apply in_or_app. auto. Qed.
Lemma grows_ren mm w mm' w' x : grows mm w mm' w' -> inv mm' w' -> In x (map fst mm) -> ren mm' x = ren mm x.
Proof. intros (new & -> & _ & _) Hi I0. apply ren_app; [apply Hi|exact I0]. Qed.
Lemma grows_im mm w mm' w' x y : grows mm w mm' w' -> inv mm' w' -> im_get x mm = Some y -> im_get x mm' = Some y.
Proof. intros (new & -> & _ & _) Hi E. rewrite im_get_app; [exact E|apply Hi|]. exact (in_map fst _ _ (im_get_In _ _ _ E)). Qed.
Lemma grows_trans mm w m1 w1 m2 w2 : inv m1 w1 -> inv m2 w2 -> List.length (w_heap w) <= List.length (w_heap w1) ->
  grows mm w m1 w1 -> grows m1 w1 m2 w2 -> grows mm w m2 w2.
Proof.
  intros I1 I2 L (n1 & E1 & K1 & D1) G2. pose proof G2 as (n2 & E2 & K2 & D2). exists (n2 ++ n1). split; [rewrite E2, E1; apply app_assoc|]. split.
  - intros y Hy. rewrite K2 by lia. auto.
  - intros x x' H. apply in_app_or in H. destruct H as [H|H]; [apply D2; exact H|].
    destruct (D1 _ _ H) as (o & o' & A & B & C & D). exists o, o'. split; [exact A|].
    assert (Hm : In (x, x') m1) by (rewrite E1; apply in_or_app; auto).
    pose proof (i_snd _ _ I1 _ _ Hm) as S1. pose proof (i_heap _ _ I1) as S2. split; [rewrite K2 by lia; exact B|].
    split; [|intros n a y Hn Hy; eapply grows_dom; [exact G2|]; eapply D; eauto].
    rewrite C. apply vars_ren_ext. intros n a y Hn Hy. symmetry. apply (grows_ren _ _ _ _ _ G2 I2). eapply D; eauto.
Qed.
Lemma grows_len mm w mm' w' : inv mm w -> inv mm' w' -> grows mm w mm' w' -> List.length (w_heap w) <= List.length (w_heap w') /\ List.length mm <= List.length mm'.
Proof. intros I1 I2 (new & -> & _ & _). rewrite (i_heap _ _ I1), (i_heap _ _ I2), app_length. lia. Qed.

(** what a copying function does for the thing [x], whose modules are [mods] *)
Definition copies {A} (mods : list nat) (img : (nat -> nat) -> A) (f : memo -> world -> result (A * memo * world)) (n : nat) : Prop :=
  forall mm w, inv mm w -> n0 - List.length mm < n -> (forall x, In x mods -> touches w0 r0 x) ->
  exists mm' w', f mm w = Ok (img (ren mm'), mm', w') /\ inv mm' w' /\ grows mm w mm' w' /\ incl mods (map fst mm').

Section Vals.
Variables (rec : nat -> memo -> world -> result (nat * memo * world)) (n : nat).
Hypothesis Hrec : forall r, copies [r] (fun f => f r) (rec r) n.

Lemma copies_ret {A} (v : A) : copies [] (fun _ => v) (fun mm w => Ok (v, mm, w)) n.
Proof. intros mm w Hi Hn Ht. exists mm, w. split; [reflexivity|]. split; [exact Hi|]. split; [apply grows_refl|]. intros x []. Qed.
(** one after the other *)
Lemma copies_bind {A B C} ma mb (ia : (nat -> nat) -> A) (ib : (nat -> nat) -> B) (k : A -> B -> C) fa fb :
  (forall f g, (forall x, In x ma -> f x = g x) -> ia f = ia g) ->
  copies ma ia fa n -> copies mb ib fb n ->
  copies (ma ++ mb) (fun f => k (ia f) (ib f)) (fun mm w => do (a, m1, w1) <- fa mm w; do (b, m2, w2) <- fb m1 w1; Ok (k a b, m2, w2)) n.
Proof.
  intros X Ha Hb mm w Hi Hn Ht. destruct (Ha mm w Hi Hn) as (m1 & w1 & E1 & I1 & G1 & S1). { intros x Hx. apply Ht. apply in_or_app. auto. }
  destruct (grows_len _ _ _ _ Hi I1 G1) as [L1 L2]. destruct (Hb m1 w1 I1) as (m2 & w2 & E2 & I2 & G2 & S2); [lia| |].
  { intros x Hx. apply Ht. apply in_or_app. auto. }
  exists m2, w2. rewrite E1. cbn [rbind]. rewrite E2. cbn [rbind]. split.
  - rewrite (X (ren m1) (ren m2)); [reflexivity|]. intros x Hx. symmetry. apply (grows_ren _ _ _ _ _ G2 I2). apply S1. exact Hx.
  - split; [exact I2|]. split; [exact (grows_trans _ _ _ _ _ _ I1 I2 L1 G1 G2)|]. intros x Hx. apply in_app_or in Hx. destruct Hx as [Hx|Hx]; [eapply grows_dom; [exact G2|apply S1; exact Hx]|auto].
Qed.
Lemma copies_map {A B} ma (ia : (nat -> nat) -> A) (k : A -> B) fa : copies ma ia fa n ->
  copies ma (fun f => k (ia f)) (fun mm w => do (a, m1, w1) <- fa mm w; Ok (k a, m1, w1)) n.
Proof.
  intros Ha mm w Hi Hn Ht. destruct (Ha mm w Hi Hn Ht) as (m1 & w1 & E1 & R). exists m1, w1. rewrite E1. cbn [rbind]. split; [reflexivity|exact R].
Qed.

Lemma dc_val_copies v : copies (val_mods v) (fun f => val_ren f v) (dc_val rec v) n.
Proof.
  induction v as [|b|z|s|l IH|r|c i] using pyval_ind'; cbn [val_mods val_ren dc_val]; try apply copies_ret.
  - assert (L : copies (flat_map val_mods l) (fun f => map (val_ren f) l)
       ((fix go (l : list pyval) (mm : memo) (w : world) : result (list pyval * memo * world) :=
           match l with
           | [] => Ok ([], mm, w)
           | x :: t => do (x', m1, w1) <- dc_val rec x mm w; do (t', m2, w2) <- go t m1 w1; Ok (x' :: t', m2, w2)
           end) l) n).
    { induction IH as [|x t P0 _ IH2]; [apply copies_ret|]. cbn [flat_map map].
      exact (copies_bind _ _ _ (fun f => map (val_ren f) t) cons _ _ (fun f g => val_ren_ext f g x) P0 IH2). }
    exact (copies_map _ _ PyTuple _ L).
  - exact (copies_map _ _ PyMod _ (Hrec r)).
Qed.
Lemma dc_meta_copies d : copies (flat_map (fun kv => val_mods (snd kv)) d) (fun f => map (fun kv => (fst kv, val_ren f (snd kv))) d) (dc_meta rec d) n.
Proof.
  induction d as [|[k v] t IH]; [apply copies_ret|]. cbn [flat_map map fst snd dc_meta].
  exact (copies_bind _ _ _ (fun f => map (fun kv => (fst kv, val_ren f (snd kv))) t) (fun x l => (k, x) :: l) _ _ (fun f g => val_ren_ext f g v) (dc_val_copies v) IH).
Qed.
Lemma dc_attr_copies a : copies (attr_mods a) (fun f => attr_ren f a) (dc_attr rec a) n.
Proof.
  destruct a as [v|[c md v]]; cbn [attr_mods attr_ren dc_attr c_cls c_meta c_val].
  - exact (copies_map _ _ ARaw _ (dc_val_copies v)).
  - refine (copies_bind _ _ (fun f => map (fun kv => (fst kv, val_ren f (snd kv))) md) (fun f => val_ren f v) (fun d u => ACont (mkCont c d u)) _ _ _ (dc_meta_copies md) (dc_val_copies v)).
    intros f g H. apply map_ext_in. intros [k u] Hu. cbn. f_equal. apply val_ren_ext. intros x Hx. apply H. apply in_flat_map. exists (k, u). auto.
Qed.
Lemma dc_vars_copies d : copies (flat_map (fun na => attr_mods (snd na)) d) (fun f => ren_vars f d) (dc_vars rec d) n.
Proof.
  induction d as [|[k a] t IH]; [apply copies_ret|].
  exact (copies_bind _ _ _ (fun f => ren_vars f t) (fun x l => (k, x) :: l) _ _ (fun f g => attr_ren_ext f g a) (dc_attr_copies a) IH).
Qed.
End Vals.

Lemma touched_obj x : touches w0 r0 x -> exists o, get_obj w0 x = Some o.
Proof. intros H. apply get_obj_ex. apply Hclosed. exact H. Qed.
Lemma room mm w r : inv mm w -> touches w0 r0 r -> ~ In r (map fst mm) -> List.length mm < n0.
Proof.
  intros Hi Ht N0. assert (H : List.length (r :: map fst mm) <= List.length (seq 0 n0)).
  { apply NoDup_incl_length; [constructor; [exact N0|apply Hi]|]. intros x [<-|Hx]; apply in_seq; split; try lia; apply Hclosed; [exact Ht|]. apply (i_touch _ _ Hi). exact Hx. }
  cbn in H. rewrite map_length, seq_length in H. lia.
Qed.
Lemma deepcopy_rec_copies fuel : forall r, copies [r] (fun f => f r) (deepcopy_rec tc fuel r) fuel.
Proof.
  induction fuel as [|fuel IH]; intros r mm w Hi Hn Ht.
  - destruct (im_get r mm) as [r'|] eqn:E; [|lia]. cbn. rewrite E. exists mm, w. split; [unfold ren; now rewrite E|]. split; [exact Hi|]. split; [apply grows_refl|].
    intros x [<-|[]]. exact (in_map fst _ _ (im_get_In _ _ _ E)).
  - cbn [deepcopy_rec]. destruct (im_get r mm) as [r'|] eqn:E.
    { exists mm, w. split; [unfold ren; now rewrite E|]. split; [exact Hi|]. split; [apply grows_refl|].
      intros x [<-|[]]. exact (in_map fst _ _ (im_get_In _ _ _ E)). }
    specialize (Ht r (or_introl eq_refl)). apply im_get_None in E. pose proof (room _ _ _ Hi Ht E) as Hroom.
    destruct (touched_obj _ Ht) as [o Ho]. pose proof (i_heap _ _ Hi) as Hh. rewrite (i_old _ _ Hi r) by (apply Hclosed; exact Ht). rewrite Ho. cbv zeta.
    set (r' := List.length (w_heap w)). set (o' := mkMobj _ _ _ _ _). set (w1 := mkWorld _ _ _ _).
    assert (I1 : inv ((r, r') :: mm) w1).
    { constructor; cbn [List.length map fst snd].
      - unfold w1. cbn. rewrite app_length. cbn. lia.
      - intros y Hy. unfold w1. rewrite snoc_get. destruct (Nat.eqb_spec y (List.length (w_heap w))); [lia|]. apply Hi. exact Hy.
      - unfold w1. cbn. rewrite (i_uuid _ _ Hi). lia.
      - intros x x' [[= <- <-]|H]; [unfold r'; lia|]. pose proof (i_snd _ _ Hi _ _ H). lia.
      - intros x' H. destruct (Nat.eq_dec x' r') as [->|N]; [exists r; left; reflexivity|]. destruct (i_all _ _ Hi x') as [x Hx]; [unfold r' in N; lia|]. exists x. right. exact Hx.
      - constructor; [exact E|apply Hi].
      - constructor; [|apply Hi]. intros H. apply in_map_iff in H. destruct H as ([x x'] & Q & H). cbn in Q. subst x'. pose proof (i_snd _ _ Hi _ _ H). unfold r' in *. lia.
      - intros x [<-|H]; [exact Ht|apply Hi; exact H].
      - intros x x' [[= <- <-]|H].
        + exists o, o'. split; [exact Ho|]. split; [unfold w1; rewrite snoc_get; unfold r'; now rewrite Nat.eqb_refl|]. cbn. repeat split; auto. rewrite (i_uuid _ _ Hi). unfold r'. lia.
        + destruct (i_obj _ _ Hi _ _ H) as (p & p' & A & B & C). exists p, p'. split; [exact A|]. split; [|exact C].
          unfold w1. rewrite snoc_get. pose proof (i_snd _ _ Hi _ _ H). destruct (Nat.eqb_spec x' (List.length (w_heap w))); [lia|exact B].
      - apply Hi. }
    destruct (dc_vars_copies _ fuel IH (m_vars o) _ _ I1) as (m2 & w2 & E2 & I2 & G2 & S2).
    { cbn [List.length]. lia. }
    { intros x Hx. apply in_flat_map in Hx. destruct Hx as ([nm a] & Hn2 & Hx). apply (t_step _ _ r x Ht). exists o, nm, a. auto. }
    rewrite E2. cbn [rbind]. destruct G2 as (new & Em & K2 & D2).
    assert (Hr' : In (r, r') m2) by (rewrite Em; apply in_or_app; right; left; reflexivity).
    assert (Gr : im_get r m2 = Some r') by (apply im_get_nodup; [apply I2|exact Hr']).
    destruct (i_obj _ _ I2 _ _ Hr') as (p & p' & A & B & C1 & C2 & C3 & C4).
    set (oo := set_vars o' (ren_vars (ren m2) (m_vars o))).
    assert (P2 : forall y, get_obj (put_obj w2 r' oo) y = if Nat.eqb y r' then Some oo else get_obj w2 y).
    { intros y. destruct (Nat.eqb_spec y r') as [->|N]; [eapply get_put_same; exact B|apply get_put_other; congruence]. }
    assert (L2 : List.length (w_heap (put_obj w2 r' oo)) = List.length (w_heap w2)). { unfold put_obj, set_heap. cbn. apply list_set_length. }
    exists m2, (put_obj w2 r' oo). split; [unfold ren; now rewrite Gr|]. split; [|split].
    + destruct I2 as [J1 J2 J3 J4 J5 J6 J7 J8 J9 J10]. constructor; auto.
      * rewrite L2. exact J1.
      * intros y Hy. rewrite P2. destruct (Nat.eqb_spec y r'); [unfold r' in *; lia|auto].
      * intros x x' H. rewrite P2. destruct (Nat.eqb_spec x' r') as [->|N].
        -- assert (x = r) by exact (snd_inj _ _ _ _ J7 H Hr').
           subst x. exists o, oo. split; [exact Ho|]. split; [reflexivity|]. cbn. repeat split; auto. rewrite (i_uuid _ _ Hi). unfold r'. lia.
        -- exact (J9 _ _ H).
    + exists (new ++ [(r, r')]). split; [rewrite Em, <- app_assoc; reflexivity|]. split.
      * intros y Hy. rewrite P2. destruct (Nat.eqb_spec y r'); [unfold r' in *; lia|].
        rewrite K2; [|unfold w1; cbn; rewrite app_length; cbn; lia]. unfold w1. rewrite snoc_get. destruct (Nat.eqb_spec y (List.length (w_heap w))); [lia|reflexivity].
      * intros x x' H. apply in_app_or in H. destruct H as [H|[[= <- <-]|[]]].
        -- destruct (D2 _ _ H) as (q & q' & B1 & B2 & B3). exists q, q'. split; [exact B1|]. split; [|exact B3]. rewrite P2.
           destruct (Nat.eqb_spec x' r') as [->|N]; [|exact B2]. exfalso.
           pose proof (i_nd2 _ _ I2) as N2. rewrite Em, map_app in N2. cbn in N2. apply NoDup_remove_2 in N2. apply N2. apply in_or_app. left. exact (in_map snd _ _ H).
        -- exists o, oo. split; [exact Ho|]. split; [rewrite P2, Nat.eqb_refl; reflexivity|]. split; [reflexivity|].
           intros nm a y Hn2 Hy. apply S2. apply in_flat_map. exists (nm, a). auto.
    + intros x [<-|[]]. exact (in_map fst _ _ Hr').
Qed.

Lemma inv_start : inv [] w0.
Proof. constructor; cbn; auto; try constructor; try tauto; intros; try lia; try contradiction. Qed.

(** everything touched has been copied *)
Lemma all_touched mm w x : inv mm w -> In r0 (map fst mm) -> (forall y y', In (y, y') mm -> done mm w y y') -> touches w0 r0 x -> In x (map fst mm).
Proof.
  intros Hi Hr Hd H. induction H as [|x y H IH (o & nm & a & Ho & Hn & Hy)]; [exact Hr|].
  apply in_map_iff in IH. destruct IH as ([x1 x'] & Q & H1). cbn in Q. subst x1. destruct (Hd _ _ H1) as (q & q' & B1 & B2 & B3 & B4).
  assert (q = o) by congruence. subst q. eapply B4; eauto.
Qed.

Lemma deepcopy_ok : exists m w' f, deepcopy tc w0 r0 = Ok (m, w') /\ deep_copy w0 r0 w' m f /\
  (forall x o, touches w0 r0 x -> get_obj w0 x = Some o -> exists o', get_obj w' (f x) = Some o' /\ m_trace o' = copy_trace tc (m_trace o)) /\
  List.length (w_heap w0) <= List.length (w_heap w') /\ w_uuid w0 <= w_uuid w'.
Proof.
  destruct (deepcopy_rec_copies (dfs_fuel w0) r0 [] w0 inv_start) as (mm & w' & E & Hi & (new & En & K & D) & Sx).
  { unfold dfs_fuel. cbn. unfold n0. lia. }
  { intros x [<-|[]]. constructor. }
  rewrite app_nil_r in En. subst new. assert (Hr : In r0 (map fst mm)) by (apply Sx; left; reflexivity).
  pose proof (fun x => all_touched mm w' x Hi Hr D) as T.
  assert (G : forall x, touches w0 r0 x -> In (x, ren mm x) mm).
  { intros x Hx. destruct (im_get_dom _ _ (T x Hx)) as [y Ey]. unfold ren. rewrite Ey. now apply im_get_In. }
  exists (ren mm r0), w', (ren mm). split; [unfold deepcopy; now rewrite E|]. split; [|split].
  - constructor.
    + reflexivity.
    + intros y o Ho. rewrite K; [exact Ho|]. eapply get_obj_lt; eauto.
    + intros x Hx. pose proof (i_snd _ _ Hi _ _ (G x Hx)) as P0. apply nth_error_None. unfold n0 in P0. lia.
    + intros x y Hx Hy Q. pose proof (G x Hx) as A. pose proof (G y Hy) as B. rewrite <- Q in B. exact (snd_inj _ _ _ _ (i_nd2 _ _ Hi) A B).
    + intros x o Hx Ho. destruct (i_obj _ _ Hi _ _ (G x Hx)) as (p & p' & A & B & C1 & C2 & C3 & C4). destruct (D _ _ (G x Hx)) as (q & q' & A' & B' & C' & _).
      exists p'. assert (p = o) by congruence. assert (q = o) by congruence. assert (q' = p') by congruence. subst. auto.
    + intros y o Hy Hn. pose proof (get_obj_lt _ _ _ Hy) as L. rewrite (i_heap _ _ Hi) in L.
      assert (n0 <= y). { apply nth_error_None in Hn. exact Hn. } destruct (i_all _ _ Hi y) as [x Hx]; [lia|]. exists x. split; [apply (i_touch _ _ Hi); exact (in_map fst _ _ Hx)|].
      unfold ren. now rewrite (im_get_nodup x y mm (i_nd _ _ Hi) Hx).
    + assert (Q : forall y o, get_obj w' y = Some o -> get_obj w0 y = None -> n0 <= y < n0 + List.length mm /\ m_id o = S (w_uuid w0 + (y - n0))).
      { intros y o Hy Hn. pose proof (get_obj_lt _ _ _ Hy) as L. rewrite (i_heap _ _ Hi) in L. assert (n0 <= y). { apply nth_error_None in Hn. exact Hn. }
        split; [lia|]. destruct (i_all _ _ Hi y) as [x Hx]; [lia|]. destruct (i_obj _ _ Hi _ _ Hx) as (p & p' & A & B & _ & _ & _ & C). congruence. }
      intros y y' o o' Hy Hy' Hn. destruct (Q _ _ Hy Hn) as [Q1 Q2]. rewrite (i_uuid _ _ Hi). split; [lia|]. intros Heq Hn'. destruct (Q _ _ Hy' Hn') as [Q3 Q4]. lia.
    + apply Hi.
  - intros x o Hx Ho. destruct (i_obj _ _ Hi _ _ (G x Hx)) as (p & p' & A & B & C1 & C2 & C3 & C4). exists p'. split; [exact B|]. congruence.
  - rewrite (i_heap _ _ Hi), (i_uuid _ _ Hi). unfold n0. lia.
Qed.
End Deep.

(** ** What a deep copy looks like *)
Lemma dget_ren f d n : dget n (ren_vars f d) = option_map (attr_ren f) (dget n d).
Proof. induction d as [|[k a] t IH]; cbn; [reflexivity|]. destruct (String.eqb n k); [reflexivity|exact IH]. Qed.
Lemma keys_ren f d : keys (ren_vars f d) = keys d.
Proof. unfold keys, ren_vars. rewrite map_map. reflexivity. Qed.
Lemma val_ren_none f v : val_mods v = [] -> val_ren f v = v.
Proof.
  induction v as [|b|z|s|l IH|r|c i] using pyval_ind'; cbn; auto; try discriminate. intros H. f_equal.
  induction IH as [|x t P0 _ IH2]; [reflexivity|]. cbn in H. apply app_eq_nil in H. destruct H as [H1 H2]. cbn. rewrite P0, IH2; auto.
Qed.
Lemma attr_ren_none f a : attr_mods a = [] -> attr_ren f a = a.
Proof.
  destruct a as [v|[c md v]]; cbn; intros H; [now rewrite val_ren_none|]. apply app_eq_nil in H. destruct H as [H1 H2]. rewrite (val_ren_none f v H2). do 2 f_equal.
  induction md as [|[k u] t IH]; [reflexivity|]. cbn in H1. apply app_eq_nil in H1. destruct H1 as [H1 H3]. cbn. rewrite (val_ren_none f u H1), (IH H3). reflexivity.
Qed.
Lemma sub_mods a x : a = ARaw (PyMod x) -> In x (attr_mods a).
Proof. intros ->. cbn. auto. Qed.
Lemma reaches_touches w r x : wf_world w -> reaches w r x -> touches w r x.
Proof.
  intros Hw [p Hp]. revert Hp. assert (G : forall q y, touches w r y -> follow w y q = Some x -> touches w r x).
  { induction q as [|n q IH]; intros y Hy Hq.
    - cbn in Hq. destruct (get_obj w y); [|discriminate]. injection Hq as <-. exact Hy.
    - apply follow_cons_child in Hq. destruct Hq as (z & (o & Ho & Hd) & Hq). apply (IH z); [|exact Hq]. apply (t_step _ _ y z Hy).
      exists o, n, (ARaw (PyMod z)). split; [exact Ho|]. split; [apply dget_In; exact Hd|cbn; auto]. }
  apply G. constructor.
Qed.
Lemma touches_reaches w r x : wf_world w -> r < List.length (w_heap w) -> plain_below w r -> touches w r x -> reaches w r x.
Proof.
  intros Hw Hr Hp H. induction H as [|x y H IH (o & n & a & Ho & Hn & Hy)].
  - destruct (get_obj_ex _ _ Hr) as [o Ho]. eapply reaches_refl; eauto.
  - pose proof (In_dget n a (m_vars o) (wfo_names _ _ (wf_objs _ Hw _ _ Ho)) Hn) as Hd. destruct (is_submodule a) eqn:Es.
    + apply is_sub_inv in Es. destruct Es as [z ->]. cbn in Hy. destruct Hy as [<-|[]]. eapply reaches_trans; [exact IH|]. eapply reaches_child; [exact Hw|]. exists o. split; eauto.
    + rewrite (Hp x o n a IH Ho Hd Es) in Hy. destruct Hy.
Qed.
Lemma plain_closed w r : wf_world w -> r < List.length (w_heap w) -> plain_below w r -> closed w r.
Proof. intros Hw Hr Hp x Hx. destruct (reaches_valid _ _ _ (touches_reaches _ _ _ Hw Hr Hp Hx)) as [o Ho]. eapply get_obj_lt; eauto. Qed.

Lemma wf_cont_ren f c : wf_container c -> wf_container (mkCont (c_cls c) (map (fun kv => (fst kv, val_ren f (snd kv))) (c_meta c)) (val_ren f (c_val c))).
Proof.
  intros (A & B & C & D & E). unfold wf_container. cbn [c_cls c_meta c_val].
  assert (K : keys (map (fun kv => (fst kv, val_ren f (snd kv))) (c_meta c)) = keys (c_meta c)) by (unfold keys; rewrite map_map; reflexivity).
  rewrite K. repeat (split; [assumption|]). split.
  - intros H. rewrite (D H). reflexivity.
  - intros H1 H2. destruct (E H1 H2) as (s & t & ->). eexists. eexists. reflexivity.
Qed.

Section Consequences.
Variables (w : world) (r : nat) (w' : world) (m : nat) (f : nat -> nat).
Hypotheses (Hw : wf_world w) (Hr : r < List.length (w_heap w)) (Hclosed : closed w r) (Hd : deep_copy w r w' m f).

Lemma copied x : touches w r x -> exists o o', get_obj w x = Some o /\ get_obj w' (f x) = Some o' /\ m_cls o' = m_cls o /\ m_init o' = m_init o /\ m_vars o' = ren_vars f (m_vars o).
Proof. intros Hx. destruct (get_obj_ex _ _ (Hclosed x Hx)) as [o Ho]. destruct (dc_same _ _ _ _ _ Hd x o Hx Ho) as (o' & A). exists o, o'. auto. Qed.
Lemma old_or_new y o : get_obj w' y = Some o -> get_obj w y = Some o \/ get_obj w y = None.
Proof. intros Hy. destruct (get_obj w y) as [p|] eqn:E; [left|auto]. rewrite (dc_kept _ _ _ _ _ Hd _ _ E) in Hy. congruence. Qed.
Lemma heap_le : w_uuid w <= w_uuid w' -> List.length (w_heap w) <= List.length (w_heap w') -> wf_world w'.
Proof.
  intros Hu Hl. constructor.
  - apply NoDup_nth_error. intros i j Hi Heq. rewrite map_length in Hi. rewrite !nth_error_map in Heq.
    destruct (nth_error (w_heap w') i) as [o|] eqn:Ei; [|apply nth_error_None in Ei; lia]. destruct (nth_error (w_heap w') j) as [o'|] eqn:Ej; [|discriminate]. cbn in Heq. injection Heq as Heq.
    change (get_obj w' i = Some o) in Ei. change (get_obj w' j = Some o') in Ej.
    destruct (old_or_new _ _ Ei) as [A|A], (old_or_new _ _ Ej) as [B|B].
    + pose proof (proj1 (NoDup_nth_error _) (wf_ids _ Hw)) as N. apply N; [rewrite map_length; eapply get_obj_lt; eauto|]. rewrite !nth_error_map. unfold get_obj in A, B. rewrite A, B. cbn. congruence.
    + pose proof (dc_ids _ _ _ _ _ Hd _ _ _ _ Ej Ei B) as [Q _]. pose proof (wfo_id _ _ (wf_objs _ Hw _ _ A)). lia.
    + pose proof (dc_ids _ _ _ _ _ Hd _ _ _ _ Ei Ej A) as [Q _]. pose proof (wfo_id _ _ (wf_objs _ Hw _ _ B)). lia.
    + apply (dc_ids _ _ _ _ _ Hd _ _ _ _ Ei Ej A); assumption.
  - intros y o Hy. destruct (old_or_new _ _ Hy) as [A|A].
    + destruct (wf_objs _ Hw _ _ A) as [X1 X2 X3 X4 X5]. constructor; auto; [lia|]. intros n z Hz. specialize (X4 n z Hz). lia.
    + destruct (dc_only _ _ _ _ _ Hd y o Hy A) as (x & Hx & <-). destruct (copied x Hx) as (p & p' & P1 & P2 & P3 & P4 & P5). assert (p' = o) by congruence. subst p'.
      destruct (wf_objs _ Hw _ _ P1) as [X1 X2 X3 X4 X5]. constructor.
      * pose proof (dc_ids _ _ _ _ _ Hd _ _ _ _ Hy Hy A) as [Q _]. lia.
      * rewrite P5, keys_ren. exact X2.
      * rewrite P5, keys_ren. exact X3.
      * intros n z Hz. rewrite P5, dget_ren in Hz. destruct (dget n (m_vars p)) as [a|] eqn:Ea; [|discriminate]. cbn in Hz.
        destruct a as [[ | | | | |s| ]|]; cbn in Hz; try discriminate. injection Hz as <-.
        assert (Hs : touches w r s). { apply (t_step _ _ x s Hx). exists p, n, (ARaw (PyMod s)). split; [exact P1|]. split; [apply dget_In; exact Ea|cbn; auto]. }
        destruct (copied s Hs) as (q & q' & _ & Q2 & _). eapply get_obj_lt; eauto.
      * intros n a Ha. rewrite P5, dget_ren in Ha. destruct (dget n (m_vars p)) as [b|] eqn:Eb; [|discriminate]. cbn in Ha. injection Ha as <-.
        pose proof (X5 _ _ Eb) as Wb. destruct b as [v|c]; cbn; [exact Logic.I|]. apply wf_cont_ren. exact Wb.
Qed.

(** what is seen along a path: the same, with modules replaced by their copies *)
Lemma look_copy p : forall x, touches w r x -> look w' (f x) p = seen_ren f (look w x p).
Proof.
  induction p as [|n p IH]; intros x Hx; destruct (copied x Hx) as (o & o' & A & B & C & D & E); cbn; rewrite A, B.
  - cbn. congruence.
  - rewrite E, dget_ren. destruct (dget n (m_vars o)) as [a|] eqn:Ea; [|reflexivity]. cbn [option_map].
    destruct a as [[|b|z|s|l|y|c i]|c]; cbn; try (destruct p; reflexivity).
    apply IH. apply (t_step _ _ x y Hx). exists o, n, (ARaw (PyMod y)). split; [exact A|]. split; [apply dget_In; exact Ea|cbn; auto].
Qed.
Lemma follow_copy p : forall x, touches w r x -> follow w' (f x) p = option_map f (follow w x p).
Proof.
  induction p as [|n p IH]; intros x Hx; destruct (copied x Hx) as (o & o' & A & B & C & D & E); cbn; rewrite A, B.
  - reflexivity.
  - rewrite E, dget_ren. destruct (dget n (m_vars o)) as [a|] eqn:Ea; [|reflexivity]. cbn [option_map].
    destruct a as [[|b|z|s|l|y|c i]|c]; cbn; try reflexivity.
    apply IH. apply (t_step _ _ x y Hx). exists o, n, (ARaw (PyMod y)). split; [exact A|]. split; [apply dget_In; exact Ea|cbn; auto].
Qed.
Lemma deep_bisim : plain_below w r -> bisim w w' (fun x y => reaches w r x /\ y = f x).
Proof.
  intros Hp. constructor.
  - intros x y [Hx ->]. pose proof (reaches_touches _ _ _ Hw Hx) as Tx. destruct (copied x Tx) as (o & o' & A & B & C & D & E). exists o, o'. repeat (split; [auto|]).
    intros n. rewrite E, dget_ren. destruct (dget n (m_vars o)) as [a|] eqn:Ea; [|exact Logic.I]. destruct (is_submodule a) eqn:Es.
    + apply is_sub_inv in Es. destruct Es as [z ->]. cbn. split; [|reflexivity]. eapply reaches_trans; [exact Hx|]. eapply reaches_child; [exact Hw|]. exists o. eauto.
    + cbn [option_map]. rewrite (attr_ren_none f a (Hp x o n a Hx A Ea Es)). now apply orel_refl_val.
  - intros x y y' [_ ->] [_ ->]. reflexivity.
  - intros x x' y [A ->] [B E]. apply (dc_inj _ _ _ _ _ Hd); auto using reaches_touches.
Qed.
End Consequences.
Lemma extends_deep w r w' m f : deep_copy w r w' m f -> extends w w'.
Proof.
  intros Hd. exists (skipn (List.length (w_heap w)) (w_heap w')). rewrite <- (firstn_skipn (List.length (w_heap w)) (w_heap w')) at 1. f_equal.
  assert (K := dc_kept _ _ _ _ _ Hd). unfold get_obj in K. revert K. generalize (w_heap w) as a, (w_heap w') as b. induction a as [|o a IH]; intros b K; [reflexivity|].
  destruct b as [|p b]; [specialize (K 0 o eq_refl); discriminate|]. cbn. f_equal; [specialize (K 0 o eq_refl); cbn in K; congruence|]. apply IH. intros y q Hq. exact (K (S y) q Hq).
Qed.

(** ** copy.copy *)
Lemma shallow_ok w r o : get_obj w r = Some o ->
  exists w', py_copy w r = Ok (List.length (w_heap w), w') /\ extends w w' /\ get_obj w' (List.length (w_heap w)) = Some o /\
    (forall y, y <> List.length (w_heap w) -> get_obj w' y = get_obj w y) /\ w_nodes w' = w_nodes w /\ List.length (w_heap w') = S (List.length (w_heap w)).
Proof.
  intros Ho. exists (set_heap w (w_heap w ++ [o])). unfold py_copy. rewrite Ho. split; [reflexivity|]. split; [exists [o]; reflexivity|].
  pose proof (snoc_get w o (w_uuid w) (w_trace w) (w_nodes w)) as G. change (mkWorld (w_heap w ++ [o]) (w_uuid w) (w_trace w) (w_nodes w)) with (set_heap w (w_heap w ++ [o])) in G.
  split; [rewrite G, Nat.eqb_refl; reflexivity|]. split; [intros y Hy; rewrite G; destruct (Nat.eqb_spec y (List.length (w_heap w))); [contradiction|reflexivity]|].
  split; [reflexivity|]. cbn. rewrite app_length. cbn. lia.
Qed.
Section Shallow.
Variables (w w' : world) (r c : nat) (o : mobj).
Hypotheses (Hw : wf_world w) (Ho : get_obj w r = Some o) (Hc : get_obj w' c = Some o) (Hn : w_nodes w' = w_nodes w)
  (Hk : forall y p, get_obj w y = Some p -> get_obj w' y = Some p).
Lemma iter_kept n : forall x seen parts, x < List.length (w_heap w) -> iter_state_rec n w' x seen parts = iter_state_rec n w x seen parts.
Proof.
  induction n as [|n IH]; intros x s parts Hx; [reflexivity|]. cbn [iter_state_rec]. destruct (get_obj_ex _ _ Hx) as [p Hp]. rewrite Hp, (Hk _ _ Hp).
  destruct (nmem (m_id p) s); [reflexivity|]. rewrite Hn.
  assert (F : forall k y, In (k, ARaw (PyMod y)) (sort_by_key (m_vars p)) -> y < List.length (w_heap w)).
  { intros k y Hy. apply (Permutation_in _ (sort_perm (m_vars p))) in Hy.
    apply (wfo_refs _ _ (wf_objs _ Hw _ _ Hp) k). apply In_dget; [apply (wfo_names _ _ (wf_objs _ Hw _ _ Hp))|exact Hy]. }
  revert F. generalize (s ++ [m_id p]). induction (sort_by_key (m_vars p)) as [|[k a] t IHt]; intros s1 F; [reflexivity|].
  assert (F' : forall k y, In (k, ARaw (PyMod y)) t -> y < List.length (w_heap w)) by (intros k' y Hy; apply (F k'); right; exact Hy).
  cbn [iter_fields]. destruct a as [[]|]; try (rewrite IHt by exact F'; reflexivity).
  rewrite IH by (apply (F k); left; reflexivity). destruct (iter_state_rec n w r0 s1 (parts ++ [k])) as [[xs s2]|e]; cbn [rbind]; [|reflexivity]. rewrite IHt by exact F'. reflexivity.
Qed.
Lemma def_kept n : forall x mi, x < List.length (w_heap w) -> make_def n w' x mi = make_def n w x mi.
Proof.
  induction n as [|n IH]; intros x s Hx; [reflexivity|]. cbn [make_def]. destruct (get_obj_ex _ _ Hx) as [p Hp]. rewrite Hp, (Hk _ _ Hp).
  destruct (index_of (m_id p) s); [reflexivity|]. rewrite Hn.
  assert (F : forall k y, In (k, ARaw (PyMod y)) (sort_by_key (m_vars p)) -> y < List.length (w_heap w)).
  { intros k y Hy. apply (Permutation_in _ (sort_perm (m_vars p))) in Hy.
    apply (wfo_refs _ _ (wf_objs _ Hw _ _ Hp) k). apply In_dget; [apply (wfo_names _ _ (wf_objs _ Hw _ _ Hp))|exact Hy]. }
  assert (G : forall s1, make_fields (make_def n w') (w_nodes w) (sort_by_key (m_vars p)) s1 = make_fields (make_def n w) (w_nodes w) (sort_by_key (m_vars p)) s1).
  { revert F. induction (sort_by_key (m_vars p)) as [|[k a] t IHt]; intros F s1; [reflexivity|].
    assert (F' : forall k y, In (k, ARaw (PyMod y)) t -> y < List.length (w_heap w)) by (intros k' y Hy; apply (F k'); right; exact Hy).
    cbn [make_fields]. destruct a as [[]|]; try (rewrite IHt by exact F'; reflexivity).
    rewrite IH by (apply (F k); left; reflexivity). destruct (make_def n w r0 s1) as [[xs s2]|e]; cbn [rbind]; [|reflexivity]. rewrite IHt by exact F'. reflexivity. }
  rewrite G. reflexivity.
Qed.
(** an object with the same contents gives the same traversal *)
Lemma iter_twin n s parts : iter_state_rec n w' c s parts = iter_state_rec n w' r s parts.
Proof. destruct n; [reflexivity|]. cbn [iter_state_rec]. now rewrite Hc, (Hk _ _ Ho). Qed.
Lemma def_twin n mi : make_def n w' c mi = make_def n w' r mi.
Proof. destruct n; [reflexivity|]. cbn [make_def]. now rewrite Hc, (Hk _ _ Ho). Qed.
Lemma twin_state : List.length (w_heap w) <= List.length (w_heap w') -> get_state w' c = get_state w r.
Proof.
  intros L. pose proof (get_obj_lt _ _ _ Ho) as Hr. unfold get_state. rewrite (iter_state_any_fuel w r Hw Hr (dfs_fuel w')) by (unfold dfs_fuel; lia).
  unfold iter_state. rewrite iter_twin, iter_kept by exact Hr. reflexivity.
Qed.
Lemma twin_def : List.length (w_heap w) <= List.length (w_heap w') -> get_module_def w' c = get_module_def w r.
Proof.
  intros L. pose proof (get_obj_lt _ _ _ Ho) as Hr. unfold get_module_def. rewrite def_twin, def_kept by exact Hr.
  destruct (graph_exists w r Hw Hr) as (d & L0 & Hg).
  assert (Q : forall k, List.length (w_heap w) < k -> make_def k w r [] = Ok (d, ids w L0)).
  { intros k Hk0. change (@nil nat) with (ids w []). apply (proj1 (make_def_dspec w Hw)); auto; [constructor|]. cbn. lia. }
  rewrite !Q by (unfold dfs_fuel; lia). reflexivity.
Qed.
End Shallow.

(** ** The module below a kept part of the heap *)
Lemma kept_look w w2 : wf_world w -> (forall y p, get_obj w y = Some p -> get_obj w2 y = Some p) ->
  forall p x, x < List.length (w_heap w) -> look w2 x p = look w x p.
Proof.
  intros Hw Hk. induction p as [|n p IH]; intros x Hx; destruct (get_obj_ex _ _ Hx) as [o Ho]; cbn; rewrite Ho, (Hk _ _ Ho); [reflexivity|].
  destruct (dget n (m_vars o)) as [[[|b|z|s|l|y|c i]|c]|] eqn:E; try reflexivity. apply IH. exact (wfo_refs _ _ (wf_objs _ Hw _ _ Ho) _ _ E).
Qed.
Lemma twin_look w w2 r c o : wf_world w -> (forall y p, get_obj w y = Some p -> get_obj w2 y = Some p) -> get_obj w r = Some o -> get_obj w2 c = Some o ->
  forall p, look w2 c p = look w r p.
Proof.
  intros Hw Hk Ho Hc [|n p]; cbn; rewrite Ho, Hc; [reflexivity|]. destruct (dget n (m_vars o)) as [[[|b|z|s|l|y|cc i]|cc]|] eqn:E; try reflexivity.
  apply (kept_look w w2 Hw Hk). exact (wfo_refs _ _ (wf_objs _ Hw _ _ Ho) _ _ E).
Qed.

(** ** A module that has been visited is not visited again *)
Lemma fields_seen rec nt l : (forall x s q xs s', rec x s q = Ok (xs, s') -> incl s s') ->
  forall s q xs s', iter_fields rec nt l s q = Ok (xs, s') -> incl s s'.
Proof.
  intros Hr. induction l as [|[k a] t IH]; cbn; intros s q xs s' H; [injection H as <- <-; apply incl_refl|].
  assert (T : forall ys s2, iter_fields rec nt t s q = Ok (ys, s2) -> incl s s2) by (intros; eapply IH; eauto).
  destruct a as [[|b|z|u|l0|y|c i]|c]; try (destruct (iter_fields rec nt t s q) as [[ys s2]|e]; cbn in H; [|discriminate];
    destruct (is_node nt _) in H; injection H as _ <-; exact (T ys s2 eq_refl)).
  destruct (rec y s (q ++ [k])) as [[ys s1]|e] eqn:E1; cbn in H; [|discriminate]. destruct (iter_fields rec nt t s1 q) as [[zs s2]|e] eqn:E2; cbn in H; [|discriminate].
  injection H as _ <-. eapply incl_tran; [eapply Hr; exact E1|]. eapply IH; exact E2.
Qed.
Lemma iter_seen n : forall w x s q xs s', iter_state_rec n w x s q = Ok (xs, s') -> incl s s' /\ forall o, get_obj w x = Some o -> In (m_id o) s'.
Proof.
  induction n as [|n IH]; intros w x s q xs s' H; [discriminate|]. cbn [iter_state_rec] in H. destruct (get_obj w x) as [o|] eqn:Ho; [|discriminate].
  destruct (nmem (m_id o) s) eqn:Em.
  - injection H as <- <-. split; [apply incl_refl|]. intros o1 [= <-]. apply nmem_In. exact Em.
  - apply (fields_seen _ _ _ (fun x s q xs s' E => proj1 (IH w x s q xs s' E))) in H. split.
    + intros y Hy. apply H. apply in_or_app. auto.
    + intros o1 [= <-]. apply H. apply in_or_app. right. left. reflexivity.
Qed.
