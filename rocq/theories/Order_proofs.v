(** Order_proofs: several calls of update_state. *)
From Coq Require Import Permutation Sorted Lia.
From Verif Require Import PyBase PyBaseFacts ValuesM Spec_Eq ValuesFacts FiltersM StateM Spec_State State_proofs ModuleM Spec_Module Spec_Prog Spec_Path Graph_facts
  Dfs_proofs Build_proofs Bisim_proofs Skel_proofs RoundTrip_proofs Clone_proofs Update_proofs Grow_proofs Path_proofs Prop_Path
  Leaf_proofs Revalue_proofs Laws_proofs
  TransformM GradFunM Spec_GradFun Spec_TrainLoop TrainLoop_proofs Spec_Address Address_proofs Spec_Order.
Local Open Scope string_scope.
Local Open Scope list_scope.

Lemma gives_hit w c x n a : fits w (fst c) (snd c) -> gives w c x n a <-> hit w (fst c) (snd c) x n = Some a.
Proof.
  intros HF. split.
  - intros (k & Hk & Hn). now apply (hit_fits w _ _ x n k).
  - intros H. apply hit_Some in H as (k & Hk & Hn). exists k. split; [apply In_dget; [apply HF|exact Hk]|exact Hn].
Qed.
Lemma disjoint_sym w c c' : disjoint w c c' -> disjoint w c' c.
Proof. intros H x n a a' G G'. exact (H x n a' a G' G). Qed.
Lemma target_ext w w' r k : (forall x q, follow w' x q = follow w x q) -> target w' r k = target w r k.
Proof. intros H. unfold target. now rewrite H. Qed.
Lemma named_ext w w' r k x n : (forall x q, follow w' x q = follow w x q) -> named w' r k x n <-> named w r k x n.
Proof. intros H. rewrite !named_target. now rewrite (target_ext w w'). Qed.
Lemma hit_ext w w' r s x n : (forall x q, follow w' x q = follow w x q) -> hit w' r s x n = hit w r s x n.
Proof. intros H. induction s as [|[k a] s IH]; [reflexivity|]. cbn [hit]. now rewrite (target_ext w w'), IH. Qed.
Lemma gives_ext w w' c x n a : (forall x q, follow w' x q = follow w x q) -> gives w' c x n a <-> gives w c x n a.
Proof. intros H. split; intros (k & Hk & Hn); exists k; (split; [exact Hk|]); now apply (named_ext w w'). Qed.

(** after a call the others can be made as before, if they give nothing to its attributes *)
Definition moved_on (w : world) (c : nat * state) (w1 : world) : Prop :=
  hits w (fst c) (snd c) w1 /\ (forall x q, follow w1 x q = follow w x q) /\
  w_trace w1 = w_trace w /\ w_nodes w1 = w_nodes w /\ List.length (w_heap w1) = List.length (w_heap w).
Lemma get_back w w1 x o1 : List.length (w_heap w1) = List.length (w_heap w) -> get_obj w1 x = Some o1 -> exists o, get_obj w x = Some o.
Proof. intros L H. apply get_obj_lt in H. rewrite L in H. now apply get_obj_ex in H. Qed.
Lemma named_name w r k x n : named w r k x n -> has_char "/" n = false.
Proof.
  intros (q & E & _). pose proof (split_slash_noslash k) as F. rewrite E in F. apply Forall_app in F as [_ F]. inversion F; subst. assumption.
Qed.
Lemma names_after w c w1 r : ready w c -> moved_on w c w1 -> names_ok w r -> names_ok w1 r.
Proof.
  intros (_ & _ & _ & HF & HP) (HH & FF & T & NT & Len) N x o1 name a [p Hx] Ho Ha. rewrite FF in Hx. destruct (get_back w w1 x o1 Len Ho) as [o Ho0].
  destruct (HH x o Ho0) as (d & Ho' & Hd). rewrite Ho in Ho'. injection Ho' as ->. cbn [m_vars set_vars] in Ha. rewrite Hd in Ha.
  destruct (hit w (fst c) (snd c) x name) as [b|] eqn:Eh.
  - apply hit_Some in Eh as (k & Hk & Hn). pose proof (named_name _ _ _ _ _ Hn) as S1. assert (P1 := HP k x name (in_map fst _ _ Hk) Hn). auto.
  - destruct (N x o name a (ex_intro _ p Hx) Ho0 Ha) as (N1 & N2 & N3). split; [exact N1|]. split.
    + intros (o2 & A1 & A2 & A3 & A4). apply N2. exists o. rewrite NT in A4. auto.
    + intros (o2 & A1 & A2 & A3 & A4). apply N3. exists o. rewrite NT in A4. auto.
Qed.
Lemma live_after w c w1 r : moved_on w c w1 -> live w r -> live w1 r.
Proof.
  intros (HH & FF & T & NT & Len) L x o1 [p Hx] Ho. rewrite FF in Hx. destruct (get_back w w1 x o1 Len Ho) as [o Ho0]. destruct (HH x o Ho0) as (d & Ho' & _). rewrite Ho in Ho'. injection Ho' as ->.
  rewrite T. cbn. apply (L x o); [now exists p|exact Ho0].
Qed.
Lemma ready_after w c w1 c2 : ready w c -> moved_on w c w1 -> ready w c2 -> (forall k a x n, dget k (snd c2) = Some a -> named w (fst c2) k x n ->
     forall res, stored w x n a res -> exists res', stored w1 x n a res') -> ready w1 c2.
Proof.
  intros R M (V2 & N2 & L2 & (F1 & F2 & F3) & P2) HS. pose proof M as (HH & FF & T & NT & Len). split; [now rewrite Len|]. split; [now apply (names_after w c)|]. split; [now apply (live_after w c)|]. split.
  - split; [exact F1|]. split.
    + intros k a Hk. destruct (F2 k a Hk) as (Wa & Sa & x & n & res & Hn & Hst). split; [exact Wa|]. split; [exact Sa|]. destruct (HS k a x n Hk Hn res Hst) as (res' & Hst'). exists x, n, res'. split; [now apply (named_ext w w1)|exact Hst'].
    + intros k k' x n Hk Hk' Hn Hn'. apply (named_ext w w1) in Hn, Hn'; auto. eapply F3; eauto.
  - intros k x n Hk Hn. apply (named_ext w w1) in Hn; auto. eapply P2; eauto.
Qed.
Lemma ready_disjoint w c w1 c2 : ready w c -> moved_on w c w1 -> ready w c2 -> disjoint w c c2 -> ready w1 c2.
Proof.
  intros R M R2 HD. apply (ready_after w c); auto. intros k a x n Hk Hn res (o & Ho & Hr & Hm). exists res. destruct M as (HH & _). destruct (HH x o Ho) as (d & Ho' & Hd). exists (set_vars o d). split; [exact Ho'|]. split; [exact Hr|].
  cbn [m_vars set_vars]. rewrite Hd. destruct (hit w (fst c) (snd c) x n) as [b|] eqn:Eh; [|exact Hm]. exfalso. apply (gives_hit w c) in Eh; [|apply R]. apply (HD x n b a Eh). exists k. auto.
Qed.

Fixpoint hit_any (w : world) (calls : list (nat * state)) (x : nat) (n : string) : option attr :=
  match calls with [] => None | c :: l => match hit w (fst c) (snd c) x n with Some a => Some a | None => hit_any w l x n end end.
Lemma hit_any_ext w w' calls x n : (forall x q, follow w' x q = follow w x q) -> hit_any w' calls x n = hit_any w calls x n.
Proof. intros H. induction calls as [|c l IH]; [reflexivity|]. cbn [hit_any]. now rewrite (hit_ext w w'), IH. Qed.
Lemma hit_any_gives w calls x n a : Forall (ready w) calls -> hit_any w calls x n = Some a -> exists c, In c calls /\ gives w c x n a.
Proof.
  induction 1 as [|c l R _ IH]; cbn [hit_any]; [discriminate|]. destruct (hit w (fst c) (snd c) x n) as [b|] eqn:E.
  - intros [= ->]. exists c. split; [now left|]. apply gives_hit; [apply R|exact E].
  - intros H. destruct (IH H) as (c' & Hc & G). exists c'. split; [now right|exact G].
Qed.
Lemma gives_hit_any w calls x n a c : Forall (ready w) calls -> all_disjoint w calls -> In c calls -> gives w c x n a -> hit_any w calls x n = Some a.
Proof.
  intros HR HD. induction HD as [|c0 l H0 HD IH]; [easy|]. inversion HR as [|? ? R0 R1]; subst. intros [<-|Hc] G; cbn [hit_any].
  - apply gives_hit in G; [now rewrite G|apply R0].
  - destruct (hit w (fst c0) (snd c0) x n) as [b|] eqn:E; [|now apply IH]. exfalso. apply gives_hit in E; [|apply R0]. rewrite Forall_forall in H0. exact (H0 c Hc x n b a E G).
Qed.

Definition all_hits (w : world) (calls : list (nat * state)) (w' : world) : Prop :=
  forall x o, get_obj w x = Some o -> exists d, get_obj w' x = Some (set_vars o d) /\
    forall n, dget n d = match hit_any w calls x n with Some a => Some (put o n a) | None => dget n (m_vars o) end.
Lemma one_call w c : wf_world w -> ready w c -> exists w1, update_state w (fst c) (UStates (One (snd c))) = (w1, Ok tt) /\ wf_world w1 /\ moved_on w c w1.
Proof.
  intros W (V & N & L & HF & _). destruct (update_hits w (fst c) (snd c) W V N L HF) as (w1 & U & W1 & HH & _ & FF & T & NT & Len). exists w1. split; [exact U|]. split; [exact W1|]. unfold moved_on. auto.
Qed.
Theorem all_calls calls : forall w, wf_world w -> Forall (ready w) calls -> all_disjoint w calls ->
  exists w', update_all w calls = (w', Ok tt) /\ wf_world w' /\ all_hits w calls w' /\ (forall x q, follow w' x q = follow w x q) /\
    w_trace w' = w_trace w /\ w_nodes w' = w_nodes w /\ List.length (w_heap w') = List.length (w_heap w).
Proof.
  induction calls as [|c l IH]; intros w W HR HD.
  - exists w. split; [reflexivity|]. split; [exact W|]. split; [|auto]. intros x o Ho. exists (m_vars o). split; [now destruct o|reflexivity].
  - inversion HR as [|? ? R0 R1]; subst. inversion HD as [|? ? D0 D1]; subst. destruct (one_call w c W R0) as (w1 & U & W1 & M). pose proof M as (HH & FF & T & NT & Len).
    destruct (IH w1 W1) as (w' & U' & W' & HH' & FF' & T' & NT' & Len').
    + rewrite Forall_forall in *. intros c2 Hc. apply (ready_disjoint w c); auto.
    + clear - D1 FF. induction D1 as [|c0 l H _ IH]; constructor; [|exact IH]. rewrite Forall_forall in *. intros c1 Hc x n a a' G G'. apply (gives_ext w w1) in G, G'; auto. exact (H c1 Hc x n a a' G G').
    + exists w'. split; [destruct c as [r s]; cbn [update_all]; cbn [fst snd] in U; now rewrite U|]. split; [exact W'|]. split; [|split; [intros; now rewrite FF'|split; [congruence|split; congruence]]].
      intros x o Ho. destruct (HH x o Ho) as (d1 & Ho1 & Hd1). destruct (HH' x _ Ho1) as (d2 & Ho2 & Hd2). exists d2. split; [exact Ho2|]. intros n. rewrite Hd2, (hit_any_ext w w1) by exact FF. cbn [hit_any m_vars set_vars].
      destruct (hit_any w l x n) as [a|] eqn:E.
      * destruct (hit_any_gives w l x n a R1 E) as (c2 & Hc2 & G2). destruct (hit w (fst c) (snd c) x n) as [b|] eqn:Eh.
        { exfalso. apply (gives_hit w c) in Eh; [|apply R0]. rewrite Forall_forall in D0. exact (D0 c2 Hc2 x n b a Eh G2). }
        unfold put. cbn [m_vars set_vars]. now rewrite Hd1, Eh.
      * rewrite Hd1. destruct (hit w (fst c) (snd c) x n); reflexivity.
Qed.

Lemma all_twins w calls calls' w1 w2 : all_hits w calls w1 -> all_hits w calls' w2 -> List.length (w_heap w1) = List.length (w_heap w) -> List.length (w_heap w2) = List.length (w_heap w) ->
  (forall x n, hit_any w calls x n = hit_any w calls' x n) -> twins w1 w2.
Proof.
  intros H1 H2 L1 L2 HE x. destruct (get_obj w x) as [o|] eqn:Ho.
  - destruct (H1 x o Ho) as (d1 & A1 & B1). destruct (H2 x o Ho) as (d2 & A2 & B2). rewrite A1, A2. split; [reflexivity|]. split; [reflexivity|]. intros n. cbn [m_vars set_vars]. now rewrite B1, B2, HE.
  - assert (Q : forall v, List.length (w_heap v) = List.length (w_heap w) -> get_obj v x = None).
    { intros v Lv. destruct (get_obj v x) eqn:Q; [|reflexivity]. apply (get_back w v x m Lv) in Q as [oo Q]. congruence. }
    now rewrite (Q w1 L1), (Q w2 L2).
Qed.
Theorem calls_same w calls calls' : wf_world w -> Forall (ready w) calls -> all_disjoint w calls -> Forall (ready w) calls' -> all_disjoint w calls' ->
  (forall x n a, (exists c, In c calls /\ gives w c x n a) <-> (exists c, In c calls' /\ gives w c x n a)) ->
  exists w1 w2, update_all w calls = (w1, Ok tt) /\ update_all w calls' = (w2, Ok tt) /\ same_everywhere w1 w2 /\ w_trace w1 = w_trace w2.
Proof.
  intros W R D R' D' HE. destruct (all_calls calls w W R D) as (w1 & U1 & W1 & H1 & _ & T1 & N1 & L1). destruct (all_calls calls' w W R' D') as (w2 & U2 & W2 & H2 & _ & T2 & N2 & L2).
  exists w1, w2. split; [exact U1|]. split; [exact U2|]. split; [|congruence]. apply twins_same; auto; try congruence. apply (all_twins w calls calls'); auto. intros x n.
  assert (Q : forall a, hit_any w calls x n = Some a <-> hit_any w calls' x n = Some a).
  { intros a. split; intros H; apply hit_any_gives in H as (c & Hc & G); auto.
    - destruct (proj1 (HE x n a)) as (c' & Hc' & G'); [eauto|]. eapply gives_hit_any; eauto.
    - destruct (proj2 (HE x n a)) as (c' & Hc' & G'); [eauto|]. eapply gives_hit_any; eauto. }
  destruct (hit_any w calls x n) as [a|] eqn:E1; [symmetry; now apply Q|]. destruct (hit_any w calls' x n) as [a|] eqn:E2; [now apply Q|reflexivity].
Qed.
Lemma disjoint_perm w calls calls' : Permutation calls calls' -> all_disjoint w calls -> all_disjoint w calls'.
Proof.
  induction 1 as [|c l l' P IH|c c' l|l l' l'' _ IH1 _ IH2]; intros H; auto.
  - inversion H as [|? ? H0 H1]; subst. constructor; [|now apply IH]. eapply Permutation_Forall; eauto.
  - inversion H as [|? ? H0 H1]; subst. inversion H1 as [|? ? H2 H3]; subst. inversion H0 as [|? ? H4 H5]; subst. constructor; [constructor; [now apply disjoint_sym|exact H2]|]. constructor; assumption.
Qed.
Theorem any_order w calls calls' : wf_world w -> Forall (ready w) calls -> all_disjoint w calls -> Permutation calls calls' ->
  exists w1 w2, update_all w calls = (w1, Ok tt) /\ update_all w calls' = (w2, Ok tt) /\ same_everywhere w1 w2 /\ w_trace w1 = w_trace w2.
Proof.
  intros W R D P. apply calls_same; auto; [eapply Permutation_Forall; eauto|eapply disjoint_perm; eauto|].
  intros x n a. split; intros (c & Hc & G); exists c; (split; [|exact G]); [eapply Permutation_in; eauto|eapply Permutation_in; [symmetry|]; eauto].
Qed.
Theorem calls_effect w calls : wf_world w -> Forall (ready w) calls -> all_disjoint w calls ->
  exists w', update_all w calls = (w', Ok tt) /\ (forall x q, follow w' x q = follow w x q) /\
    (forall c x n a res, In c calls -> gives w c x n a -> stored w x n a res -> look w' x [n] = SValue res) /\
    (forall x n, (forall c a, In c calls -> ~ gives w c x n a) -> look w' x [n] = look w x [n]).
Proof.
  intros W R D. destruct (all_calls calls w W R D) as (w' & U & W' & HH & FF & T & NT & Len). exists w'. split; [exact U|]. split; [exact FF|]. split.
  - intros c x n a res Hc G Hst. pose proof Hst as (o & Ho & _). destruct (HH x o Ho) as (d & Ho' & Hd). cbn [look]. rewrite Ho'. cbn [m_vars set_vars]. rewrite Hd, (gives_hit_any w calls x n a c R D Hc G).
    pose proof G as (k & Hk & _). rewrite Forall_forall in R. destruct (R c Hc) as (_ & _ & _ & (_ & F2 & _) & _). destruct (F2 k a Hk) as (Wa & Sa & _).
    destruct (stored_put w x o n a res W Ho Wa Sa Hst) as (A1 & _). unfold put. rewrite A1. pose proof (assign_not_sub _ _ _ Sa A1) as Sr. destruct res as [v|c']; [|reflexivity]. destruct v; try reflexivity. discriminate.
  - intros x n Hn. destruct (get_obj w x) as [o|] eqn:Ho.
    + destruct (HH x o Ho) as (d & Ho' & Hd). cbn [look]. rewrite Ho, Ho'. cbn [m_vars set_vars]. rewrite Hd. destruct (hit_any w calls x n) as [a|] eqn:E; [exfalso; apply hit_any_gives in E as (c & Hc & G); auto; exact (Hn c a Hc G)|].
      destruct (dget n (m_vars o)) as [b|] eqn:Eb; [|reflexivity]. destruct b as [v|c]; [|reflexivity]. destruct v as [| | | | |y|]; try reflexivity.
      assert (Ry : reaches w x y) by (apply (reaches_child w _ n _ W); exists o; split; eassumption). destruct Ry as [py Hy]. apply follow_valid in Hy as [oy Hoy]. destruct (HH y oy Hoy) as (dy & Hoy' & _). rewrite Hoy, Hoy'. reflexivity.
    + cbn [look]. rewrite Ho. destruct (get_obj w' x) as [o|] eqn:Ho'; [|reflexivity]. apply (get_back w w' x o Len) in Ho' as [oo Q]. congruence.
Qed.

(** ** One call with several States *)
Lemma dupdate_app (s1 s2 d : state) : dupdate d (s1 ++ s2) = dupdate (dupdate d s1) s2.
Proof. unfold dupdate. apply fold_left_app. Qed.
Lemma many_one w r ss : update_state w r (UStates (Many ss)) = update_state w r (UStates (One (List.concat ss))).
Proof.
  unfold update_state. destruct (get_state w r) as [cur|e]; [|reflexivity]. unfold update_module. cbn [sts_list fold_left]. f_equal.
  generalize (dupdate ([] : state) cur) as d. induction ss as [|s ss IH]; intros d; [reflexivity|]. cbn [fold_left List.concat]. rewrite dupdate_app. now rewrite IH.
Qed.
Lemma keys_app (d e : state) : keys (d ++ e) = keys d ++ keys e.
Proof. unfold keys. apply map_app. Qed.
Lemma dget_app (d e : state) k : dget k (d ++ e) = match dget k d with Some a => Some a | None => dget k e end.
Proof. induction d as [|[j a] d IH]; [reflexivity|]. cbn. destruct (String.eqb k j); [reflexivity|exact IH]. Qed.
Lemma NoDup_halves {A} (l l' : list A) : NoDup (l ++ l') -> NoDup l /\ NoDup l' /\ forall x, In x l -> ~ In x l'.
Proof.
  induction l as [|a l IH]; cbn; intros H; [repeat split; auto; constructor|]. inversion H as [|? ? H1 H2]; subst. destruct (IH H2) as (A1 & A2 & A3). split; [constructor; [intros Q; apply H1, in_or_app; now left|exact A1]|].
  split; [exact A2|]. intros x [<-|Hx]; [intros Q; apply H1, in_or_app; now right|now apply A3].
Qed.
Lemma ready_half w r s s' : ready w (r, s ++ s') -> ready w (r, s) /\ ready w (r, s') /\ disjoint w (r, s) (r, s') /\
  forall x n a, gives w (r, s ++ s') x n a <-> gives w (r, s) x n a \/ gives w (r, s') x n a.
Proof.
  intros (V & N & L & (F1 & F2 & F3) & P). cbn [fst snd] in *. rewrite keys_app in F1. apply NoDup_halves in F1 as (A1 & A2 & A3).
  assert (G1 : forall k a, dget k s = Some a -> dget k (s ++ s') = Some a) by (intros k a H; now rewrite dget_app, H).
  assert (G2 : forall k a, dget k s' = Some a -> dget k (s ++ s') = Some a).
  { intros k a H. rewrite dget_app. destruct (dget k s) as [b|] eqn:E; [|exact H]. exfalso. exact (A3 k (dget_In_keys _ _ _ E) (dget_In_keys _ _ _ H)). }
  assert (I1 : forall k, In k (keys s) -> In k (keys (s ++ s'))) by (intros k H; rewrite keys_app; apply in_or_app; now left).
  assert (I2 : forall k, In k (keys s') -> In k (keys (s ++ s'))) by (intros k H; rewrite keys_app; apply in_or_app; now right).
  split; [|split; [|split]].
  - split; [exact V|]. split; [exact N|]. split; [exact L|]. split; [|intros k x n Hk; apply P; now apply I1]. split; [exact A1|]. split; [intros k a Hk; apply F2; now apply G1|]. intros k k' x n Hk Hk'. apply F3; now apply I1.
  - split; [exact V|]. split; [exact N|]. split; [exact L|]. split; [|intros k x n Hk; apply P; now apply I2]. split; [exact A2|]. split; [intros k a Hk; apply F2; now apply G2|]. intros k k' x n Hk Hk'. apply F3; now apply I2.
  - intros x n a a' (k & Hk & Hn) (k' & Hk' & Hn'). cbn [fst snd] in *. apply dget_In_keys in Hk, Hk'. assert (k = k') by (apply (F3 k k' x n); auto). subst k'. exact (A3 k Hk Hk').
  - intros x n a. split.
    + intros (k & Hk & Hn). cbn [fst snd] in *. rewrite dget_app in Hk. destruct (dget k s) as [b|] eqn:E; [left|right]; exists k; cbn [fst snd]; split; auto. congruence.
    + intros [(k & Hk & Hn)|(k & Hk & Hn)]; exists k; cbn [fst snd] in *; auto.
Qed.
Lemma ready_parts w r ss : ready w (r, List.concat ss) -> Forall (ready w) (map (pair r) ss) /\ all_disjoint w (map (pair r) ss) /\
  forall x n a, (exists c, In c (map (pair r) ss) /\ gives w c x n a) <-> gives w (r, List.concat ss) x n a.
Proof.
  induction ss as [|s ss IH]; cbn [List.concat map]; intros H.
  - split; [constructor|]. split; [constructor|]. intros x n a. split; [intros (c & [] & _)|intros (k & Hk & _); discriminate].
  - apply ready_half in H as (H1 & H2 & H3 & H4). destruct (IH H2) as (R & D & G). split; [now constructor|]. split.
    + constructor; [|exact D]. apply Forall_forall. intros c Hc x n a a' Ga Ga'. apply (H3 x n a a' Ga). apply G. eauto.
    + intros x n a. rewrite H4, <- G. split.
      * intros (c & [<-|Hc] & Gc); [now left|right; eauto].
      * intros [Gs|(c & Hc & Gc)]; [exists (r, s); split; [now left|exact Gs]|exists c; split; [now right|exact Gc]].
Qed.
Theorem split_calls w r ss : wf_world w -> ready w (r, List.concat ss) ->
  exists w1 w2, update_state w r (UStates (Many ss)) = (w1, Ok tt) /\ update_all w (map (pair r) ss) = (w2, Ok tt) /\ same_everywhere w1 w2 /\ w_trace w1 = w_trace w2.
Proof.
  intros W R. destruct (ready_parts w r ss R) as (Rs & Ds & G).
  destruct (calls_same w [(r, List.concat ss)] (map (pair r) ss) W) as (w1 & w2 & U1 & U2 & SE & T); auto.
  - constructor; [constructor|constructor].
  - intros x n a. rewrite G. split; [intros (c & [<-|[]] & Gc); exact Gc|intros Gc; exists (r, List.concat ss); split; [now left|exact Gc]].
  - exists w1, w2. rewrite many_one. cbn [update_all] in U1. destruct (update_state w r (UStates (One (List.concat ss)))) as [w3 [[]|e]]; [|discriminate]. injection U1 as ->. auto.
Qed.

(** ** The last call counts *)
Lemma assign_twice (old : option attr) a1 a2 r1 r2 : (forall b, old = Some b -> wf_attr b) -> wf_attr a1 -> wf_attr a2 -> same_shape a1 a2 ->
  assign_value old a1 = Ok r1 -> assign_value old a2 = Ok r2 -> assign_value (Some r1) a2 = Ok r2.
Proof.
  intros Wo Wa1 Wa2 Sh H1 H2. pose proof (assign_wf old a1 r1 Wo Wa1 H1) as Wr1. apply assign_overwrites; auto.
  destruct old as [b|].
  - specialize (Wo b eq_refl). apply assign_overwrites in H1, H2; auto. destruct b as [v|c].
    + cbn in H1, H2. subst r1 r2. destruct a1 as [v1|c1], a2 as [v2|c2]; cbn in Sh |- *; auto; try contradiction. destruct Sh as [E1 E2]. split; [auto|]. split; [rewrite E2; apply same_meta_refl|]. destruct c2; cbn in *. now subst.
    + destruct a1 as [v1|c1], a2 as [v2|c2]; cbn in Sh, H1, H2; try contradiction.
      * subst r1 r2. reflexivity.
      * destruct H1 as (_ & _ & ->). destruct H2 as (E1 & E2 & ->). cbn. auto.
  - unfold assign_value in H1, H2. destruct a1 as [v1|c1], a2 as [v2|c2]; cbn in Sh; try contradiction.
    + injection H1 as <-. injection H2 as <-. reflexivity.
    + cbn in Wa1, Wa2. rewrite container_copy_id in H1 by assumption. rewrite container_copy_id in H2 by assumption. injection H1 as <-. injection H2 as <-. cbn. destruct Sh as [E1 E2]. split; [auto|]. split; [rewrite E2; apply same_meta_refl|]. destruct c2; cbn in *. now subst.
Qed.
Theorem last_call w c c' : wf_world w -> ready w c -> ready w c' ->
  (forall x n a, gives w c x n a -> exists a', gives w c' x n a' /\ same_shape a a') ->
  exists w1 w2, update_all w [c; c'] = (w1, Ok tt) /\ update_all w [c'] = (w2, Ok tt) /\ same_everywhere w1 w2 /\ w_trace w1 = w_trace w2.
Proof.
  intros W R R' HG. destruct (one_call w c W R) as (w1 & U1 & W1 & M1). pose proof M1 as (H1 & F1 & T1 & N1 & L1). destruct (one_call w c' W R') as (w2 & U2 & W2 & M2). pose proof M2 as (H2 & F2 & T2 & N2 & L2).
  pose proof R as (_ & _ & _ & HF & _). pose proof R' as (_ & _ & _ & HF' & _).
  assert (SH : forall k a x n o d, dget k (snd c') = Some a -> named w (fst c') k x n -> get_obj w x = Some o -> get_obj w1 x = Some (set_vars o d) ->
     (forall n, dget n d = match hit w (fst c) (snd c) x n with Some a => Some (put o n a) | None => dget n (m_vars o) end) ->
     forall res, stored w x n a res -> assign_value (dget n d) a = Ok res /\ stored w1 x n a res).
  { intros k a x n o d Hk Hn Ho Ho' Hd res Hst. destruct HF' as (_ & F' & F3'). destruct (F' k a Hk) as (Wa & Sa & _). destruct (stored_put w x o n a res W Ho Wa Sa Hst) as (A1 & A2 & A3). rewrite Hd.
    destruct (hit w (fst c) (snd c) x n) as [b|] eqn:Eh.
    - pose proof Eh as Gb. apply gives_hit in Gb; [|exact HF]. destruct (HG x n b Gb) as (a' & (k' & Hk' & Hn') & Sh). assert (k' = k) by (apply (F3' k' k x n); auto; eapply dget_In_keys; eauto). subst k'. assert (a' = a) by congruence. subst a'.
      destruct Gb as (kb & Hkb & Hnb). destruct HF as (_ & F & _). destruct (F kb b Hkb) as (Wb & Sb & xb & nb & resb & Hnb' & Hstb). apply named_target in Hnb, Hnb'. rewrite Hnb in Hnb'. injection Hnb' as <- <-.
      destruct (stored_put w x o n b resb W Ho Wb Sb Hstb) as (B1 & _). unfold put. rewrite B1.
      assert (AT : assign_value (Some resb) a = Ok res). { apply (assign_twice (dget n (m_vars o)) b a resb res); auto. intros z Hz. exact (wfo_attrs _ _ (wf_objs _ W _ _ Ho) _ _ Hz). }
      split; [exact AT|]. exists (set_vars o d). split; [exact Ho'|]. split; [exact A3|]. cbn [m_vars set_vars]. rewrite Hd, Eh. unfold put. rewrite B1. split; [exact (assign_not_sub _ _ _ Sb B1)|].
      apply assign_overwrites; auto. apply (assign_wf (dget n (m_vars o)) b resb); auto. intros z Hz. exact (wfo_attrs _ _ (wf_objs _ W _ _ Ho) _ _ Hz).
    - split; [exact A1|]. exists (set_vars o d). split; [exact Ho'|]. split; [exact A3|]. cbn [m_vars set_vars]. rewrite Hd, Eh. destruct Hst as (o2 & Ho2 & _ & Hm). assert (o2 = o) by congruence. now subst o2. }
  assert (R1 : ready w1 c').
  { apply (ready_after w c); auto. intros k a x n Hk Hn res Hst. pose proof Hst as (o & Ho & _). destruct (H1 x o Ho) as (d & Ho' & Hd). exists res. apply (SH k a x n o d Hk Hn Ho Ho' Hd res Hst). }
  destruct (one_call w1 c' W1 R1) as (w3 & U3 & W3 & M3). pose proof M3 as (H3 & F3 & T3 & N3 & L3).
  exists w3, w2. destruct c as [r s], c' as [r' s']. cbn [fst snd] in *. cbn [update_all]. rewrite U1, U3, U2. split; [reflexivity|]. split; [reflexivity|]. split; [|congruence]. apply twins_same; auto; try congruence.
  intros x. destruct (get_obj w x) as [o|] eqn:Ho.
  - destruct (H1 x o Ho) as (d1 & A1 & B1). destruct (H2 x o Ho) as (d2 & A2 & B2). destruct (H3 x _ A1) as (d3 & A3 & B3). rewrite A3, A2. split; [reflexivity|]. split; [reflexivity|]. intros n. cbn [m_vars set_vars].
    rewrite B3, B2, (hit_ext w w1) by exact F1. cbn [m_vars set_vars]. destruct (hit w r' s' x n) as [a|] eqn:E.
    + pose proof E as G. apply (gives_hit w (r', s')) in G; [|exact HF']. destruct G as (k & Hk & Hn). cbn [fst snd] in *. destruct HF' as (_ & F' & _). destruct (F' k a Hk) as (Wa & Sa & x' & n' & res & Hn' & Hst).
      apply named_target in Hn'. pose proof Hn as Hn2. apply named_target in Hn2. rewrite Hn2 in Hn'. injection Hn' as <- <-. destruct (SH k a x n o d1 Hk Hn Ho A1 B1 res Hst) as (Q & _). destruct (stored_put w x o n a res W Ho Wa Sa Hst) as (Q2 & _).
      unfold put. cbn [m_vars set_vars]. now rewrite Q, Q2.
    + rewrite B1. destruct (hit w r s x n) as [b|] eqn:Eh; [|reflexivity]. exfalso. apply (gives_hit w (r, s)) in Eh; [|exact HF]. destruct (HG x n b Eh) as (a' & G & _). apply (gives_hit w (r', s')) in G; [|exact HF']. cbn [fst snd] in G. congruence.
  - assert (Q : forall v, List.length (w_heap v) = List.length (w_heap w) -> get_obj v x = None).
    { intros v Lv. destruct (get_obj v x) eqn:Q; [|reflexivity]. apply (get_back w v x m Lv) in Q as [oo Q]. congruence. }
    rewrite (Q w3) by congruence. now rewrite (Q w2 L2).
Qed.
