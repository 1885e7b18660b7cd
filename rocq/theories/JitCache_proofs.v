(** JitCache_proofs: the compilation cache of jit. *)
From Coq Require Import Lia.
From Verif Require Import PyBase PyBaseFacts ValuesM Spec_Eq ValuesFacts FiltersM StateM ModuleM TransformM Spec_Module Graph_facts Mdef_proofs JitCacheM Spec_JitCache.
Local Open Scope string_scope.
Local Open Scope list_scope.

(** ** similarity *)
Section Sim.
Variable Alike : pyval -> pyval -> Prop.
Hypothesis HE : forall v, Alike v v.
Hypothesis HQ : forall a b, Alike a b -> py_eq a b.
Notation attr_sim := (attr_sim Alike). Notation entry_sim := (entry_sim Alike). Notation dict_sim := (dict_sim Alike). Notation sts_sim := (sts_sim Alike).
Notation mdef_sim := (mdef_sim Alike). Notation pure_sim := (pure_sim Alike). Notation obj_sim := (obj_sim Alike). Notation world_sim := (world_sim Alike).
Lemma opt_sim_refl a : opt_sim Alike a a.
Proof. destruct a; cbn; auto. Qed.
Lemma opt_sim_meta m m' : (forall k, opt_sim Alike (dget k m) (dget k m')) -> same_meta m m'.
Proof. intros H k. specialize (H k). destruct (dget k m), (dget k m'); cbn in *; auto. Qed.
Lemma sim_mod r v : Alike (PyMod r) v -> v = PyMod r.
Proof. intros H. now apply py_eq_mod, HQ. Qed.
Lemma attr_sim_refl a : wf_attr a -> attr_sim a a.
Proof. destruct a as [v|[c m v]]; intros H; constructor; auto using opt_sim_refl. Qed.
Lemma dict_sim_refl d : wf_entries d -> dict_sim d d.
Proof.
  induction d as [|[k a] d IH]; intros H; constructor.
  - split; [reflexivity|]. apply attr_sim_refl, (H k a). now left.
  - apply IH. intros k' a' I. apply (H k'). now right.
Qed.
Lemma attr_sim_wf a b : attr_sim a b -> wf_attr a /\ wf_attr b.
Proof. intros H. destruct H; cbn; auto. Qed.
Lemma dict_sim_get d e : dict_sim d e -> forall k,
  match dget k d, dget k e with Some a, Some b => attr_sim a b | None, None => True | _, _ => False end.
Proof.
  induction 1 as [|[k a] [k' b] d e [E S] F IH]; intros n; cbn [dget]; [exact Logic.I|]. cbn [fst snd] in *. subst k'.
  destruct (String.eqb n k); [exact S|apply IH].
Qed.
Lemma dict_sim_set d e k a b : dict_sim d e -> attr_sim a b -> dict_sim (dset k a d) (dset k b e).
Proof.
  intros F S. induction F as [|[n x] [n' y] d e [E SX] F IH]; cbn [dset].
  - constructor; [split; [reflexivity|exact S]|constructor].
  - cbn [fst snd] in E. subst n'. destruct (String.eqb k n).
    + constructor; [split; [reflexivity|exact S]|exact F].
    + constructor; [split; [reflexivity|exact SX]|exact IH].
Qed.
Lemma dict_sim_update items items' : dict_sim items items' -> forall d e, dict_sim d e -> dict_sim (dupdate d items) (dupdate e items').
Proof.
  induction 1 as [|[k a] [k' b] l l' [E S] F IH]; intros d e H; [exact H|]. rewrite !dupdate_cons. cbn [fst snd] in *. subst k'.
  apply IH. now apply dict_sim_set.
Qed.
Lemma dict_sim_app d e d' e' : dict_sim d e -> dict_sim d' e' -> dict_sim (d ++ d') (e ++ e').
Proof. apply Forall2_app. Qed.
Lemma dict_sim_insert x y d e : entry_sim x y -> dict_sim d e -> dict_sim (insert_by_key x d) (insert_by_key y e).
Proof.
  intros [E S] F. induction F as [|[n a] [n' b] d e [E' S'] F IH]; cbn [insert_by_key].
  - constructor; [split; auto|constructor].
  - cbn [fst snd] in *. subst n'. rewrite <- E. destruct (String.leb (fst x) n).
    + constructor; [split; auto|]. constructor; [split; auto|exact F].
    + constructor; [split; auto|exact IH].
Qed.
Lemma dict_sim_sort d e : dict_sim d e -> dict_sim (sort_by_key d) (sort_by_key e).
Proof. induction 1 as [|x y d e S F IH]; cbn [sort_by_key]; [constructor|]. now apply dict_sim_insert. Qed.
Lemma dict_sim_mk_state d e : dict_sim d e -> dict_sim (mk_state d) (mk_state e).
Proof. intros H. unfold mk_state, dict_of. apply dict_sim_update; [now apply dict_sim_sort|constructor]. Qed.

Lemma is_equivalent_sim c m m' v v' d n n' u u' : wf_container (mkCont c m v) -> wf_container (mkCont c m' v') ->
  wf_container (mkCont d n u) -> wf_container (mkCont d n' u') ->
  (forall k, opt_sim Alike (dget k m) (dget k m')) -> (forall k, opt_sim Alike (dget k n) (dget k n')) ->
  is_equivalent (mkCont c m v) (mkCont d n u) = is_equivalent (mkCont c m' v') (mkCont d n' u').
Proof.
  intros W1 W2 W3 W4 E1 E2. apply opt_sim_meta in E1, E2. apply Bool.eq_iff_eq_true. rewrite !is_equivalent_spec by assumption. cbn [c_cls c_meta].
  split; intros [H1 H2]; (split; [exact H1|]).
  - eapply same_meta_trans; [apply same_meta_sym, E1|]. eapply same_meta_trans; [exact H2|exact E2].
  - eapply same_meta_trans; [exact E1|]. eapply same_meta_trans; [exact H2|apply same_meta_sym, E2].
Qed.

Definition res_sim {A} (R : A -> A -> Prop) (x y : result A) : Prop :=
  match x, y with Ok a, Ok b => R a b | Err e, Err f => e = f | _, _ => False end.

Lemma assign_sim old old' a b :
  match old, old' with Some x, Some y => attr_sim x y | None, None => True | _, _ => False end -> attr_sim a b ->
  res_sim attr_sim (assign_value old a) (assign_value old' b).
Proof.
  intros HO HA.
  assert (CP : forall a b, attr_sim a b -> res_sim attr_sim
                 (match a with ACont c => rmap ACont (container_copy c) | ARaw v => Ok (ARaw v) end)
                 (match b with ACont c => rmap ACont (container_copy c) | ARaw v => Ok (ARaw v) end)).
  { intros x y S. destruct S as [v v' EV|c m m' v v' W1 W2 EM EV]; [now constructor|].
    rewrite !container_copy_id by assumption. now constructor. }
  destruct old as [x|], old' as [y|]; try contradiction; [|now apply CP].
  destruct HO as [v v' EV|c m m' v v' W1 W2 EM EV]; [now apply CP|].
  cbn [assign_value]. rewrite !replace_value by assumption.
  destruct HA as [u u' EU|d n n' u u' W3 W4 EN EU]; cbn [c_cls c_meta c_val].
  - cbn. constructor; auto.
  - rewrite (is_equivalent_sim c m m' v v' d n n' u u') by assumption.
    destruct (is_equivalent _ _); cbn; [|reflexivity].
    constructor; auto.
Qed.

Lemma heap_get w v r : world_sim w v ->
  match get_obj w r, get_obj v r with Some o, Some p => obj_sim o p | None, None => True | _, _ => False end.
Proof.
  intros [H _]. unfold get_obj. revert r. induction H as [|o p h k S F IH]; intros [|r]; cbn [nth_error]; auto; exact (IH r).
Qed.
Lemma Forall2_list_set {A} (R : A -> A -> Prop) h k r o p : Forall2 R h k -> R o p -> Forall2 R (list_set r o h) (list_set r p k).
Proof.
  intros H S. revert r. induction H as [|x y h k S' F IH]; intros [|r]; cbn; try constructor; auto.
Qed.
Lemma put_sim w v r o p : world_sim w v -> obj_sim o p -> world_sim (put_obj w r o) (put_obj v r p).
Proof.
  intros (H & U & T & N & NF) S. split; [|split; [|split; [|split]]]; cbn; auto. now apply Forall2_list_set.
Qed.
Lemma trace_valid_sim w v t : world_sim w v -> trace_valid w t = trace_valid v t.
Proof. intros (_ & _ & T & _). unfold trace_valid. now rewrite T. Qed.

Lemma setattr_sim w v r n a b : world_sim w v -> attr_sim a b -> res_sim world_sim (setattr w r n a) (setattr v r n b).
Proof.
  intros W S. unfold setattr. pose proof (heap_get w v r W) as G.
  destruct (get_obj w r) as [o|], (get_obj v r) as [p|]; try contradiction; [|reflexivity].
  destruct G as (G1 & G2 & G3 & G4 & G5). rewrite <- G4, <- (trace_valid_sim w v _ W).
  destruct (trace_valid w (m_trace o)); cbn [negb]; [|reflexivity].
  destruct (String.eqb n "_module__state"); [reflexivity|].
  pose proof (assign_sim _ _ a b (dict_sim_get _ _ G5 n) S) as A.
  destruct (assign_value (dget n (m_vars o)) a), (assign_value (dget n (m_vars p)) b); try contradiction; [|exact A].
  cbn. apply put_sim; [exact W|]. unfold set_vars. repeat split; cbn; auto. now apply dict_sim_set.
Qed.
Lemma set_path_sim parts : forall w v r a b, world_sim w v -> attr_sim a b ->
  res_sim world_sim (set_path w r parts a) (set_path v r parts b).
Proof.
  induction parts as [|n parts IH]; intros w v r a b W S; [reflexivity|]. cbn [set_path].
  destruct parts as [|n' parts]; [now apply setattr_sim|].
  pose proof (heap_get w v r W) as G.
  destruct (get_obj w r) as [o|], (get_obj v r) as [p|]; try contradiction; [|reflexivity].
  destruct G as (_ & _ & _ & _ & G5). pose proof (dict_sim_get _ _ G5 n) as D.
  destruct (dget n (m_vars o)) as [x|], (dget n (m_vars p)) as [y|]; try contradiction.
  - destruct D as [x x' EX|]; [|reflexivity]. destruct x; try (destruct x'; try reflexivity; pose proof (py_eq_mod _ _ (py_eq_sym _ _ (HQ _ _ EX))); discriminate).
    apply sim_mod in EX. subst x'. now apply IH.
  - destruct (String.eqb n "_module__state"); reflexivity.
Qed.
Lemma update_loop_sim items items' : dict_sim items items' -> forall w v r, world_sim w v ->
  world_sim (fst (update_loop w r items)) (fst (update_loop v r items')) /\
  snd (update_loop w r items) = snd (update_loop v r items').
Proof.
  induction 1 as [|[k a] [k' b] l l' [E S] F IH]; intros w v r W; cbn [update_loop fst snd]; [auto|]. cbn [fst snd] in *. subst k'.
  pose proof (set_path_sim (split_slash k) w v r a b W S) as P.
  destruct (set_path w r (split_slash k) a), (set_path v r (split_slash k) b); try contradiction; [now apply IH|].
  cbn in P. subst. auto.
Qed.

Lemma updates_sim l m : Forall2 dict_sim l m -> forall d e, dict_sim d e ->
  dict_sim (fold_left (fun acc s => dupdate acc s) l d) (fold_left (fun acc s => dupdate acc s) m e).
Proof. induction 1 as [|s t l m S F IH]; intros d e H; cbn [fold_left]; [exact H|]. apply IH. now apply dict_sim_update. Qed.

(** ** building *)
Definition build_rel (x y : nat * list (nat * nat) * world) : Prop :=
  fst (fst x) = fst (fst y) /\ snd (fst x) = snd (fst y) /\ world_sim (snd x) (snd y).
Fixpoint build_subs (l : list (string * mdef)) (im : list (nat * nat)) (w : world)
  : result (list (string * attr) * list (nat * nat) * world) :=
  match l with
  | [] => Ok ([], im, w)
  | (name, sub) :: t =>
      do (r', im', w') <- build sub im w;
      do (ds, im'', w'') <- build_subs t im' w';
      Ok ((name, ARaw (PyMod r')) :: ds, im'', w'')
  end.
Lemma build_MDef c idx subs st ini im w :
  build (MDef c idx subs st ini) im w =
      match im_get idx im with
      | Some _ => Err AssertionError
      | None =>
          let r := List.length (w_heap w) in
          let w1 := set_heap w (w_heap w ++ [mkMobj c 0 false (0, 0) []]) in
          do (ds, im2, w2) <- build_subs subs ((idx, r) :: im) w1;
          let vars := dupdate (dupdate [] st) (dict_of ds) in
          let o := mkMobj c (S (w_uuid w2)) ini (w_trace w2) vars in
          Ok (r, im2, mkWorld (list_set r o (w_heap w2)) (S (w_uuid w2)) (w_trace w2) (w_nodes w2))
      end.
Proof.
  cbn [build]. destruct (im_get idx im); [reflexivity|].
  match goal with |- context [rbind (?f subs _ _) _] => assert (E : forall l i w, f l i w = build_subs l i w) end.
  { induction l as [|[n d] l IH]; intros i w0; [reflexivity|]. cbn [build_subs]. destruct (build d i w0) as [[[? ?] ?]|]; [|reflexivity].
    cbn [rbind]. rewrite IH. reflexivity. }
  rewrite E. reflexivity.
Qed.
Lemma build_subs_wf l : forall im w ds im' w', build_subs l im w = Ok (ds, im', w') -> wf_entries ds.
Proof.
  induction l as [|[n d] l IH]; intros im w ds im' w' E; cbn [build_subs] in E; [injection E as <- <- <-; intros ? ? []|].
  destruct (build d im w) as [[[? ?] ?]|]; [|discriminate]. cbn [rbind] in E. destruct (build_subs l _ _) as [[[? ?] ?]|] eqn:E'; [|discriminate].
  injection E as <- <- <-. intros k a [I|I]; [injection I as <- <-; exact Logic.I|]. exact (IH _ _ _ _ _ E' k a I).
Qed.
Lemma mdef_sim_ind'  (P : mdef -> mdef -> Prop) :
  (forall i, P (MRef i) (MRef i)) ->
  (forall c i subs subs' st st' ini, Forall2 (fun x y => fst x = fst y /\ P (snd x) (snd y)) subs subs' -> dict_sim st st' ->
     P (MDef c i subs st ini) (MDef c i subs' st' ini)) ->
  forall d e, mdef_sim d e -> P d e.
Proof.
  intros H1 H2. fix IH 3. intros d e [i|c i subs subs' st st' ini F S]; [apply H1|]. apply H2; [|exact S].
  induction F as [|x y l l' [E M] F IHF]; constructor; [|exact IHF]. split; [exact E|]. apply IH. exact M.
Qed.
Lemma build_sim d e : mdef_sim d e -> forall im w v, world_sim w v -> res_sim build_rel (build d im w) (build e im v).
Proof.
  revert d e. refine (mdef_sim_ind' _ _ _); [intros i|intros c i subs subs' st st' ini F S]; intros im w v W.
  - cbn [build]. destruct (im_get i im); [|reflexivity]. cbn. unfold build_rel. cbn. auto.
  - rewrite !build_MDef. destruct (im_get i im); [reflexivity|]. cbv zeta.
    assert (L : List.length (w_heap w) = List.length (w_heap v)) by (eapply Forall2_length; apply W). rewrite L.
    assert (SUB : forall im w v, world_sim w v ->
       res_sim (fun x y => fst x = fst y /\ world_sim (snd x) (snd y)) (build_subs subs im w) (build_subs subs' im v)).
    { clear - F. induction F as [|[n d] [n' e] l l' [E HP] F IH]; intros im w v W; cbn [build_subs].
      - cbn. auto.
      - cbn [fst snd] in *. subst n'. pose proof (HP im w v W) as B.
        destruct (build d im w) as [[[r1 im1] w1]|], (build e im v) as [[[r2 im2] w2]|]; try contradiction; [|exact B].
        destruct B as (B1 & B2 & B3). cbn [fst snd] in *. subst. cbn [rbind].
        pose proof (IH im2 w1 w2 B3) as B. destruct (build_subs l im2 w1) as [[[ds1 im3] w3]|], (build_subs l' im2 w2) as [[[ds2 im4] w4]|]; try contradiction; [|exact B].
        destruct B as (B1 & B2). cbn [fst snd] in *. injection B1 as -> ->. cbn. auto. }
    assert (W1 : world_sim (set_heap w (w_heap w ++ [mkMobj c 0 false (0, 0) []])) (set_heap v (w_heap v ++ [mkMobj c 0 false (0, 0) []]))).
    { destruct W as (H & U & T & N & NF). split; [|split; [|split; [|split]]]; cbn; auto. apply Forall2_app; [exact H|]. constructor; [|constructor].
      repeat split; auto. cbn. constructor. }
    pose proof (SUB ((i, List.length (w_heap v)) :: im) _ _ W1) as B.
    match type of B with res_sim _ ?x ?y => destruct x as [[[ds1 im1] w1]|] eqn:B0, y as [[[ds2 im2] w2]|] end; try contradiction; [|exact B].
    destruct B as [B1 (H & U & T & N & NF)]. cbn [fst snd] in *. injection B1 as -> ->. cbn [rbind]. cbn. unfold build_rel. cbn. split; [reflexivity|].
    split; [reflexivity|]. split; [|split; [|split; [|split]]]; cbn; auto. apply Forall2_list_set; [exact H|].
    repeat split; cbn; auto. apply dict_sim_update; [|apply dict_sim_update; [exact S|constructor]].
    apply dict_sim_update; [|constructor]. apply dict_sim_refl.
    eapply build_subs_wf, B0.
Qed.

(** ** reading *)
Lemma is_node_sim nt a b : nodes_fit Alike nt -> attr_sim a b -> is_node nt a = is_node nt b.
Proof. intros NF S. destruct S as [v v' EV|]; [now apply NF|reflexivity]. Qed.
Definition iter_rel (x y : list (string * attr) * list nat) : Prop := dict_sim (fst x) (fst y) /\ snd x = snd y.
Lemma iter_fields_sim nt rec rec' : nodes_fit Alike nt -> (forall r seen parts, res_sim iter_rel (rec r seen parts) (rec' r seen parts)) ->
  forall l l', dict_sim l l' -> forall seen parts, res_sim iter_rel (iter_fields rec nt l seen parts) (iter_fields rec' nt l' seen parts).
Proof.
  intros NF HR. induction 1 as [|[n a] [n' b] l l' [EQ S] F IH]; intros seen parts; cbn [iter_fields]; [split; [constructor|reflexivity]|].
  cbn [fst snd] in *. subst n'.
  assert (NS : forall seen, res_sim iter_rel
     (do (ys, seen2) <- iter_fields rec nt l seen parts; if is_node nt a then Ok ((join_path (parts ++ [n]), a) :: ys, seen2) else Ok (ys, seen2))
     (do (ys, seen2) <- iter_fields rec' nt l' seen parts; if is_node nt b then Ok ((join_path (parts ++ [n]), b) :: ys, seen2) else Ok (ys, seen2))).
  { intros sn. pose proof (IH sn parts) as I. destruct (iter_fields rec nt l sn parts) as [[ys s]|], (iter_fields rec' nt l' sn parts) as [[ys' s']|];
      try contradiction; [|exact I]. destruct I as [I1 I2]. cbn [fst snd] in *. subst s'. cbn [rbind]. rewrite (is_node_sim nt a b NF S).
    destruct (is_node nt b); (split; cbn [fst snd]; [|reflexivity]); [|exact I1]. constructor; [split; [reflexivity|exact S]|exact I1]. }
  destruct S as [v v' EV|c m m' v v' W1 W2 EM EV]; [|apply NS].
  destruct v; try (destruct v'; try apply NS; pose proof (py_eq_mod _ _ (py_eq_sym _ _ (HQ _ _ EV))); discriminate).
  apply sim_mod in EV. subst v'.
  pose proof (HR r seen (parts ++ [n])) as I. destruct (rec r seen _) as [[xs s]|], (rec' r seen _) as [[xs' s']|]; try contradiction; [|exact I].
  destruct I as [I1 I2]. cbn [fst snd] in *. subst s'. cbn [rbind]. pose proof (IH s parts) as I.
  destruct (iter_fields rec nt l s parts) as [[ys t]|], (iter_fields rec' nt l' s parts) as [[ys' t']|]; try contradiction; [|exact I].
  destruct I as [I3 I4]. cbn [fst snd] in *. subst t'. split; cbn [fst snd]; [now apply dict_sim_app|reflexivity].
Qed.
Lemma iter_state_sim w v : world_sim w v -> forall fuel r seen parts,
  res_sim iter_rel (iter_state_rec fuel w r seen parts) (iter_state_rec fuel v r seen parts).
Proof.
  intros W. induction fuel as [|n IH]; intros r seen parts; cbn [iter_state_rec]; [reflexivity|].
  pose proof (heap_get w v r W) as G. destruct (get_obj w r) as [o|], (get_obj v r) as [p|]; try contradiction; [|reflexivity].
  destruct G as (G1 & G2 & G3 & G4 & G5). rewrite G2. destruct (nmem (m_id p) seen); [split; [constructor|reflexivity]|].
  destruct W as (H & U & T & N & NF). rewrite N. rewrite N in NF. apply iter_fields_sim; [exact NF|exact IH|now apply dict_sim_sort].
Qed.
Lemma get_state_sim w v r : world_sim w v -> res_sim dict_sim (get_state w r) (get_state v r).
Proof.
  intros W. unfold get_state, iter_state, dfs_fuel. rewrite (Forall2_length _ _ _ (proj1 W)).
  pose proof (iter_state_sim w v W (S (List.length (w_heap v))) r [] []) as I.
  destruct (iter_state_rec _ w r [] []) as [[xs s]|], (iter_state_rec _ v r [] []) as [[xs' s']|]; try contradiction; [|exact I].
  destruct I as [I1 I2]. cbn. now apply dict_sim_mk_state.
Qed.

(** ** merging *)
Lemma sts_sim_list x y : sts_sim x y -> Forall2 dict_sim (sts_list x) (sts_list y).
Proof. intros []; cbn; auto. Qed.
Lemma pure_merge_sim w v p q : world_sim w v -> pure_sim p q ->
  res_sim (fun x y => fst x = fst y /\ world_sim (snd x) (snd y)) (pure_merge w p) (pure_merge v q).
Proof.
  intros W [P1 P2]. unfold pure_merge, merge, build_module.
  pose proof (build_sim _ _ P2 [] w v W) as B.
  destruct (build (p_def p) [] w) as [[[r im] w1]|], (build (p_def q) [] v) as [[[r' im'] w2]|]; try contradiction; [|exact B].
  destruct B as (B1 & B2 & B3). cbn [fst snd] in *. subst. cbn [rbind].
  unfold update_module. cbn [fold_left]. 
  destruct (update_loop_sim _ _ (updates_sim _ _ (sts_sim_list _ _ P1) _ _ (Forall2_nil _)) w1 w2 r' B3) as [L1 L2].
  change (dupdate (A:=attr) [] []) with (@nil (string * attr)).
  destruct (update_loop w1 r' _) as [w3 [[]|]], (update_loop w2 r' _) as [w4 [[]|]]; cbn [fst snd] in *; try discriminate.
  - cbn. auto.
  - cbn. congruence.
Qed.
Lemma set_trace_sim w v t : world_sim w v -> world_sim (set_trace w t) (set_trace v t).
Proof. intros (H & U & T & N & NF). repeat split; auto. Qed.

Definition out_sim {A} (x y : option state * A) : Prop :=
  match fst x, fst y with Some s, Some t => dict_sim s t | None, None => True | _, _ => False end /\ snd x = snd y.
Lemma jitted_sim {A} stateful t (fn : world -> nat -> world * result A) w v p q :
  (forall w v m, world_sim w v -> world_sim (fst (fn w m)) (fst (fn v m)) /\ snd (fn w m) = snd (fn v m)) ->
  world_sim w v -> pure_sim p q ->
  world_sim (fst (jitted_fn stateful t fn w p)) (fst (jitted_fn stateful t fn v q)) /\
  res_sim out_sim (snd (jitted_fn stateful t fn w p)) (snd (jitted_fn stateful t fn v q)).
Proof.
  intros HF W P. unfold jitted_fn. pose proof (pure_merge_sim _ _ p q (set_trace_sim w v t W) P) as M.
  destruct (pure_merge (set_trace w t) p) as [[m w1]|], (pure_merge (set_trace v t) q) as [[m' w2]|]; try contradiction; [|cbn; auto].
  destruct M as [M1 M2]. cbn [fst snd] in *. subst m'. destruct (HF w1 w2 m M2) as [F1 F2].
  assert (TT : w_trace w = w_trace v) by apply W.
  destruct (fn w1 m) as [w3 [out|e]], (fn w2 m) as [w4 [out'|e']]; cbn [fst snd] in *; try discriminate.
  - injection F2 as <-. rewrite TT. pose proof (set_trace_sim w3 w4 (w_trace v) F1) as W3.
    destruct stateful; [|cbn; split; [exact W3|split; [exact Logic.I|reflexivity]]].
    pose proof (get_state_sim _ _ m W3) as G.
    destruct (get_state (set_trace w3 (w_trace v)) m), (get_state (set_trace w4 (w_trace v)) m); try contradiction;
      cbn; split; auto. split; [exact G|reflexivity].
  - injection F2 as <-. rewrite TT. split; [now apply set_trace_sim|reflexivity].
Qed.

(** ** the key *)
Variable ok : pyval -> Prop.
Hypothesis HK : forall a b, ok a -> ok b -> py_eq a b -> Alike a b.
Lemma meta_key_sim m n : dict_eqb m n = true -> NoDup (keys m) -> NoDup (keys n) -> meta_ok ok m -> meta_ok ok n ->
  forall k, opt_sim Alike (dget k m) (dget k n).
Proof.
  intros E Nm Nn Om On k. apply dict_eqb_spec in E; [|assumption|assumption]. specialize (E k). specialize (Om k). specialize (On k).
  destruct (dget k m), (dget k n); cbn in *; auto.
Qed.
Section Key.
Variable same_aval : pyval -> pyval -> bool.
Lemma state_key_sim s0 : forall s, state_key_eqb same_aval s0 s = true -> wf_entries s0 -> wf_entries s -> state_ok ok s0 -> state_ok ok s ->
  dict_sim (rebuild_state s0 s) s.
Proof.
  induction s0 as [|[k a] s0 IH]; intros [|[k' b] s]; cbn [state_key_eqb rebuild_state]; intros E W0 W O0 O; try discriminate; [constructor|].
  apply andb_prop in E as [E E3]. apply andb_prop in E as [E1 E2]. apply String.eqb_eq in E1 as <-. constructor.
  - split; [reflexivity|]. cbn [snd]. pose proof (W0 k a (or_introl eq_refl)) as Wa. pose proof (W k b (or_introl eq_refl)) as Wb.
    unfold attr_key_eqb in E2. apply andb_prop in E2 as [E2 _]. destruct a as [x|[c m x]], b as [y|[d n y]]; cbn [attr_val with_value c_val c_cls c_meta wf_attr] in *; try discriminate; [constructor; apply HE|].
    apply andb_prop in E2 as [E2 E4]. apply cls_eqb_eq in E2 as <-. constructor; [exact Wa|exact Wb| |apply HE].
    apply meta_key_sim; [exact E4|apply Wa|apply Wb|apply (O0 k _ (or_introl eq_refl))|apply (O k _ (or_introl eq_refl))].
  - apply IH; [exact E3| | | |]; intros k' a' I; [apply (W0 k')|apply (W k')|apply (O0 k')|apply (O k')]; now right.
Qed.
Lemma sts_key_sim x y : sts_key_eqb same_aval x y = true -> Forall wf_entries (sts_list x) -> Forall wf_entries (sts_list y) ->
  Forall (state_ok ok) (sts_list x) -> Forall (state_ok ok) (sts_list y) -> sts_sim (rebuild_sts x y) y.
Proof.
  destruct x as [s|l], y as [t|m]; cbn; intros E W V O P; try discriminate.
  - constructor. apply state_key_sim; [exact E|now inversion W|now inversion V|now inversion O|now inversion P].
  - constructor. revert m E V O P. induction W as [|s l Ws W IH]; intros [|t m] E V O P; cbn in *; try discriminate; [constructor|].
    apply andb_prop in E as [E1 E2]. inversion V as [|? ? Vt V']; subst. inversion O; subst. inversion P; subst.
    constructor; [now apply state_key_sim|now apply IH].
Qed.
End Key.

Lemma statics_sim st st' : statics_eqb st st' = true -> wf_entries st -> wf_entries st' -> statics_ok ok st -> statics_ok ok st' -> dict_sim st st'.
Proof.
  intros E W V O P. apply statics_eqb_Forall2 in E.
  - clear - E W V O P HK. induction E as [|[k a] [k' b] l l' [E1 E2] F IH]; [constructor|]. cbn [fst snd] in *. subst k'.
    pose proof (W k a (or_introl eq_refl)) as Wa. pose proof (V k b (or_introl eq_refl)) as Wb. constructor.
    + split; [reflexivity|]. cbn [snd]. destruct a as [x|[c m x]], b as [y|[d n y]]; cbn in E2; try contradiction.
      * constructor. apply HK; [exact (O k _ (or_introl eq_refl))|exact (P k _ (or_introl eq_refl))|exact E2].
      * destruct E2 as (-> & E2 & E3). pose proof (O k _ (or_introl eq_refl)) as [O1 O2]. pose proof (P k _ (or_introl eq_refl)) as [P1 P2].
        cbn [c_val c_meta] in *. constructor; [exact Wa|exact Wb| |now apply HK].
        apply meta_key_sim; [apply dict_eqb_spec; [apply Wa|apply Wb|exact E3]|apply Wa|apply Wb|exact O2|exact P2].
    + apply IH; intros k' a' I; [apply (W k')|apply (V k')|apply (O k')|apply (P k')]; now right.
  - apply Forall_forall. intros [k a] I. exact (W k a I).
  - apply Forall_forall. intros [k a] I. exact (V k a I).
Qed.

Fixpoint wf_subs (l : list (string * mdef)) : Prop := match l with [] => True | (_, e) :: t => wf_mdef e /\ wf_subs t end.
Definition uniform_subs b := fix go (l : list (string * mdef)) : Prop := match l with [] => True | (_, e) :: t => uniform b e /\ go t end.
Fixpoint numbered_subs (l : list (string * mdef)) (n : nat) : option nat :=
  match l with [] => Some n | (_, e) :: t => match numbered_from e n with Some n' => numbered_subs t n' | None => None end end.

Fixpoint ok_subs (l : list (string * mdef)) : Prop := match l with [] => True | (_, e) :: t => mdef_ok ok e /\ ok_subs t end.
Lemma mdef_key_sim b : forall d e n k k', mdef_eqb d e = true -> wf_mdef d -> wf_mdef e -> mdef_ok ok d -> mdef_ok ok e -> uniform b d -> uniform b e ->
  numbered_from d n = Some k -> numbered_from e n = Some k' -> mdef_sim d e /\ k = k'.
Proof.
  induction d as [i|c i subs st ini IH] using mdef_rect'; intros [j|c' j subs' st' ini'] n k k' E; try (cbn in E; discriminate).
  - cbn in *. apply Nat.eqb_eq in E as <-. intros _ _ _ _ _ _ [= <-] [= <-]. split; [constructor|reflexivity].
  - rewrite mdef_eqb_MDef in E. apply andb_prop in E as [E E3]. apply andb_prop in E as [E1 E2]. apply cls_eqb_eq in E1 as <-.
    change (wf_entries st /\ wf_subs subs -> wf_entries st' /\ wf_subs subs' -> statics_ok ok st /\ ok_subs subs -> statics_ok ok st' /\ ok_subs subs' -> ini = b /\ uniform_subs b subs -> ini' = b /\ uniform_subs b subs' ->
      (if Nat.eqb i n then numbered_subs subs (S n) else None) = Some k -> (if Nat.eqb j n then numbered_subs subs' (S n) else None) = Some k' ->
      mdef_sim (MDef c i subs st ini) (MDef c j subs' st' ini') /\ k = k').
    intros [W1 W2] [V1 V2] [O1 O2] [P1 P2] [-> U] [-> U']. destruct (Nat.eqb i n) eqn:Ei; [|discriminate]. destruct (Nat.eqb j n) eqn:Ej; [|discriminate].
    apply Nat.eqb_eq in Ei as ->. apply Nat.eqb_eq in Ej as ->. intros N N'.
    assert (R : Forall2 (fun x y => fst x = fst y /\ mdef_sim (snd x) (snd y)) subs subs' /\ k = k').
    { clear - IH E2 W2 V2 O2 P2 U U' N N'. revert subs' E2 V2 P2 U' N N'. generalize (S n). revert W2 O2 U.
      induction IH as [|[m d] l Hd H IHl]; intros W2 O2 U q [|[m' e] l'] E2 V2 P2 U' N N'; cbn [subs_eqb] in E2; try discriminate.
      - cbn in N, N'. split; [constructor|congruence].
      - apply andb_prop in E2 as [E2 E4]. apply andb_prop in E2 as [E2 E3]. apply String.eqb_eq in E2 as <-.
        cbn [wf_subs ok_subs uniform_subs numbered_subs] in *. destruct (numbered_from d q) as [x|] eqn:Nd; [|discriminate].
        destruct (numbered_from e q) as [y|] eqn:Ne; [|discriminate]. cbn [snd] in Hd.
        destruct (Hd e q x y E3 (proj1 W2) (proj1 V2) (proj1 O2) (proj1 P2) (proj1 U) (proj1 U') Nd Ne) as [S ->].
        destruct (IHl (proj2 W2) (proj2 O2) (proj2 U) y l' E4 (proj2 V2) (proj2 P2) (proj2 U') N N') as [F ->]. split; [|reflexivity].
        constructor; [split; [reflexivity|exact S]|exact F]. }
    destruct R as [R ->]. split; [|reflexivity]. constructor; [exact R|]. now apply statics_sim.
Qed.
Lemma def_key_eqb_MDef c i subs st ini c' i' subs' st' ini' :
  def_key_eqb (MDef c i subs st ini) (MDef c' i' subs' st' ini') =
  cls_eqb c c' && Nat.eqb i i' && subs_eqb subs subs' && statics_eqb st st' && Bool.eqb ini ini'.
Proof. reflexivity. Qed.

Definition good_pure (b : bool) (p : pure) : Prop := wf_pure p /\ uniform b (p_def p) /\ exists k, numbered_from (p_def p) 0 = Some k.
Lemma key_sim same_aval b b' p0 p : good_pure b p0 -> good_pure b' p -> constants_ok ok p0 -> constants_ok ok p -> pure_key_eqb same_aval p0 p = true ->
  pure_sim (rebuild p0 p) p.
Proof.
  intros ([W1 W2] & U & k & N) ([V1 V2] & U' & k' & N') [O1 O2] [P1 P2] E. apply andb_prop in E as [E1 E2]. split; [now apply (sts_key_sim same_aval)|].
  cbn [rebuild p_def]. destruct (p_def p0) as [i|c i subs st ini], (p_def p) as [j|c' j subs' st' ini']; try discriminate.
  rewrite def_key_eqb_MDef in E2. apply andb_prop in E2 as [E2 E6]. apply andb_prop in E2 as [E2 E5].
  apply andb_prop in E2 as [E2 E4]. apply andb_prop in E2 as [E2 E3].
  apply eqb_prop in E6. assert (b = b') as <- by (destruct U as [<- _], U' as [<- _]; exact E6).
  eapply mdef_key_sim; eauto. rewrite mdef_eqb_MDef, E2, E4, E5. reflexivity.
Qed.

Lemma pure_sim_refl p : wf_pure p -> pure_sim p p.
Proof.
  intros [W1 W2]. split.
  - destruct (p_states p); cbn in *; constructor; [apply dict_sim_refl; now inversion W1|].
    induction W1; constructor; auto. now apply dict_sim_refl.
  - clear W1. induction (p_def p) as [i|c i subs st ini IH] using mdef_rect'; [constructor|].
    change (wf_entries st /\ wf_subs subs) in W2. destruct W2 as [W1 W2]. constructor; [|now apply dict_sim_refl].
    induction IH as [|[n d] l H F IHF]; constructor; [split; [reflexivity|]; apply H, W2|apply IHF, W2].
Qed.

(** ** the cache is transparent *)
Lemma cached_calls_sim {B} same_aval (g : pure -> result B) (R : result B -> result B -> Prop) :
  (forall p q, pure_sim p q -> R (g p) (g q)) -> forall ps cache,
  Forall (fun p => (exists b, good_pure b p) /\ constants_ok ok p) cache -> Forall (fun p => (exists b, good_pure b p) /\ constants_ok ok p) ps ->
  Forall2 R (cached_calls same_aval g cache ps) (map g ps).
Proof.
  intros HG. induction ps as [|p ps IH]; intros cache HC HP; cbn [cached_calls map]; [constructor|].
  inversion HP as [|? ? [[b Hp] Op] HP']; subst. unfold cached_call.
  destruct (find _ cache) as [p0|] eqn:F.
  - apply find_some in F as [F1 F2]. rewrite Forall_forall in HC. destruct (HC p0 F1) as [[b0 H0] O0]. constructor.
    + apply HG. exact (key_sim same_aval b0 b p0 p H0 Hp O0 Op F2).
    + apply IH; [now apply Forall_forall|exact HP'].
  - pose proof (HG p p (pure_sim_refl p (proj1 Hp))) as HR. destruct (g p) as [x|e] eqn:E.
    + constructor; [exact HR|]. apply IH; [|exact HP']. constructor; [split; [now exists b|exact Op]|exact HC].
    + constructor; [exact HR|]. now apply IH.
Qed.

End Sim.

(** ** what [module_partition] returns *)
Lemma wf_attrs_entries w r o : wf_world w -> get_obj w r = Some o -> wf_entries (m_vars o).
Proof.
  intros W H k a I. destruct (wf_objs w W r o H) as [_ N _ _ A]. apply (A k). now apply In_dget.
Qed.
Lemma wf_entries_sort d : wf_entries d -> wf_entries (sort_by_key d).
Proof. intros H k a I. apply (H k a). eapply Permutation.Permutation_in; [apply sort_perm|exact I]. Qed.

Definition good_def (w : world) (r : nat) (n : nat) (d : mdef) (m : nat) : Prop :=
  wf_mdef d /\ numbered_from d n = Some m /\
  forall b, (forall x o, reaches w r x -> get_obj w x = Some o -> m_init o = b) -> uniform b d.
Lemma make_fields_good w rec nt : forall l,
  (forall n r, In (n, ARaw (PyMod r)) l -> forall mi d mi', rec r mi = Ok (d, mi') -> good_def w r (List.length mi) d (List.length mi')) ->
  wf_entries l -> forall mi subs st mi', make_fields rec nt l mi = Ok (subs, st, mi') ->
  wf_entries st /\ wf_subs subs /\ numbered_subs subs (List.length mi) = Some (List.length mi') /\
  forall b, (forall n r, In (n, ARaw (PyMod r)) l -> forall x o, reaches w r x -> get_obj w x = Some o -> m_init o = b) -> uniform_subs b subs.
Proof.
  induction l as [|[n a] l IH]; intros HR W mi subs st mi' E; cbn [make_fields] in E.
  - injection E as <- <- <-. cbn. repeat split; auto.
  - assert (W' : wf_entries l) by (intros k x I; apply (W k); now right).
    assert (HR' : forall n r, In (n, ARaw (PyMod r)) l -> forall mi d mi', rec r mi = Ok (d, mi') -> good_def w r (List.length mi) d (List.length mi'))
      by (intros k r I; apply (HR k); now right).
    assert (NS : forall subs st mi', (do (subs, st, mi2) <- make_fields rec nt l mi;
          if negb (is_node nt a) && negb (starts_with "_module__" n) then Ok (subs, (n, a) :: st, mi2) else Ok (subs, st, mi2)) = Ok (subs, st, mi') ->
       wf_entries st /\ wf_subs subs /\ numbered_subs subs (List.length mi) = Some (List.length mi') /\
       forall b, (forall m r, In (m, ARaw (PyMod r)) ((n, a) :: l) -> forall x o, reaches w r x -> get_obj w x = Some o -> m_init o = b) -> uniform_subs b subs).
    { clear E. intros ss tt ii E. destruct (make_fields rec nt l mi) as [[[s1 t1] i1]|] eqn:F; [|discriminate]. cbn [rbind] in E.
      destruct (IH HR' W' _ _ _ _ F) as (I1 & I2 & I3 & I4).
      destruct (negb _ && negb _); injection E as <- <- <-; (split; [|split; [exact I2|split; [exact I3|]]]); try exact I1;
        try (intros b H; apply I4; intros m r I; apply (H m r); now right).
      intros k x [I|I]; [injection I as <- <-; apply (W n a); now left|exact (I1 k x I)]. }
    destruct a as [v|c]; [|exact (NS _ _ _ E)]. destruct v; try exact (NS _ _ _ E). clear NS.
    destruct (rec r mi) as [[d mi1]|] eqn:ER; [|discriminate]. cbn [rbind] in E.
    destruct (make_fields rec nt l mi1) as [[[s1 t1] i1]|] eqn:F; [|discriminate]. cbn [rbind] in E. injection E as <- <- <-.
    destruct (IH HR' W' _ _ _ _ F) as (I1 & I2 & I3 & I4). destruct (HR n r (or_introl eq_refl) _ _ _ ER) as (D1 & D2 & D3).
    split; [exact I1|]. split; [split; [exact D1|exact I2]|]. split; [cbn; now rewrite D2|].
    intros b H. split; [apply D3, (H n r); now left|]. apply I4. intros m x I. apply (H m x). now right.
Qed.
Lemma make_def_good w : wf_world w -> forall fuel r mi d mi', make_def fuel w r mi = Ok (d, mi') ->
  good_def w r (List.length mi) d (List.length mi').
Proof.
  intros W. induction fuel as [|n IH]; intros r mi d mi' E; cbn [make_def] in E; [discriminate|].
  destruct (get_obj w r) as [o|] eqn:Ho; [|discriminate]. destruct (index_of (m_id o) mi).
  - injection E as <- <-. split; [exact Logic.I|]. split; [reflexivity|]. intros b _. exact Logic.I.
  - destruct (make_fields _ _ _ _) as [[[subs st] mi1]|] eqn:F; [|discriminate]. cbn [rbind] in E. injection E as <- <-.
    pose proof (wf_attrs_entries w r o W Ho) as WE.
    destruct (make_fields_good w (make_def n w) (w_nodes w) (sort_by_key (m_vars o)) (fun k x _ mi d mi' H => IH x mi d mi' H)
                (wf_entries_sort _ WE) _ _ _ _ F) as (F1 & F2 & F3 & F4).
    split; [split; assumption|]. split.
    + change ((if Nat.eqb (List.length mi) (List.length mi) then numbered_subs subs (S (List.length mi)) else None) = Some (List.length mi1)).
      rewrite Nat.eqb_refl. rewrite app_length in F3. cbn in F3. now rewrite Nat.add_1_r in F3.
    + intros b H. change (m_init o = b /\ uniform_subs b subs). split; [apply (H r o); [eapply reaches_refl; eauto|exact Ho]|].
      apply F4. intros k x I y p HR. apply H. eapply reaches_trans; [|exact HR].
      apply (reaches_child w r k x W). exists o. split; [exact Ho|]. apply In_dget; [apply (wf_objs w W r o Ho)|].
      eapply Permutation.Permutation_in; [apply sort_perm|exact I].
Qed.

Lemma iter_fields_wf rec nt : forall l, wf_entries l ->
  (forall r seen parts xs s, rec r seen parts = Ok (xs, s) -> wf_entries xs) ->
  forall seen parts xs s, iter_fields rec nt l seen parts = Ok (xs, s) -> wf_entries xs.
Proof.
  induction l as [|[n a] l IH]; intros W HR seen parts xs s E; cbn [iter_fields] in E; [injection E as <- <-; intros ? ? []|].
  assert (W' : wf_entries l) by (intros k x I; apply (W k); now right).
  assert (NS : forall xs s, (do (ys, seen2) <- iter_fields rec nt l seen parts;
     if is_node nt a then Ok ((join_path (parts ++ [n]), a) :: ys, seen2) else Ok (ys, seen2)) = Ok (xs, s) -> wf_entries xs).
  { clear E. intros ys t E. destruct (iter_fields rec nt l seen parts) as [[zs u]|] eqn:F; [|discriminate]. cbn [rbind] in E.
    pose proof (IH W' HR _ _ _ _ F) as I1. destruct (is_node nt a); injection E as <- <-; [|exact I1].
    intros k x [I|I]; [injection I as <- <-; apply (W n a); now left|exact (I1 k x I)]. }
  destruct a as [v|c]; [|exact (NS _ _ E)]. destruct v; try exact (NS _ _ E). clear NS.
  destruct (rec r seen _) as [[zs u]|] eqn:ER; [|discriminate]. cbn [rbind] in E.
  destruct (iter_fields rec nt l u parts) as [[zs' u']|] eqn:F; [|discriminate]. cbn [rbind] in E. injection E as <- <-.
  intros k x I. apply in_app_or in I as [I|I]; [exact (HR _ _ _ _ _ ER k x I)|exact (IH W' HR _ _ _ _ F k x I)].
Qed.
Lemma iter_state_wf w : wf_world w -> forall fuel r seen parts xs s, iter_state_rec fuel w r seen parts = Ok (xs, s) -> wf_entries xs.
Proof.
  intros W. induction fuel as [|n IH]; intros r seen parts xs s E; cbn [iter_state_rec] in E; [discriminate|].
  destruct (get_obj w r) as [o|] eqn:Ho; [|discriminate]. destruct (nmem _ _); [injection E as <- <-; intros ? ? []|].
  eapply iter_fields_wf; [|exact IH|exact E]. apply wf_entries_sort. eapply wf_attrs_entries; eauto.
Qed.
Lemma wf_entries_set k a d : wf_attr a -> wf_entries d -> wf_entries (dset k a d).
Proof.
  intros W H n b I. induction d as [|[x y] d IH]; cbn [dset] in I.
  - destruct I as [I|[]]. injection I as <- <-. exact W.
  - destruct (String.eqb k x).
    + destruct I as [I|I]; [injection I as <- <-; exact W|apply (H n b); now right].
    + destruct I as [I|I]; [apply (H n b); now left|]. apply IH; [|exact I]. intros n' b' I'. apply (H n'). now right.
Qed.
Lemma wf_entries_update l : wf_entries l -> forall d, wf_entries d -> wf_entries (dupdate d l).
Proof.
  induction l as [|[k a] l IH]; intros H d HD; [exact HD|]. rewrite dupdate_cons. apply IH.
  - intros n b I. apply (H n). now right.
  - apply wf_entries_set; [apply (H k); now left|exact HD].
Qed.
Lemma get_state_wf w r s : wf_world w -> get_state w r = Ok s -> wf_entries s.
Proof.
  intros W E. unfold get_state, iter_state in E. destruct (iter_state_rec _ w r [] []) as [[xs u]|] eqn:F; [|discriminate]. injection E as <-.
  unfold mk_state, dict_of. apply wf_entries_update; [|intros ? ? []]. apply wf_entries_sort. eapply iter_state_wf; eauto.
Qed.
Lemma partition_good w r p : wf_world w -> same_phase w r -> module_partition w r [] = Ok p -> exists b, good_pure b p.
Proof.
  intros W [b HB] E. unfold module_partition in E. destruct (get_module_def w r) as [d|] eqn:D; [|discriminate]. cbn [rbind] in E.
  destruct (get_state w r) as [s|] eqn:S; [|discriminate]. cbn in E. injection E as <-. exists b.
  unfold get_module_def in D. destruct (make_def _ w r []) as [[d' mi]|] eqn:M; [|discriminate]. cbn [rbind] in D.
  destruct d'; [discriminate|]. injection D as <-. destruct (make_def_good w W _ _ _ _ _ M) as (G1 & G2 & G3).
  split; [split; cbn; [constructor; [eapply get_state_wf; eauto|constructor]|exact G1]|]. split; [apply G3; exact HB|]. now exists (List.length mi).
Qed.
