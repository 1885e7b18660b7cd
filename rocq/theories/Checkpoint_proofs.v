(** Checkpoint_proofs: one constructor, two runs that differ in the arrays. *)
From Coq Require Import Permutation Lia.
From Verif Require Import PyBase PyBaseFacts ValuesM Spec_Eq ValuesFacts FiltersM StateM Spec_State State_proofs ModuleM PureM Spec_Module Spec_Prog
  Graph_facts Dfs_proofs Build_proofs Bisim_proofs Skel_proofs RoundTrip_proofs Clone_proofs Update_proofs Write_proofs
  Laws_proofs Prog_proofs TransformM Transform_proofs History_proofs Leaf_proofs Scan_proofs Container_proofs ScanDeco_proofs Spec_Functional Functional_proofs Spec_Checkpoint.
Local Open Scope string_scope.
Local Open Scope list_scope.

Section Alike.
Variable nt : list string.
Notation alike := (alike nt). Notation alike_dict := (alike_dict nt).

Lemma a_node_iff a : a_node nt a <-> is_node nt a = true.
Proof.
  unfold a_node, is_node. rewrite existsb_exists. split; intros (t & H1 & H2); exists t; (split; [exact H1|]).
  - unfold isinstance. now apply smem_In.
  - unfold isinstance in H2. now apply smem_In.
Qed.
Lemma alike_is_node a b : alike a b -> is_node nt a = is_node nt b.
Proof.
  intros H. destruct H as [v|v u _ _ H1 H2|c m v u _ _ H]; [reflexivity| |reflexivity].
  apply a_node_iff in H1, H2. now rewrite H1, H2.
Qed.
Lemma ad_get d e : alike_dict d e -> forall k,
  match dget k d, dget k e with Some a, Some b => alike a b | None, None => True | _, _ => False end.
Proof.
  induction 1 as [|[k a] [k' b] d e [E S] F IH]; intros n; cbn [dget]; [exact Logic.I|]. cbn [fst snd] in *. subst k'.
  destruct (String.eqb n k); [exact S|apply IH].
Qed.
Lemma ad_set d e k a b : alike_dict d e -> alike a b -> alike_dict (dset k a d) (dset k b e).
Proof.
  intros F S. induction F as [|[n x] [n' y] d e [E SX] F IH]; cbn [dset].
  - constructor; [split; [reflexivity|exact S]|constructor].
  - cbn [fst snd] in E. subst n'. destruct (String.eqb k n).
    + constructor; [split; [reflexivity|exact S]|exact F].
    + constructor; [split; [reflexivity|exact SX]|exact IH].
Qed.
Lemma ad_mem d e k : alike_dict d e -> dmem k d = dmem k e.
Proof. intros H. pose proof (ad_get d e H k) as G. unfold dmem. destruct (dget k d), (dget k e); try contradiction; reflexivity. Qed.
Lemma ad_del d e k : alike_dict d e -> alike_dict (ddel k d) (ddel k e).
Proof.
  induction 1 as [|[n x] [n' y] d e [E SX] F IH]; cbn; [constructor|]. cbn [fst snd] in E. subst n'.
  destruct (String.eqb k n); cbn; [exact F|]. constructor; [split; [reflexivity|exact SX]|exact IH].
Qed.
Lemma ad_update items items' : alike_dict items items' -> forall d e, alike_dict d e -> alike_dict (dupdate d items) (dupdate e items').
Proof.
  induction 1 as [|[k a] [k' b] l l' [E S] F IH]; intros d e H; [exact H|]. rewrite !dupdate_cons. cbn [fst snd] in *. subst k'.
  apply IH. now apply ad_set.
Qed.
Lemma ad_insert x y d e : fst x = fst y -> alike (snd x) (snd y) -> alike_dict d e -> alike_dict (insert_by_key x d) (insert_by_key y e).
Proof.
  intros E S F. induction F as [|[n a] [n' b] d e [E' S'] F IH]; cbn [insert_by_key].
  - constructor; [split; auto|constructor].
  - cbn [fst snd] in *. subst n'. rewrite <- E. destruct (String.leb (fst x) n).
    + constructor; [split; auto|]. constructor; [split; auto|exact F].
    + constructor; [split; auto|exact IH].
Qed.
Lemma ad_sort d e : alike_dict d e -> alike_dict (sort_by_key d) (sort_by_key e).
Proof. induction 1 as [|x y d e [E S] F IH]; cbn [sort_by_key]; [constructor|]. now apply ad_insert. Qed.
Lemma ad_mk_state d e : alike_dict d e -> alike_dict (mk_state d) (mk_state e).
Proof. intros H. unfold mk_state, dict_of. apply ad_update; [now apply ad_sort|constructor]. Qed.

Definition res_alike {A} (R : A -> A -> Prop) (x y : result A) : Prop :=
  match x, y with Ok a, Ok b => R a b | Err e, Err f => e = f | _, _ => False end.

Lemma equivalent_alike c m v v' d n u u' :
  is_equivalent (mkCont c m v) (mkCont d n u) = is_equivalent (mkCont c m v') (mkCont d n u').
Proof. reflexivity. Qed.
Lemma wf_value c m v u : wf_attr (ACont (mkCont c m v)) -> wf_attr (ACont (mkCont c m u)).
Proof. intros H. exact H. Qed.

Lemma assign_alike old old' a b :
  match old, old' with Some x, Some y => alike x y | None, None => True | _, _ => False end -> alike a b ->
  res_alike alike (assign_value old a) (assign_value old' b).
Proof.
  intros HO HA.
  assert (CP : forall a b, alike a b -> res_alike alike
                 (match a with ACont c => rmap ACont (container_copy c) | ARaw v => Ok (ARaw v) end)
                 (match b with ACont c => rmap ACont (container_copy c) | ARaw v => Ok (ARaw v) end)).
  { intros x y S. destruct S as [v|v u ? ? ? ?|c m v u W1 W2 N]; [constructor 1|now constructor 2|].
    rewrite !container_copy_id by assumption. now constructor. }
  destruct old as [x|], old' as [y|]; try contradiction; [|now apply CP].
  destruct HO as [v|v u ? ? ? ?|c m v u W1 W2 N]; [now apply CP..|].
  cbn [assign_value]. rewrite !replace_value by assumption.
  assert (K : forall v u, alike (ACont (mkCont c m v)) (ACont (mkCont c m u))) by (intros; now constructor).
  destruct HA as [z|z z' ? ? ? ?|d n z z' W3 W4 N']; cbn [c_cls c_meta c_val]; try (cbn; apply K).
  rewrite (equivalent_alike c m v u d n z z'). destruct (is_equivalent _ _); cbn; [apply K|reflexivity].
Qed.

(** ** worlds *)
Definition obj_alike (o p : mobj) : Prop :=
  m_cls o = m_cls p /\ m_id o = m_id p /\ m_init o = m_init p /\ m_trace o = m_trace p /\ alike_dict (m_vars o) (m_vars p).
Definition world_alike (w v : world) : Prop :=
  Forall2 obj_alike (w_heap w) (w_heap v) /\ w_uuid w = w_uuid v /\ w_trace w = w_trace v /\ w_nodes w = nt /\ w_nodes v = nt.

Lemma wa_get w v r : world_alike w v ->
  match get_obj w r, get_obj v r with Some o, Some p => obj_alike o p | None, None => True | _, _ => False end.
Proof.
  intros [H _]. unfold get_obj. revert r. induction H as [|o p h k S F IH]; intros [|r]; cbn [nth_error]; auto; exact (IH r).
Qed.
Lemma wa_list_set {A} (R : A -> A -> Prop) h k r o p : Forall2 R h k -> R o p -> Forall2 R (list_set r o h) (list_set r p k).
Proof.
  intros H S. revert r. induction H as [|x y h k S' F IH]; intros [|r]; cbn; try constructor; auto.
Qed.
Lemma wa_put w v r o p : world_alike w v -> obj_alike o p -> world_alike (put_obj w r o) (put_obj v r p).
Proof. intros (H & U & T & N) S. split; [|split; [|split]]; cbn; auto. now apply wa_list_set. Qed.
Lemma wa_trace w v t : world_alike w v -> trace_valid w t = trace_valid v t.
Proof. intros (_ & _ & T & _). unfold trace_valid. now rewrite T. Qed.

Lemma wa_setattr w v r n a b : world_alike w v -> alike a b -> res_alike world_alike (setattr w r n a) (setattr v r n b).
Proof.
  intros W S. unfold setattr. pose proof (wa_get w v r W) as G.
  destruct (get_obj w r) as [o|], (get_obj v r) as [p|]; try contradiction; [|reflexivity].
  destruct G as (G1 & G2 & G3 & G4 & G5). rewrite <- G4, <- (wa_trace w v _ W).
  destruct (trace_valid w (m_trace o)); cbn [negb]; [|reflexivity].
  destruct (String.eqb n "_module__state"); [reflexivity|].
  pose proof (assign_alike _ _ a b (ad_get _ _ G5 n) S) as A.
  destruct (assign_value (dget n (m_vars o)) a), (assign_value (dget n (m_vars p)) b); try contradiction; [|exact A].
  cbn. apply wa_put; [exact W|]. unfold set_vars. repeat split; cbn; auto. now apply ad_set.
Qed.
Lemma wa_set_path parts : forall w v r a b, world_alike w v -> alike a b ->
  res_alike world_alike (set_path w r parts a) (set_path v r parts b).
Proof.
  induction parts as [|n parts IH]; intros w v r a b W S; [reflexivity|].
  destruct parts as [|n' parts]; [now apply wa_setattr|].
  cbn [set_path]. pose proof (wa_get w v r W) as G.
  destruct (get_obj w r) as [o|], (get_obj v r) as [p|]; try contradiction; [|reflexivity].
  destruct G as (_ & _ & _ & _ & G5). pose proof (ad_get _ _ G5 n) as A.
  destruct (dget n (m_vars o)) as [x|], (dget n (m_vars p)) as [y|]; try contradiction.
  - destruct A as [z|z z' A1 A2 ? ?|]; [| |reflexivity].
    + destruct z; try reflexivity. now apply IH.
    + destruct z; try discriminate A1; destruct z'; try discriminate A2; reflexivity.
  - destruct (String.eqb n "_module__state"); reflexivity.
Qed.
Lemma wa_loop items items' r : alike_dict items items' -> forall w v, world_alike w v ->
  world_alike (fst (update_loop w r items)) (fst (update_loop v r items')) /\
  snd (update_loop w r items) = snd (update_loop v r items').
Proof.
  induction 1 as [|[k a] [k' b] l l' [E S] F IH]; intros w v W; cbn [update_loop]; [split; [exact W|reflexivity]|].
  cbn [fst snd] in *. subst k'. pose proof (wa_set_path (split_slash k) w v r a b W S) as P.
  destruct (set_path w r (split_slash k) a), (set_path v r (split_slash k) b); try contradiction.
  - now apply IH.
  - split; [exact W|]. cbn in *. now subst.
Qed.

(** ** reading *)
Definition iter_rel (x y : list (string * attr) * list nat) : Prop := alike_dict (fst x) (fst y) /\ snd x = snd y.
Lemma wa_iter_fields rec rec' : (forall r seen parts, res_alike iter_rel (rec r seen parts) (rec' r seen parts)) ->
  forall l l', alike_dict l l' -> forall seen parts, res_alike iter_rel (iter_fields rec nt l seen parts) (iter_fields rec' nt l' seen parts).
Proof.
  intros HR. induction 1 as [|[n a] [n' b] l l' [EQ S] F IH]; intros seen parts; cbn [iter_fields]; [split; [constructor|reflexivity]|].
  cbn [fst snd] in *. subst n'.
  assert (NS : forall seen, res_alike iter_rel
     (do (ys, seen2) <- iter_fields rec nt l seen parts; if is_node nt a then Ok ((join_path (parts ++ [n]), a) :: ys, seen2) else Ok (ys, seen2))
     (do (ys, seen2) <- iter_fields rec' nt l' seen parts; if is_node nt b then Ok ((join_path (parts ++ [n]), b) :: ys, seen2) else Ok (ys, seen2))).
  { intros sn. pose proof (IH sn parts) as I. destruct (iter_fields rec nt l sn parts) as [[ys s]|], (iter_fields rec' nt l' sn parts) as [[ys' s']|];
      try contradiction; [|exact I]. destruct I as [I1 I2]. cbn [fst snd] in *. subst s'. cbn [rbind]. rewrite (alike_is_node a b S).
    destruct (is_node nt b); (split; cbn [fst snd]; [|reflexivity]); [|exact I1]. constructor; [split; [reflexivity|exact S]|exact I1]. }
  destruct S as [v|v u A1 A2 ? ?|c m v u W1 W2 N]; [| |apply NS].
  - destruct v; try apply NS.
    pose proof (HR r seen (parts ++ [n])) as I. destruct (rec r seen _) as [[xs s]|], (rec' r seen _) as [[xs' s']|]; try contradiction; [|exact I].
    destruct I as [I1 I2]. cbn [fst snd] in *. subst s'. cbn [rbind]. pose proof (IH s parts) as I.
    destruct (iter_fields rec nt l s parts) as [[ys t]|], (iter_fields rec' nt l' s parts) as [[ys' t']|]; try contradiction; [|exact I].
    destruct I as [I3 I4]. cbn [fst snd] in *. subst t'. split; cbn [fst snd]; [now apply Forall2_app|reflexivity].
  - destruct v; try discriminate A1; destruct u; try discriminate A2; apply NS.
Qed.
Lemma wa_iter_state w v : world_alike w v -> forall fuel r seen parts,
  res_alike iter_rel (iter_state_rec fuel w r seen parts) (iter_state_rec fuel v r seen parts).
Proof.
  intros W. pose proof W as (_ & _ & _ & N & N'). induction fuel as [|fuel IH]; intros r seen parts; [reflexivity|]. cbn [iter_state_rec].
  pose proof (wa_get w v r W) as G. destruct (get_obj w r) as [o|], (get_obj v r) as [p|]; try contradiction; [|reflexivity].
  destruct G as (_ & G2 & _ & _ & G5). rewrite <- G2. destruct (nmem (m_id o) seen); [split; [constructor|reflexivity]|].
  rewrite N, N'. apply wa_iter_fields; [exact IH|]. now apply ad_sort.
Qed.
Lemma wa_fuel w v : world_alike w v -> dfs_fuel w = dfs_fuel v.
Proof. intros [H _]. unfold dfs_fuel. f_equal. now apply Forall2_length in H. Qed.
Lemma wa_get_state w v r : world_alike w v -> res_alike alike_dict (get_state w r) (get_state v r).
Proof.
  intros W. unfold get_state, iter_state. rewrite (wa_fuel w v W). pose proof (wa_iter_state w v W (dfs_fuel v) r [] []) as I.
  destruct (iter_state_rec (dfs_fuel v) w r [] []) as [[xs s]|], (iter_state_rec (dfs_fuel v) v r [] []) as [[ys t]|]; try contradiction; [|exact I].
  destruct I as [I _]. cbn. now apply ad_mk_state.
Qed.

Lemma wa_make_fields rec : forall l l', alike_dict l l' -> forall mi, make_fields rec nt l mi = make_fields rec nt l' mi.
Proof.
  induction 1 as [|[n a] [n' b] l l' [EQ S] F IH]; intros mi; cbn [make_fields]; [reflexivity|]. cbn [fst snd] in *. subst n'.
  destruct S as [v|v u A1 A2 N1 N2|c m v u W1 W2 N].
  - destruct v; try (now rewrite IH). destruct (rec r mi) as [[d mi1]|]; [|reflexivity]. cbn [rbind]. now rewrite IH.
  - apply a_node_iff in N1, N2. destruct v; try discriminate A1; destruct u; try discriminate A2; rewrite IH, ?N1, ?N2; reflexivity.
  - rewrite IH. pose proof N as N'. apply a_node_iff in N. change (is_node nt (ACont (mkCont c m u))) with (is_node nt (ACont (mkCont c m v))).
    rewrite N. reflexivity.
Qed.
Lemma make_fields_rec (rec rec' : nat -> list nat -> result (mdef * list nat)) l : (forall r mi, rec r mi = rec' r mi) -> forall mi, make_fields rec nt l mi = make_fields rec' nt l mi.
Proof.
  intros H. induction l as [|[n a] l IH]; intros mi; cbn [make_fields]; [reflexivity|].
  destruct a as [[]|]; rewrite ?IH, ?H; try reflexivity. destruct (rec' r mi) as [[d mi1]|]; [|reflexivity]. cbn [rbind]. now rewrite IH.
Qed.
Lemma wa_make_def w v : world_alike w v -> forall fuel r mi, make_def fuel w r mi = make_def fuel v r mi.
Proof.
  intros W. pose proof W as (_ & _ & _ & N & N'). induction fuel as [|fuel IH]; intros r mi; [reflexivity|]. cbn [make_def].
  pose proof (wa_get w v r W) as G. destruct (get_obj w r) as [o|], (get_obj v r) as [p|]; try contradiction; [|reflexivity].
  destruct G as (G1 & G2 & G3 & _ & G5). rewrite <- G1, <- G2, <- G3. destruct (index_of (m_id o) mi); [reflexivity|].
  rewrite N, N', (wa_make_fields _ _ _ (ad_sort _ _ G5)), (make_fields_rec (make_def fuel w) (make_def fuel v)) by exact IH. reflexivity.
Qed.
Lemma wa_module_def w v r : world_alike w v -> get_module_def w r = get_module_def v r.
Proof. intros W. unfold get_module_def. rewrite (wa_fuel w v W), (wa_make_def w v W). reflexivity. Qed.

Lemma wa_fold l k : Forall2 alike_dict l k -> forall acc acc', alike_dict acc acc' ->
  alike_dict (fold_left (fun acc s => dupdate acc s) l acc) (fold_left (fun acc s => dupdate acc s) k acc').
Proof. induction 1 as [|x y l k H F IH]; intros acc acc' A; [exact A|]. cbn. apply IH. now apply ad_update. Qed.
Lemma wa_update w v r x y : world_alike w v -> alike_sts nt x y ->
  world_alike (fst (update_state w r (UStates x))) (fst (update_state v r (UStates y))) /\
  snd (update_state w r (UStates x)) = snd (update_state v r (UStates y)).
Proof.
  intros W XY. unfold update_state. pose proof (wa_get_state w v r W) as S.
  destruct (get_state w r) as [s|], (get_state v r) as [u|]; try contradiction.
  - unfold update_module. apply wa_loop; [|exact W]. apply wa_fold; [|constructor]. constructor; [exact S|].
    destruct x, y; cbn in *; try contradiction; [constructor; [exact XY|constructor]|exact XY].
  - split; [exact W|]. cbn in *. now subst.
Qed.
Lemma wa_new w v c : world_alike w v -> fst (new_module w c) = fst (new_module v c) /\ world_alike (snd (new_module w c)) (snd (new_module v c)).
Proof.
  intros (H & U & T & N). unfold new_module. cbn [fst snd]. rewrite U, T. split; [now apply Forall2_length in H|].
  split; [|split; [|split]]; cbn; auto. apply Forall2_app; [exact H|]. constructor; [|constructor]. repeat split; constructor.
Qed.

(** ** programs *)
Lemma exec_alike w v env c c' : world_alike w v -> alike_cmd nt c c' ->
  exists w2 v2 env2 a a', exec w env c = (w2, env2, a) /\ exec v env c' = (v2, env2, a') /\ world_alike w2 v2 /\ alike_ans nt a a'.
Proof.
  intros W C.
  assert (SAME : forall a, (forall x, a <> AValue x) -> (forall s, a <> AState s) ->
    exists w2 v2 env2 a1 a', (w, env, a) = (w2, env2, a1) /\ (v, env, a) = (v2, env2, a') /\ world_alike w2 v2 /\ alike_ans nt a1 a').
  { intros a A1 A2. exists w, v, env, a, a. split; [reflexivity|]. split; [reflexivity|]. split; [exact W|]. now constructor. }
  assert (SET : forall x n a b, alike a b ->
    exists w2 v2 env2 a1 a', (match setattr w x n a with Ok w' => (w', env, ADone) | Err e => (w, env, ARaised e) end) = (w2, env2, a1) /\
      (match setattr v x n b with Ok w' => (w', env, ADone) | Err e => (v, env, ARaised e) end) = (v2, env2, a') /\ world_alike w2 v2 /\ alike_ans nt a1 a').
  { intros x n a b AB. pose proof (wa_setattr w v x n a b W AB) as S.
    destruct (setattr w x n a) as [w2|e], (setattr v x n b) as [v2|f]; try contradiction.
    - exists w2, v2, env, ADone, ADone. split; [reflexivity|]. split; [reflexivity|]. split; [exact S|]. constructor; discriminate.
    - cbn in S. subst f. apply SAME; discriminate. }
  destruct C as [c C1 C2|i n a b AB|i x y XY].
  - destruct c as [i n|i n a|i n j|i n|c|i|i j|i|i x]; cbn [exec]; try (exfalso; now eapply C1); try (exfalso; now eapply C2).
    + destruct (nth_error env i) as [x|]; [|apply SAME; discriminate]. pose proof (wa_get w v x W) as G.
      destruct (get_obj w x) as [o|], (get_obj v x) as [p|]; try contradiction; [|apply SAME; discriminate].
      destruct G as (_ & _ & _ & _ & G). pose proof (ad_get _ _ G n) as A.
      destruct (dget n (m_vars o)) as [a|], (dget n (m_vars p)) as [b|]; try contradiction; [|apply SAME; discriminate].
      assert (V : forall a b, alike a b -> exists w2 v2 env2 a1 a', (w, env, AValue a) = (w2, env2, a1) /\ (v, env, AValue b) = (v2, env2, a') /\ world_alike w2 v2 /\ alike_ans nt a1 a').
      { intros a0 b0 AB. exists w, v, env, (AValue a0), (AValue b0). split; [reflexivity|]. split; [reflexivity|]. split; [exact W|]. now constructor. }
      pose proof A as A'. destruct A as [z|z z' A1 A2 ? ?|]; [| |now apply V].
      * destruct z; try (now apply V). exists w, v, (env ++ [r]), AModule, AModule. split; [reflexivity|]. split; [reflexivity|]. split; [exact W|]. constructor; discriminate.
      * destruct z; try discriminate A1; destruct z'; try discriminate A2; now apply V.
    + destruct (nth_error env i) as [x|]; [|apply SAME; discriminate]. destruct (nth_error env j) as [y|]; [|apply SAME; discriminate].
      pose proof (wa_get w v x W) as G.
      destruct (get_obj w x) as [o|], (get_obj v x) as [p|]; try contradiction; [|apply SAME; discriminate].
      destruct G as (_ & _ & _ & _ & G). pose proof (ad_get _ _ G n) as A.
      destruct (dget n (m_vars o)) as [a|], (dget n (m_vars p)) as [b|]; try contradiction; [|apply SET; constructor].
      destruct A; [apply SET; constructor..|]. apply SAME; discriminate.
    + destruct (nth_error env i) as [x|]; [|apply SAME; discriminate]. unfold delattr. pose proof (wa_get w v x W) as G.
      destruct (get_obj w x) as [o|], (get_obj v x) as [p|]; try contradiction; [|apply SAME; discriminate].
      destruct G as (G1 & G2 & G3 & G4 & G). rewrite (ad_mem _ _ n G). destruct (dmem n (m_vars p)); [|apply SAME; discriminate].
      eexists _, _, env, ADone, ADone. split; [reflexivity|]. split; [reflexivity|]. split; [|constructor; discriminate].
      apply wa_put; [exact W|]. unfold set_vars. repeat split; cbn; auto. now apply ad_del.
    + destruct (wa_new w v c W) as [E1 E2]. destruct (new_module w c) as [m w1], (new_module v c) as [m' v1]. cbn [fst snd] in *. subst m'.
      exists w1, v1, (env ++ [m]), AModule, AModule. split; [reflexivity|]. split; [reflexivity|]. split; [exact E2|]. constructor; discriminate.
    + destruct (nth_error env i) as [x|]; [|apply SAME; discriminate]. pose proof (wa_get w v x W) as G.
      destruct (get_obj w x) as [o|], (get_obj v x) as [p|]; try contradiction; [|apply SAME; discriminate].
      destruct G as (G1 & _ & G3 & _). rewrite G1, G3. apply SAME; discriminate.
    + destruct (nth_error env i) as [x|]; [|apply SAME; discriminate]. destruct (nth_error env j) as [y|]; apply SAME; discriminate.
    + destruct (nth_error env i) as [x|]; [|apply SAME; discriminate]. pose proof (wa_get_state w v x W) as S.
      destruct (get_state w x) as [s|e], (get_state v x) as [u|f]; try contradiction.
      * exists w, v, env, (AState s), (AState u). split; [reflexivity|]. split; [reflexivity|]. split; [exact W|]. now constructor.
      * cbn in S. subst f. apply SAME; discriminate.
  - cbn [exec]. destruct (nth_error env i) as [x|]; [|apply SAME; discriminate]. now apply SET.
  - cbn [exec]. destruct (nth_error env i) as [m|]; [|apply SAME; discriminate]. destruct (wa_update w v m x y W XY) as [U1 U2].
    destruct (update_state w m (UStates x)) as [w2 x1], (update_state v m (UStates y)) as [v2 y1]. cbn [fst snd] in *. subst y1.
    destruct x1; eexists w2, v2, env, _, _; (split; [reflexivity|]); (split; [reflexivity|]); (split; [exact U1|]); constructor; discriminate.
Qed.
Lemma run_alike {A} (p q : prog A) : same_steps nt p q -> forall w v env, world_alike w v ->
  world_alike (fst (run p w env)) (fst (run q v env)) /\ same_outcome (snd (run p w env)) (snd (run q v env)).
Proof.
  induction 1 as [x y H|c c' k k' C H IH]; intros w v env W; cbn [run]; [split; [exact W|exact H]|].
  destruct (exec_alike w v env c c' W C) as (w2 & v2 & env2 & a & a' & E1 & E2 & W2 & AA). rewrite E1, E2. now apply IH.
Qed.
End Alike.

(** ** two constructions *)
Definition empty_world (w : world) : world := mkWorld [] 0 (w_trace w) (w_nodes w).
Lemma empty_wf w : wf_world (empty_world w).
Proof. constructor; [constructor|]. intros r o H. unfold get_obj in H. cbn in H. now destruct r. Qed.
Lemma pair_none w w' : wf_world w -> wf_world w' -> w_nodes w = w_nodes w' -> pair w w' (fun _ _ => False).
Proof. intros W W' N. constructor; auto; try contradiction. constructor; contradiction. Qed.
Lemma construct_pair w w' c p : wf_world w -> wf_world w' -> w_nodes w = w_nodes w' -> In "Module" c -> ok_prog p ->
  exists w1 w1' x R, construct w c p = (w1, List.length (w_heap w), x) /\ construct w' c p = (w1', List.length (w_heap w'), x) /\
    pair w1 w1' R /\ R (List.length (w_heap w)) (List.length (w_heap w')) /\ w_nodes w1 = w_nodes w /\
    all_unchanged w w1 /\ w_trace w1 = w_trace w.
Proof.
  intros W W' N Hc Hp. pose proof (pair_new w w' _ c Hc (pair_none w w' W W' N)) as M.
  unfold construct. destruct (new_module w c) as [m v] eqn:E, (new_module w' c) as [m' v'] eqn:E'. cbn [snd] in M.
  unfold new_module in E, E'. injection E as <- <-. injection E' as <- <-.
  destruct (run_pair p Hp _ _ _ [List.length (w_heap w)] [List.length (w_heap w')] (mv_pair _ _ _ _ _ _ M)) as (w1 & w1' & x & R & R1 & R2 & M2).
  { constructor; [right; auto|constructor]. }
  cbn in R1, R2. rewrite R1, R2. exists w1, w1', x, R. split; [reflexivity|]. split; [reflexivity|]. split; [apply M2|]. split; [|split; [|split]].
  - apply (mv_incl _ _ _ _ _ _ M2). right. auto.
  - apply (mv_nt _ _ _ _ _ _ M2).
  - intros r o Ho. pose proof (moves_trans _ _ _ _ _ _ _ _ _ M M2) as MM. rewrite (mv_fr _ _ _ _ _ _ MM); [exact Ho| |auto].
    apply get_obj_lt in Ho. exact Ho.
  - apply (mv_tr _ _ _ _ _ _ M2).
Qed.

Theorem two_constructions w w' c p p' : wf_world w -> wf_world w' -> w_nodes w = w_nodes w' -> In "Module" c ->
  ok_prog p -> ok_prog p' -> same_steps (w_nodes w) p p' ->
  exists w1 w1' x x' d s s',
    construct w c p = (w1, List.length (w_heap w), x) /\ construct w' c p' = (w1', List.length (w_heap w'), x') /\ same_outcome x x' /\
    wf_world w1 /\ wf_world w1' /\ valid w1 (List.length (w_heap w)) /\ valid w1' (List.length (w_heap w')) /\
    live w1 (List.length (w_heap w)) /\ live w1' (List.length (w_heap w')) /\ w_nodes w1 = w_nodes w /\ w_nodes w1' = w_nodes w' /\
    get_module_def w1 (List.length (w_heap w)) = Ok d /\ get_module_def w1' (List.length (w_heap w')) = Ok d /\
    get_state w1 (List.length (w_heap w)) = Ok s /\ get_state w1' (List.length (w_heap w')) = Ok s' /\ alike_dict (w_nodes w) s s'.
Proof.
  intros W W' N Hc Hp Hp' HS.
  destruct (construct_pair w (empty_world w) c p W (empty_wf w) eq_refl Hc Hp) as (w1 & u1 & x & R & E1 & F1 & P1 & RM & N1 & _).
  assert (N0 : w_nodes w' = w_nodes (empty_world w)) by (cbn; now symmetry).
  destruct (construct_pair w' (empty_world w) c p' W' (empty_wf w) N0 Hc Hp') as (w1' & u1' & x' & R' & E1' & F1' & P1' & RM' & N1' & _).
  cbn [empty_world w_heap List.length] in *.
  assert (A : world_alike (w_nodes w) u1 u1' /\ same_outcome x x').
  { unfold construct in F1, F1'. cbn [new_module empty_world w_heap List.length] in F1, F1'.
    match type of F1 with context [run p ?z ?e] => pose proof (run_alike (w_nodes w) p p' HS z z e) as RA; destruct (run p z e) as [u y], (run p' z e) as [u' y'] end.
    injection F1 as -> ->. injection F1' as -> ->. apply RA. split; [|split; [|split]]; cbn; auto. constructor; [|constructor]. repeat split; constructor. }
  destruct A as [A O].
  assert (LV : forall w v R r s, pair w v R -> R r s -> valid w r /\ live w r).
  { intros a b Q r s P q. split; [apply (bisim_valid _ _ _ _ _ (pr_bi _ _ _ P) q)|].
    intros y o Hy Ho. destruct (bisim_reaches _ _ _ _ _ _ (pr_bi _ _ _ P) q Hy) as (z & _ & Hz). eapply (pr_live _ _ _ P); eauto. }
  destruct (LV _ _ _ _ _ P1 RM) as [V1 L1]. destruct (LV _ _ _ _ _ P1' RM') as [V1' L1'].
  destruct (get_module_def_total w1 _ (pr_wf _ _ _ P1) V1) as [d Hd]. destruct (get_state_total w1 _ (pr_wf _ _ _ P1) V1) as (s & Hs & _).
  destruct (get_state_total w1' _ (pr_wf _ _ _ P1') V1') as (s' & Hs' & _).
  exists w1, w1', x, x', d, s, s'. repeat (split; [assumption|]). split; [apply P1|]. split; [apply P1'|]. repeat (split; [assumption|]).
  split; [|split; [|split]]; auto.
  - rewrite (bisim_module_def _ _ _ _ _ (pr_wf _ _ _ P1') (pr_wf' _ _ _ P1') (pr_bi _ _ _ P1') (pr_nodes _ _ _ P1') RM'), <- (wa_module_def _ _ _ 0 A).
    rewrite <- Hd. symmetry. eapply bisim_module_def; [apply P1..|exact RM].
  - pose proof (wa_get_state _ _ _ 0 A) as G.
    rewrite <- (bisim_get_state _ _ _ _ _ (pr_wf _ _ _ P1) (pr_wf' _ _ _ P1) (pr_bi _ _ _ P1) (pr_nodes _ _ _ P1) RM), Hs in G.
    rewrite <- (bisim_get_state _ _ _ _ _ (pr_wf _ _ _ P1') (pr_wf' _ _ _ P1') (pr_bi _ _ _ P1') (pr_nodes _ _ _ P1') RM'), Hs' in G. exact G.
Qed.

(** ** loading *)
Lemma alike_trans nt a b c : alike nt a b -> alike nt b c -> alike nt a c.
Proof.
  intros H1 H2. destruct H1 as [v|v u A1 A2 A3 A4|c0 m v u W1 W2 N]; [exact H2| |]; inversion H2; subst; try constructor; auto.
Qed.
Lemma alike_sym nt a b : alike nt a b -> alike nt b a.
Proof. intros H. destruct H; constructor; auto. Qed.
Lemma ad_trans nt d e f : alike_dict nt d e -> alike_dict nt e f -> alike_dict nt d f.
Proof.
  intros H. revert f. induction H as [|x y d e [E S] F IH]; intros f G; inversion G as [|? z ? f' [E' S'] F']; subst; constructor; [|now apply IH].
  split; [congruence|]. eapply alike_trans; eauto.
Qed.
Lemma ad_sym nt d e : alike_dict nt d e -> alike_dict nt e d.
Proof. induction 1 as [|x y d e [E S] F IH]; constructor; [|exact IH]. split; [now symmetry|]. now apply alike_sym. Qed.
Lemma ad_keys nt d e : alike_dict nt d e -> keys d = keys e.
Proof. unfold keys. induction 1 as [|x y d e [E S] F IH]; [reflexivity|]. cbn. now rewrite E, IH. Qed.
Lemma alike_overwrites nt a b : alike nt a b -> is_submodule b = false -> overwrites a b b.
Proof.
  intros H HS. destruct H as [v|v u|c m v u]; cbn; auto. split; [reflexivity|]. split; [apply same_meta_refl|reflexivity].
Qed.

(** two modules with the same parts do the same *)
Lemma same_parts_run {A} (f : prog A) p w r w' r' : ok_prog f ->
  wf_world w -> valid w r -> names_ok w r -> live w r -> parts_of p w r ->
  wf_world w' -> valid w' r' -> names_ok w' r' -> live w' r' -> parts_of p w' r' -> w_nodes w = w_nodes w' ->
  exists w1 w1' x, run f w [r] = (w1, x) /\ run f w' [r'] = (w1', x) /\
    get_state w1 r = get_state w1' r' /\ get_module_def w1 r = get_module_def w1' r'.
Proof.
  intros Hf W V N L P W' V' N' L' P' NT.
  destruct (run_parts f w w r w p (w_trace w) Hf) as (w1 & x & v1 & v2 & E1 & M & E2 & _ & _ & _ & _ & _ & _ & _ & S & D).
  { constructor; auto. intros y o Ho. exact Ho. }
  destruct (run_parts f w w' r' w p (w_trace w) Hf) as (w1' & x' & v1' & v2' & E1' & M' & E2' & _ & _ & _ & _ & _ & _ & _ & S' & D').
  { constructor; auto. intros y o Ho. exact Ho. }
  rewrite M in M'. injection M' as <-. rewrite E2 in E2'. injection E2' as <- <-.
  exists w1, w1', x. split; [exact E1|]. split; [exact E1'|]. split; congruence.
Qed.
