(** Alias5_proofs: the effect of a write on attributes and States. *)
From Verif Require Import PyBase PyBaseFacts ValuesM FiltersM StateM ModuleM AliasM Spec_Alias Alias_proofs Alias2_proofs Alias3_proofs Alias4_proofs.
From Coq Require Import Permutation.
Local Open Scope string_scope.
Local Open Scope list_scope.

(** get_state lists no node container twice *)
Definition cells_of (xs : list (string * rattr)) : list nat := flat_map (fun x => match snd x with RCell k => [k] | RRaw _ => [] end) xs.
Lemma cells_In xs k : In k (cells_of xs) <-> exists p, In (p, RCell k) xs.
Proof.
  unfold cells_of. rewrite in_flat_map. split.
  - intros ([p [v|j]] & i & H); cbn in H; [destruct H|]. destruct H as [H|[]]. subst. eauto.
  - intros [p i]. exists (p, RCell k). split; [exact i|left; reflexivity].
Qed.
Lemma cells_app a b : cells_of (a ++ b) = cells_of a ++ cells_of b.
Proof. apply flat_map_app. Qed.

Section Once.
Variable w : rworld.
Hypothesis O : owned w.
(** the Module that holds [k] has been visited between [seen] and [seen'] *)
Definition from (seen seen' : list nat) (k : nat) : Prop :=
  node_cell w k /\ exists r o n, rget_obj w r = Some o /\ In (n, RCell k) (ro_vars o) /\ In (ro_id o) seen' /\ ~ In (ro_id o) seen.
Definition visit (seen : list nat) (xs : list (string * rattr)) (seen' : list nat) : Prop :=
  incl seen seen' /\ NoDup (cells_of xs) /\ forall k, In k (cells_of xs) -> from seen seen' k.
Lemma from_unique k s1 s2 s3 s4 : from s1 s2 k -> from s3 s4 k -> exists i, In i s2 /\ ~ In i s1 /\ In i s4 /\ ~ In i s3.
Proof.
  intros (N & r1 & o1 & n1 & G1 & I1 & A1 & B1) (_ & r2 & o2 & n2 & G2 & I2 & A2 & B2).
  destruct (O k N r1 n1 r2 n2) as [e _]; [exists o1; auto|exists o2; auto|]. subst r2. rewrite G1 in G2. inversion G2; subst. eauto 6.
Qed.
Lemma from_mono s1 s2 s1' s2' k : incl s1' s1 -> incl s2 s2' -> from s1 s2 k -> from s1' s2' k.
Proof. intros I1 I2 (N & r & o & n & G & i & a & b). split; [exact N|]. exists r, o, n. repeat split; auto. Qed.

Lemma fields_once r o (rec : nat -> list nat -> list string -> result (list (string * rattr) * list nat)) parts seen0 : 
  rget_obj w r = Some o -> NoDup (keys (ro_vars o)) -> ~ In (ro_id o) seen0 ->
  (forall r seen parts xs seen', rec r seen parts = Ok (xs, seen') -> visit seen xs seen') ->
  forall l, incl l (ro_vars o) -> NoDup (keys l) -> forall seen xs seen', incl seen0 seen -> In (ro_id o) seen ->
  riter_fields rec (rw_nodes w) (rw_cells w) l seen parts = Ok (xs, seen') ->
  incl seen seen' /\ NoDup (cells_of xs) /\ forall k, In k (cells_of xs) -> (node_cell w k /\ exists n, In (n, RCell k) l) \/ from seen seen' k.
Proof.
  intros G ND Ns Hr. induction l as [|[n b] t IH]; intros Il Nl seen xs seen' I0 Is E.
  - inversion E; subst. split; [apply incl_refl|]. split; [constructor|intros k []].
  - assert (It : incl t (ro_vars o)) by (intros y i; apply Il; right; exact i).
    assert (Nt : NoDup (keys t)) by (cbn in Nl; inversion Nl; assumption).
    assert (D : (do (ys, s2) <- riter_fields rec (rw_nodes w) (rw_cells w) t seen parts;
        if is_node (rw_nodes w) (look (rw_cells w) b) then Ok ((join_path (parts ++ [n]), b) :: ys, s2) else Ok (ys, s2)) = Ok (xs, seen') ->
        incl seen seen' /\ NoDup (cells_of xs) /\ forall k, In k (cells_of xs) -> (node_cell w k /\ exists m, In (m, RCell k) ((n, b) :: t)) \/ from seen seen' k).
    { intro E'. destruct (riter_fields rec (rw_nodes w) (rw_cells w) t seen parts) as [[ys s2]|e] eqn:Et; [|discriminate]. cbn [rbind] in E'.
      destruct (IH It Nt seen ys s2 I0 Is Et) as (H1 & H2 & H3).
      assert (H3' : forall k, In k (cells_of ys) -> (node_cell w k /\ exists m, In (m, RCell k) ((n, b) :: t)) \/ from seen s2 k).
      { intros k i. destruct (H3 k i) as [(a & m & c)|c]; [left; split; [exact a|exists m; right; exact c]|auto]. }
      destruct (is_node (rw_nodes w) (look (rw_cells w) b)) eqn:Nb; inversion E'; subst; [|auto].
      split; [exact H1|]. destruct b as [v|k0]; [cbn; auto|]. change (cells_of ((join_path (parts ++ [n]), RCell k0) :: ys)) with (k0 :: cells_of ys).
      split.
      - constructor; [|exact H2]. intro i. destruct (H3 k0 i) as [(_ & m & j)|(N & r1 & o1 & n1 & G1 & I1 & A1 & B1)].
        + destruct (O k0 Nb r n r m) as [_ e]; [exists o; split; [exact G|apply Il; left; reflexivity]|exists o; split; [exact G|apply It, j]|].
          subst m. cbn in Nl. inversion Nl; subst. apply H4. apply (in_map fst _ _ j).
        + destruct (O k0 Nb r n r1 n1) as [e _]; [exists o; split; [exact G|apply Il; left; reflexivity]|exists o1; auto|].
          subst r1. rewrite G in G1. inversion G1; subst. contradiction.
      - intros k [i|i]; [|apply H3', i]. subst k0. left. split; [exact Nb|]. exists n. left. reflexivity. }
    cbn [riter_fields] in E. destruct b as [v|k]; [destruct v|]; try (apply D; exact E).
    destruct (rec r0 seen (parts ++ [n])) as [[xs1 s1]|e] eqn:Er; [|discriminate]. cbn [rbind] in E.
    destruct (riter_fields rec (rw_nodes w) (rw_cells w) t s1 parts) as [[ys s2]|e] eqn:Et; [|discriminate]. cbn in E. inversion E; subst.
    destruct (Hr _ _ _ _ _ Er) as (V1 & V2 & V3).
    destruct (IH It Nt s1 ys seen' (incl_tran I0 V1) (V1 _ Is) Et) as (H1 & H2 & H3).
    split; [apply (incl_tran V1 H1)|]. rewrite cells_app. split.
    + apply NoDup_app_intro; [exact V2|exact H2|]. intros k i j. pose proof (V3 k i) as F1. destruct (H3 k j) as [(N & m & c)|F2].
      * destruct F1 as (_ & r1 & o1 & n1 & G1 & I1 & A1 & B1). destruct (O k N r m r1 n1) as [e _]; [exists o; split; [exact G|apply It, c]|exists o1; auto|].
        subst r1. rewrite G in G1. inversion G1; subst. contradiction.
      * destruct (from_unique k _ _ _ _ F1 F2) as (i0 & K1 & K2 & K3 & K4). contradiction.
    + intros k i. apply in_app_or in i. destruct i as [i|i].
      * right. apply (from_mono seen s1); [apply incl_refl|exact H1|apply V3, i].
      * destruct (H3 k i) as [(a & m & c)|c]; [left; split; [exact a|exists m; right; exact c]|]. right. apply (from_mono s1 seen'); [exact V1|apply incl_refl|exact c].
Qed.
Hypothesis ND : nodups w.
Lemma nmem_In n l : nmem n l = true <-> In n l.
Proof.
  unfold nmem. rewrite existsb_exists. split.
  - intros (x & i & e). apply Nat.eqb_eq in e. congruence.
  - intro i. exists n. split; [exact i|apply Nat.eqb_refl].
Qed.
Lemma iter_once fuel : forall r seen parts xs seen', riter_state_rec fuel w r seen parts = Ok (xs, seen') -> visit seen xs seen'.
Proof.
  induction fuel as [|n IH]; intros r seen parts xs seen' E; [discriminate|]. cbn in E. destruct (rget_obj w r) as [o|] eqn:G; [|discriminate].
  destruct (nmem (ro_id o) seen) eqn:M.
  - inversion E; subst. split; [apply incl_refl|]. split; [constructor|intros k []].
  - assert (Ns : ~ In (ro_id o) seen) by (rewrite <- nmem_In, M; discriminate).
    assert (Nd : NoDup (keys (ro_vars o))) by (apply (ND r o G)).
    destruct (fields_once r o (riter_state_rec n w) parts seen G Nd Ns IH (sort_by_key (ro_vars o))) with (seen := seen ++ [ro_id o]) (xs := xs) (seen' := seen') as (H1 & H2 & H3).
    + intros x i. apply (Permutation_in _ (sort_perm (ro_vars o)) i).
    + apply NoDup_keys_sort, Nd.
    + apply incl_appl, incl_refl.
    + apply in_or_app. right. left. reflexivity.
    + exact E.
    + assert (I0 : incl seen seen') by (intros x i; apply H1, in_or_app; left; exact i).
      split; [exact I0|]. split; [exact H2|]. intros k i. destruct (H3 k i) as [(N & m & j)|F].
      * split; [exact N|]. exists r, o, m. split; [exact G|]. split; [apply (Permutation_in _ (sort_perm (ro_vars o)) j)|]. split; [|exact Ns].
        apply H1, in_or_app. right. left. reflexivity.
      * apply (from_mono (seen ++ [ro_id o]) seen'); [apply incl_appl, incl_refl|apply incl_refl|exact F].
Qed.
Lemma once_keys k p q : forall xs : list (string * rattr), NoDup (cells_of xs) -> In (p, RCell k) xs -> In (q, RCell k) xs -> p = q.
Proof.
  induction xs as [|[m b] t IH]; intros N i j; [destruct i|]. destruct i as [i|i], j as [j|j]; [congruence| | |].
  - inversion i; subst. cbn in N. inversion N; subst. exfalso. apply H1, cells_In. eauto.
  - inversion j; subst. cbn in N. inversion N; subst. exfalso. apply H1, cells_In. eauto.
  - apply IH; auto. cbn in N. destruct b; [exact N|inversion N; assumption].
Qed.
Lemma state_once r s p q k : rget_state w r = Ok s -> In (p, RCell k) s -> In (q, RCell k) s -> p = q.
Proof.
  unfold rget_state. destruct (riter_state_rec _ w r [] []) as [[xs s2]|e] eqn:E; [|discriminate]. cbn. intros E' i j. inversion E'; subst.
  destruct (iter_once _ _ _ _ _ _ E) as (_ & N & _). apply (once_keys k p q xs N); apply In_gmk; assumption.
Qed.
Lemma state_nodes r s p k : rget_state w r = Ok s -> In (p, RCell k) s -> node_cell w k /\ exists r' n, holds w r' n k.
Proof.
  unfold rget_state. destruct (riter_state_rec _ w r [] []) as [[xs s2]|e] eqn:E; [|discriminate]. cbn. intros E' i. inversion E'; subst.
  destruct (iter_once _ _ _ _ _ _ E) as (_ & _ & H). apply In_gmk in i. destruct (H k) as (N & r' & o & n & G & j & _); [apply cells_In; eauto|].
  split; [exact N|]. exists r', n. exists o. auto.
Qed.
End Once.

(** a write does not change which objects get_state returns *)
Lemma look_node nt cs cs' a : (forall k, is_node nt (look cs' (RCell k)) = is_node nt (look cs (RCell k))) -> is_node nt (look cs' a) = is_node nt (look cs a).
Proof. intro H. destruct a; [reflexivity|apply H]. Qed.
Lemma fields_written cs cs' nt (rec rec' : nat -> list nat -> list string -> result (list (string * rattr) * list nat)) parts :
  (forall k, is_node nt (look cs' (RCell k)) = is_node nt (look cs (RCell k))) -> (forall r seen parts, rec' r seen parts = rec r seen parts) ->
  forall l seen, riter_fields rec' nt cs' l seen parts = riter_fields rec nt cs l seen parts.
Proof.
  intros H Hr. induction l as [|[n b] t IH]; intro seen; [reflexivity|]. cbn [riter_fields]. rewrite (look_node nt cs cs' b H).
  destruct b as [v|k]; [destruct v|]; try (rewrite IH; reflexivity). rewrite Hr. destruct (rec r seen (parts ++ [n])) as [[xs s1]|e]; [|reflexivity]. cbn. rewrite IH. reflexivity.
Qed.
Lemma iter_written w w' fuel : rw_heap w' = rw_heap w -> rw_nodes w' = rw_nodes w -> (forall k, is_node (rw_nodes w) (look (rw_cells w') (RCell k)) = is_node (rw_nodes w) (look (rw_cells w) (RCell k))) ->
  forall r seen parts, riter_state_rec fuel w' r seen parts = riter_state_rec fuel w r seen parts.
Proof.
  intros Hh Hn H. induction fuel as [|n IH]; intros r seen parts; [reflexivity|]. cbn. unfold rget_obj. rewrite Hh, Hn. destruct (nth_error (rw_heap w) r) as [o|]; [|reflexivity].
  destruct (nmem (ro_id o) seen); [reflexivity|]. apply fields_written; [exact H|exact IH].
Qed.
Lemma bool_iff a b : (a = true <-> b = true) -> a = b.
Proof. destruct a, b; intuition congruence. Qed.
Lemma state_written w w' r : written w w' -> rget_state w' r = rget_state w r.
Proof.
  intros (Hh & Hn & _ & H). unfold rget_state. rewrite Hh. rewrite (iter_written w w'); [reflexivity|exact Hh|exact Hn|].
  intro k. apply bool_iff. specialize (H k). unfold node_cell in H. rewrite Hn in H. exact H.
Qed.

(** the exact effect of a write *)
Lemma write_effect w k fld v c : nth_error (rw_cells w) k = Some c ->
  exists w', rwrite w (RCell k) fld v = Ok w' /\ written w w' /\
  (forall j, nth_error (rw_cells w') j = if Nat.eqb j k then Some (cont_write c fld v) else nth_error (rw_cells w) j).
Proof.
  intro G. exists (rset_cells w (list_set k (cont_write c fld v) (rw_cells w))). assert (E : rwrite w (RCell k) fld v = Ok (rset_cells w (list_set k (cont_write c fld v) (rw_cells w)))) by (cbn; rewrite G; reflexivity).
  split; [exact E|]. split; [apply (write_written _ _ _ _ _ E)|]. intro j. cbn. assert (L : k < ncells w) by (apply nth_error_Some; congruence).
  destruct (Nat.eqb_spec j k) as [e|e]; [subst j; apply nth_list_set_same, L|apply nth_list_set_other; congruence].
Qed.
