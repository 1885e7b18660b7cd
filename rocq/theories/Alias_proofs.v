(** Alias_proofs: programs that do not write to container objects cannot tell the
    representation with objects from the one by value. *)
From Verif Require Import PyBase PyBaseFacts ValuesM FiltersM StateM ModuleM AliasM Spec_Alias.
From Coq Require Import Permutation.
Local Open Scope string_scope.
Local Open Scope list_scope.

(** ** dicts under a map of their values *)
Definition vmap {A B} (f : A -> B) (d : list (string * A)) : list (string * B) := map (fun kv => (fst kv, f (snd kv))) d.
Section Vmap.
Context {A B : Type} (f : A -> B).
Lemma vmap_keys d : keys (vmap f d) = keys d.
Proof. unfold keys, vmap. rewrite map_map. apply map_ext. reflexivity. Qed.
Lemma vmap_dget k d : dget k (vmap f d) = option_map f (dget k d).
Proof. induction d as [|[k' v] t IH]; [reflexivity|]. cbn. destruct (String.eqb k k'); [reflexivity|exact IH]. Qed.
Lemma vmap_dmem k d : dmem k (vmap f d) = dmem k d.
Proof. unfold dmem. rewrite vmap_dget. destruct (dget k d); reflexivity. Qed.
Lemma vmap_dset k v d : vmap f (dset k v d) = dset k (f v) (vmap f d).
Proof. induction d as [|[k' v'] t IH]; [reflexivity|]. cbn. destruct (String.eqb k k'); [reflexivity|]. cbn. f_equal. exact IH. Qed.
Lemma vmap_ddel k d : vmap f (ddel k d) = ddel k (vmap f d).
Proof. induction d as [|[k' v'] t IH]; [reflexivity|]. cbn. destruct (String.eqb k k'); [reflexivity|]. cbn. f_equal. exact IH. Qed.
Lemma vmap_dupdate items : forall d, vmap f (dupdate d items) = dupdate (vmap f d) (vmap f items).
Proof.
  induction items as [|[k v] t IH]; intros d; [reflexivity|].
  change (dupdate d ((k, v) :: t)) with (dupdate (dset k v d) t).
  rewrite IH, vmap_dset. reflexivity.
Qed.
Lemma vmap_dict_of l : vmap f (dict_of l) = dict_of (vmap f l).
Proof. apply vmap_dupdate. Qed.
Lemma vmap_insert x l : vmap f (insert_by_key x l) = insert_by_key (fst x, f (snd x)) (vmap f l).
Proof. induction l as [|y t IH]; [reflexivity|]. cbn. destruct (String.leb (fst x) (fst y)); [reflexivity|]. cbn. f_equal. exact IH. Qed.
Lemma vmap_sort l : vmap f (sort_by_key l) = sort_by_key (vmap f l).
Proof.
  induction l as [|x t IH]; [reflexivity|]. change (vmap f (x :: t)) with ((fst x, f (snd x)) :: vmap f t). cbn [sort_by_key].
  rewrite vmap_insert, IH. reflexivity.
Qed.
Lemma vmap_gmk l : vmap f (gmk_state l) = gmk_state (vmap f l).
Proof. unfold gmk_state. rewrite vmap_dict_of, vmap_sort. reflexivity. Qed.
Lemma vmap_app a b : vmap f (a ++ b) = vmap f a ++ vmap f b.
Proof. apply map_app. Qed.
Lemma vmap_fold l : forall acc, vmap f (fold_left (fun a s => dupdate a s) l acc) = fold_left (fun a s => dupdate a s) (map (vmap f) l) (vmap f acc).
Proof. induction l as [|s t IH]; intros acc; [reflexivity|]. cbn [fold_left map]. rewrite IH, vmap_dupdate. reflexivity. Qed.
Lemma vmap_or a b : vmap f (gstate_or a b) = gstate_or (vmap f a) (vmap f b).
Proof.
  unfold gstate_or. destruct b as [|x t]; [reflexivity|]. unfold gstate_merge. rewrite vmap_gmk, vmap_fold. reflexivity.
Qed.
Lemma vmap_filter_keys (p : string -> bool) d : vmap f (filter (fun kv => p (fst kv)) d) = filter (fun kv => p (fst kv)) (vmap f d).
Proof. induction d as [|[k v] t IH]; [reflexivity|]. cbn. destruct (p k); cbn; [f_equal|]; exact IH. Qed.
Lemma vmap_sub a b : vmap f (gstate_sub a b) = gstate_sub (vmap f a) (vmap f b).
Proof.
  unfold gstate_sub. destruct b as [|x t]; [reflexivity|].
  rewrite (vmap_filter_keys (fun k => negb (dmem k (x :: t)))).
  change (vmap f (x :: t)) with ((fst x, f (snd x)) :: vmap f t).
  apply filter_ext. intros [k v]. cbn [fst]. f_equal.
  change ((fst x, f (snd x)) :: vmap f t) with (vmap f (x :: t)). rewrite vmap_dmem. reflexivity.
Qed.
End Vmap.
Arguments vmap : simpl never.
Lemma vmap_cons {A B} (f : A -> B) n a t : vmap f ((n, a) :: t) = (n, f a) :: vmap f t.
Proof. reflexivity. Qed.
Lemma vmap_ext_In {A B} (f g : A -> B) d : (forall n a, In (n, a) d -> f a = g a) -> vmap f d = vmap g d.
Proof. intro H. apply map_ext_in. intros [n a] i. cbn. f_equal. apply (H n a i). Qed.

(** ** views *)
Definition vobj (cs : list container) (o : robj) : mobj :=
  mkMobj (ro_cls o) (ro_id o) (ro_init o) (ro_trace o) (vmap (look cs) (ro_vars o)).
Definition view (w : rworld) : world :=
  mkWorld (map (vobj (rw_cells w)) (rw_heap w)) (rw_uuid w) (rw_trace w) (rw_nodes w).
Fixpoint vdef (cs : list container) (d : rdef) : mdef :=
  match d with
  | DRef i => MRef i
  | DDef c i subs st ini => MDef c i (map (fun nd => (fst nd, vdef cs (snd nd))) subs) (vmap (look cs) st) ini
  end.
Definition vconf (f : conf rworld rattr rdef) : conf world attr mdef :=
  let cs := rw_cells (f_world f) in
  mkConf (view (f_world f)) (f_mods f) (map (vdef cs) (f_defs f)) (map (vmap (look cs)) (f_states f)) (map (look cs) (f_vals f)).

(** the object behind a reference is a Module reference only if the reference is *)
Lemma look_cell cs k : (exists c, look cs (RCell k) = ACont c) \/ look cs (RCell k) = ARaw PyNone.
Proof. cbn. destruct (nth_error cs k); eauto. Qed.

Lemma view_obj w r : get_obj (view w) r = option_map (vobj (rw_cells w)) (rget_obj w r).
Proof. unfold get_obj, rget_obj, view. cbn. apply nth_error_map. Qed.
Lemma view_len w : List.length (w_heap (view w)) = List.length (rw_heap w).
Proof. apply map_length. Qed.

Lemma make_fields_view cs nt (rec : nat -> list nat -> result (rdef * list nat)) rec' l :
  (forall r mi, rec' r mi = rmap (fun x => (vdef cs (fst x), snd x)) (rec r mi)) ->
  forall mi, make_fields rec' nt (vmap (look cs) l) mi
  = rmap (fun x => (map (fun nd => (fst nd, vdef cs (snd nd))) (fst (fst x)), vmap (look cs) (snd (fst x)), snd x)) (rmake_fields rec nt cs l mi).
Proof.
  intros H. induction l as [|[n a] t IH]; intros mi; [reflexivity|].
  rewrite vmap_cons.
  assert (D : forall a', look cs a = a' -> (forall r, a' <> ARaw (PyMod r)) ->
    (do (subs, st, mi2) <- make_fields rec' nt (vmap (look cs) t) mi;
     if negb (is_node nt a') && negb (starts_with "_module__" n) then Ok (subs, (n, a') :: st, mi2) else Ok (subs, st, mi2))
    = rmap (fun x => (map (fun nd => (fst nd, vdef cs (snd nd))) (fst (fst x)), vmap (look cs) (snd (fst x)), snd x))
       (do (subs, st, mi2) <- rmake_fields rec nt cs t mi;
        if negb (is_node nt (look cs a)) && negb (starts_with "_module__" n) then Ok (subs, (n, a) :: st, mi2) else Ok (subs, st, mi2))).
  { intros a' E _. rewrite IH, E. destruct (rmake_fields rec nt cs t mi) as [[[s st] m2]|e]; [|reflexivity].
    cbn [rmap rbind fst snd]. destruct (negb (is_node nt a') && negb (starts_with "_module__" n)); [|reflexivity].
    cbn [rmap rbind fst snd]. rewrite vmap_cons, E. reflexivity. }
  destruct a as [v|k].
  - destruct v as [| | | | |r|]; try (apply (D _ eq_refl); discriminate).
    cbn [make_fields rmake_fields look]. rewrite H. destruct (rec r mi) as [[d m1]|e]; [|reflexivity].
    cbn [rmap rbind fst snd]. rewrite IH. destruct (rmake_fields rec nt cs t m1) as [[[s st] m2]|e]; reflexivity.
  - destruct (look_cell cs k) as [[c E]|E]; pose proof (D _ E ltac:(discriminate)) as D'; rewrite E; exact D'.
Qed.

Lemma make_def_view w fuel : forall r mi,
  make_def fuel (view w) r mi = rmap (fun x => (vdef (rw_cells w) (fst x), snd x)) (rmake_def fuel w r mi).
Proof.
  induction fuel as [|n IH]; intros r mi; [reflexivity|].
  cbn [make_def rmake_def]. rewrite view_obj. destruct (rget_obj w r) as [o|]; [|reflexivity].
  cbn [option_map vobj m_id m_cls m_init m_vars]. destruct (index_of (ro_id o) mi) as [i|]; [reflexivity|].
  rewrite <- vmap_sort. rewrite (make_fields_view (rw_cells w) (w_nodes (view w)) (rmake_def n w) _ _ (IH)).
  cbn [view w_nodes].
  destruct (rmake_fields (rmake_def n w) (rw_nodes w) (rw_cells w) (sort_by_key (ro_vars o)) (mi ++ [ro_id o])) as [[[s st] m2]|e]; reflexivity.
Qed.
Lemma def_view w r : get_module_def (view w) r = rmap (vdef (rw_cells w)) (rget_module_def w r).
Proof.
  unfold get_module_def, rget_module_def, dfs_fuel. rewrite view_len, make_def_view.
  destruct (rmake_def _ w r []) as [[d mi]|e]; [|reflexivity]. destruct d; reflexivity.
Qed.

Lemma iter_fields_view cs nt (rec : nat -> list nat -> list string -> result (list (string * rattr) * list nat)) rec' l parts :
  (forall r seen parts, rec' r seen parts = rmap (fun x => (vmap (look cs) (fst x), snd x)) (rec r seen parts)) ->
  forall seen, iter_fields rec' nt (vmap (look cs) l) seen parts
  = rmap (fun x => (vmap (look cs) (fst x), snd x)) (riter_fields rec nt cs l seen parts).
Proof.
  intros H. induction l as [|[n a] t IH]; intros seen; [reflexivity|].
  rewrite vmap_cons.
  assert (D : forall a', look cs a = a' ->
    (do (ys, s2) <- iter_fields rec' nt (vmap (look cs) t) seen parts;
     if is_node nt a' then Ok ((join_path (parts ++ [n]), a') :: ys, s2) else Ok (ys, s2))
    = rmap (fun x => (vmap (look cs) (fst x), snd x))
       (do (ys, s2) <- riter_fields rec nt cs t seen parts;
        if is_node nt (look cs a) then Ok ((join_path (parts ++ [n]), a) :: ys, s2) else Ok (ys, s2))).
  { intros a' E. rewrite IH, E. destruct (riter_fields rec nt cs t seen parts) as [[s m2]|e]; [|reflexivity].
    cbn [rmap rbind fst snd]. destruct (is_node nt a'); [|reflexivity].
    cbn [rmap rbind fst snd]. rewrite vmap_cons, E. reflexivity. }
  destruct a as [v|k].
  - destruct v as [| | | | |r|]; try (apply (D _ eq_refl); discriminate).
    cbn [iter_fields riter_fields look]. rewrite H. destruct (rec r seen (parts ++ [n])) as [[d m1]|e]; [|reflexivity].
    cbn [rmap rbind fst snd]. rewrite IH. destruct (riter_fields rec nt cs t m1 parts) as [[s m2]|e]; [|reflexivity].
    cbn [rbind rmap fst snd]. rewrite vmap_app. reflexivity.
  - destruct (look_cell cs k) as [[c E]|E]; pose proof (D _ E) as D'; rewrite E; exact D'.
Qed.
Lemma iter_view w fuel : forall r seen parts,
  iter_state_rec fuel (view w) r seen parts = rmap (fun x => (vmap (look (rw_cells w)) (fst x), snd x)) (riter_state_rec fuel w r seen parts).
Proof.
  induction fuel as [|n IH]; intros r seen parts; [reflexivity|].
  cbn [iter_state_rec riter_state_rec]. rewrite view_obj. destruct (rget_obj w r) as [o|]; [|reflexivity].
  cbn [option_map vobj m_id m_vars]. destruct (nmem (ro_id o) seen); [reflexivity|].
  rewrite <- vmap_sort. rewrite (iter_fields_view (rw_cells w) (w_nodes (view w)) (riter_state_rec n w) _ _ _ (IH)). reflexivity.
Qed.
Lemma state_view w r : get_state (view w) r = rmap (vmap (look (rw_cells w))) (rget_state w r).
Proof.
  unfold get_state, rget_state, iter_state, dfs_fuel. rewrite view_len, iter_view.
  destruct (riter_state_rec _ w r [] []) as [[d mi]|e]; [|reflexivity]. cbn. f_equal. symmetry. apply (vmap_gmk (look (rw_cells w))).
Qed.

(** ** State methods *)
Lemma put_at_view cs i path a : forall l, map (vmap (look cs)) (gput_at i path a l) = put_at i path (look cs a) (map (vmap (look cs)) l).
Proof.
  induction i as [|i IH]; intros [|d t]; [reflexivity| |reflexivity|]; cbn.
  - rewrite vmap_dset. reflexivity.
  - rewrite IH. reflexivity.
Qed.
Lemma map_nil_repeat cs n : map (vmap (look cs)) (repeat [] n) = repeat [] n.
Proof. induction n as [|n IH]; [reflexivity|]. cbn [repeat map]. rewrite IH. reflexivity. Qed.
Lemma split_loop_view cs ps items : map (vmap (look cs)) (rsplit_loop cs ps items) = split_loop ps (vmap (look cs) items).
Proof.
  unfold rsplit_loop, split_loop.
  assert (H : forall acc, map (vmap (look cs)) (fold_left (fun acc kv => gput_at (route ps (fst kv) (look cs (snd kv))) (fst kv) (snd kv) acc) items acc)
     = fold_left (fun acc kv => put_at (route ps (fst kv) (snd kv)) (fst kv) (snd kv) acc) (vmap (look cs) items) (map (vmap (look cs)) acc)).
  { induction items as [|[n a] t IH]; intro acc; [reflexivity|].
    rewrite vmap_cons. cbn [fold_left fst snd]. rewrite IH, put_at_view. reflexivity. }
  rewrite H. f_equal. apply map_nil_repeat.
Qed.
Lemma split_view w s fs : rmap (map (vmap (look (rw_cells w)))) (rsplit_state w s fs) = split_state (vmap (look (rw_cells w)) s) fs.
Proof.
  unfold rsplit_state, split_state. destruct (ellipsis_misplaced fs); [reflexivity|].
  destruct (rmapM to_predicate fs) as [ps|e]; [|reflexivity]. cbn. rewrite split_loop_view. reflexivity.
Qed.
Lemma map_removelast {A B} (f : A -> B) l : map f (removelast l) = removelast (map f l).
Proof. induction l as [|x [|y t] IH]; [reflexivity..|]. cbn [map removelast] in *. f_equal. exact IH. Qed.
Lemma map_last {A B} (f : A -> B) l d : last (map f l) (f d) = f (last l d).
Proof. induction l as [|x [|y t] IH]; [reflexivity..|]. exact IH. Qed.
Lemma pack_list l : sts_list (pack l) = map mk_state l.
Proof. destruct l as [|x [|y t]]; reflexivity. Qed.
Lemma map_gmk cs (l : list (dict rattr)) : map (vmap (look cs)) (map gmk_state l) = map mk_state (map (vmap (look cs)) l).
Proof. rewrite !map_map. apply map_ext. intro d. apply vmap_gmk. Qed.
Lemma part_view w s fs : rmap (map (vmap (look (rw_cells w)))) (rpartition w s fs) = rmap sts_list (partition_state (vmap (look (rw_cells w)) s) fs).
Proof.
  unfold rpartition, partition_state. destruct fs as [|f t]; [reflexivity|]. unfold state_partition. rewrite <- split_view.
  destruct (rsplit_state w s (f :: t)) as [l|e]; [|reflexivity]. cbn [rmap rbind].
  change (@nil (string * attr)) with (vmap (look (rw_cells w)) []). rewrite map_last.
  destruct (last l []) as [|[x x'] y]; [|rewrite vmap_cons; reflexivity]. change (vmap (look (rw_cells w)) []) with (@nil (string * attr)). cbn [rmap]. rewrite pack_list, map_gmk, map_removelast. reflexivity.
Qed.
Lemma filter_view w s fs : rmap (map (vmap (look (rw_cells w)))) (rfilter w s fs)
  = match fs with [] => Ok [] | f :: t => rmap sts_list (state_filter (vmap (look (rw_cells w)) s) f t) end.
Proof.
  unfold rfilter. destruct fs as [|f t].
  - unfold rsplit_state. cbn [ellipsis_misplaced rmapM rbind rmap]. unfold rsplit_loop. cbn [List.length repeat].
    assert (H : forall items acc, List.length acc = 1 -> removelast (fold_left (fun acc kv => gput_at (route [] (fst kv) (look (rw_cells w) (snd kv))) (fst kv) (snd kv) acc) items acc) = []).
    { induction items as [|[n a] t IH]; intros acc E; cbn [fold_left].
      - destruct acc as [|x [|y z]]; [reflexivity..|discriminate].
      - apply IH. destruct acc as [|x [|y z]]; [discriminate|reflexivity|discriminate]. }
    rewrite H by reflexivity. reflexivity.
  - unfold state_filter. rewrite <- split_view. destruct (rsplit_state w s (f :: t)) as [l|e]; [|reflexivity].
    cbn [rmap rbind]. rewrite pack_list, map_gmk, map_removelast. reflexivity.
Qed.

(** ** valid references *)
Definition rvalid (n : nat) (a : rattr) : Prop := match a with RRaw _ => True | RCell k => k < n end.
Definition dvalid (n : nat) (d : list (string * rattr)) : Prop := forall x a, In (x, a) d -> rvalid n a.
Definition hvalid (n : nat) (h : list robj) : Prop := forall o, In o h -> dvalid n (ro_vars o).
Definition wvalid (w : rworld) : Prop := hvalid (List.length (rw_cells w)) (rw_heap w).
Fixpoint defall (P : rattr -> Prop) (d : rdef) : Prop :=
  match d with
  | DRef _ => True
  | DDef _ _ subs st _ => (fix go (l : list (string * rdef)) := match l with [] => True | (_, d) :: t => defall P d /\ go t end) subs
                          /\ forall n a, In (n, a) st -> P a
  end.
Definition subsall (P : rattr -> Prop) (l : list (string * rdef)) : Prop := forall n d, In (n, d) l -> defall P d.
Lemma defall_DDef P c i subs st ini : defall P (DDef c i subs st ini) <-> subsall P subs /\ forall n a, In (n, a) st -> P a.
Proof.
  cbn. unfold subsall.
  assert (H : (fix go (l : list (string * rdef)) := match l with [] => True | (_, d) :: t => defall P d /\ go t end) subs <-> forall n d, In (n, d) subs -> defall P d).
  { induction subs as [|[n d] t IH]; [split; [intros _ n d []|exact (fun _ => Logic.I)]|]. rewrite IH. split.
    - intros [a b] n' d' [e|e]; [congruence|eauto].
    - intro a. split; [apply (a n d); left; reflexivity|]. intros n' d' e. apply (a n' d'). right. exact e. }
  rewrite H. reflexivity.
Qed.
Lemma rdef_ind' (P : rdef -> Prop) :
  (forall i, P (DRef i)) ->
  (forall c i subs st ini, Forall (fun nd => P (snd nd)) subs -> P (DDef c i subs st ini)) ->
  forall d, P d.
Proof.
  intros H1 H2. fix IH 1. intros [i|c i subs st ini]; [apply H1|]. apply H2.
  induction subs as [|[n d] t IHt]; constructor; [apply IH|exact IHt].
Qed.

Lemma rvalid_mono n m a : n <= m -> rvalid n a -> rvalid m a.
Proof. destruct a; cbn; [trivial|lia]. Qed.
Lemma look_ext cs e a : rvalid (List.length cs) a -> look (cs ++ e) a = look cs a.
Proof. destruct a as [v|k]; [reflexivity|]. cbn. intro H. rewrite nth_error_app1 by exact H. reflexivity. Qed.
Lemma vmap_look_ext cs e d : dvalid (List.length cs) d -> vmap (look (cs ++ e)) d = vmap (look cs) d.
Proof. intro H. apply vmap_ext_In. intros n a i. apply look_ext, (H n a i). Qed.
Lemma vheap_ext cs e h : hvalid (List.length cs) h -> map (vobj (cs ++ e)) h = map (vobj cs) h.
Proof.
  intro H. apply map_ext_in. intros o i. unfold vobj. f_equal. apply vmap_look_ext, (H o i).
Qed.
Lemma vdef_ext cs e d : defall (rvalid (List.length cs)) d -> vdef (cs ++ e) d = vdef cs d.
Proof.
  induction d as [i|c i subs st ini IH] using rdef_ind'; [reflexivity|].
  rewrite defall_DDef. intros [H1 H2]. cbn. f_equal.
  - apply map_ext_in. intros [n d] j. cbn. f_equal. rewrite Forall_forall in IH. apply (IH (n, d) j), (H1 n d j).
  - apply vmap_look_ext. exact H2.
Qed.

Lemma In_dset' {A} k (v : A) d n a : In (n, a) (dset k v d) -> (n = k /\ a = v) \/ In (n, a) d.
Proof.
  induction d as [|[k' v'] t IH]; cbn.
  - intros [e|[]]. inversion e; auto.
  - destruct (String.eqb_spec k k').
    + intros [E|E]; [|auto]. inversion E; subst; auto.
    + intros [E|E]; [auto|]. destruct (IH E); auto.
Qed.
Lemma In_dupdate' {A} (x : string * A) items : forall d, In x (dupdate d items) -> In x d \/ In x items.
Proof.
  induction items as [|[k v] t IH]; intros d H; [auto|].
  change (dupdate d ((k, v) :: t)) with (dupdate (dset k v d) t) in H.
  destruct (IH _ H) as [H1|H1]; [|right; right; exact H1].
  destruct x as [n a]. destruct (In_dset' _ _ _ _ _ H1) as [[e1 e2]|H2]; [subst; right; left; reflexivity|auto].
Qed.
Lemma In_gmk {A} (x : string * A) l : In x (gmk_state l) -> In x l.
Proof.
  intro H. destruct (In_dupdate' _ _ _ H) as [[]|H1]. apply (Permutation_in _ (sort_perm l) H1).
Qed.
Lemma In_fold {A} (x : string * A) l : forall acc, In x (fold_left (fun a s => dupdate a s) l acc) -> In x acc \/ exists s, In s l /\ In x s.
Proof.
  induction l as [|s t IH]; intros acc H; [auto|]. cbn in H. destruct (IH _ H) as [H1|(s' & H1 & H2)].
  - destruct (In_dupdate' _ _ _ H1); [auto|]. right. exists s. split; [left; reflexivity|assumption].
  - right. exists s'. split; [right; exact H1|exact H2].
Qed.
Lemma In_list_set {A} r (x : A) l y : In y (list_set r x l) -> y = x \/ In y l.
Proof.
  revert r. induction l as [|z t IH]; intros [|r]; cbn; [tauto..| |].
  - intros [e|e]; auto.
  - intros [e|e]; [auto|]. destruct (IH _ e); auto.
Qed.
Lemma map_list_set {A B} (f : A -> B) r x l : map f (list_set r x l) = list_set r (f x) (map f l).
Proof. revert r. induction l as [|z t IH]; intros [|r]; cbn; [reflexivity..|]. f_equal. apply IH. Qed.

(** ** growth *)
(** cells are only added, references stay valid *)
Definition grows (w w' : rworld) : Prop :=
  (exists e, rw_cells w' = rw_cells w ++ e) /\ (wvalid w -> wvalid w').
Lemma grows_refl w : grows w w.
Proof. split; [exists []; symmetry; apply app_nil_r|trivial]. Qed.
Lemma grows_trans a b c : grows a b -> grows b c -> grows a c.
Proof. intros [[e E] H] [[e' E'] H']. split; [|auto]. exists (e ++ e'). rewrite E', E, app_assoc. reflexivity. Qed.
Lemma grows_len w w' : grows w w' -> List.length (rw_cells w) <= List.length (rw_cells w').
Proof. intros [[e E] _]. rewrite E, app_length. lia. Qed.

Lemma trace_view w t : trace_valid (view w) t = rtrace_valid w t.
Proof. reflexivity. Qed.

Lemma hvalid_mono n m h : n <= m -> hvalid n h -> hvalid m h.
Proof. intros L H o i x a j. apply (rvalid_mono n); [exact L|]. apply (H o i x a j). Qed.

Lemma valid_slot w r o x a : wvalid w -> rget_obj w r = Some o -> In (x, a) (ro_vars o) -> rvalid (List.length (rw_cells w)) a.
Proof. intros V G i. apply (V o (nth_error_In _ _ G) x a i). Qed.

Lemma alloc_put w r o name c : wvalid w -> rget_obj w r = Some o ->
  let w' := rput_obj (snd (ralloc w c)) r (rset_vars o (dset name (fst (ralloc w c)) (ro_vars o))) in
  view w' = put_obj (view w) r (set_vars (vobj (rw_cells w) o) (dset name (ACont c) (vmap (look (rw_cells w)) (ro_vars o)))) /\ grows w w'.
Proof.
  intros V G w'. split.
  - unfold w', view, put_obj, set_heap, rput_obj, rset_heap, ralloc, rset_cells. cbn. f_equal. rewrite map_list_set. f_equal.
    + unfold vobj, set_vars. cbn. f_equal. rewrite vmap_dset. f_equal.
      * cbn. rewrite nth_error_app2 by lia. rewrite Nat.sub_diag. reflexivity.
      * apply vmap_look_ext. intros x a i. apply (valid_slot w r o x a V G i).
    + apply vheap_ext, V.
  - split; [exists [c]; reflexivity|]. intros _ o' i x a j. cbn in *. rewrite app_length. cbn.
    destruct (In_list_set _ _ _ _ i) as [E|E].
    + subst o'. cbn in j. destruct (In_dset' _ _ _ _ _ j) as [[_ E]|E]; [subst a; cbn; lia|].
      apply (rvalid_mono (List.length (rw_cells w))); [lia|]. apply (valid_slot w r o x a V G E).
    + apply (rvalid_mono (List.length (rw_cells w))); [lia|]. apply (V o' E x a j).
Qed.

Lemma set_view w r name a : wvalid w -> rvalid (List.length (rw_cells w)) a ->
  setattr (view w) r name (look (rw_cells w) a) = rmap view (rsetattr w r name a)
  /\ forall w', rsetattr w r name a = Ok w' -> grows w w'.
Proof.
  intros V Va. unfold setattr, rsetattr. rewrite view_obj. destruct (rget_obj w r) as [o|] eqn:G; [|split; [reflexivity|discriminate]].
  cbn [option_map]. rewrite trace_view. cbn [m_trace vobj m_vars].
  destruct (rtrace_valid w (ro_trace o)); cbn [negb]; [|split; [reflexivity|discriminate]].
  destruct (String.eqb name "_module__state"); [split; [reflexivity|discriminate]|].
  rewrite vmap_dget. unfold rassign.
  assert (Alloc : forall c', rmap view (do (a0, w1) <- Ok (ralloc w c'); Ok (rput_obj w1 r (rset_vars o (dset name a0 (ro_vars o)))))
     = Ok (put_obj (view w) r (set_vars (vobj (rw_cells w) o) (dset name (ACont c') (vmap (look (rw_cells w)) (ro_vars o)))))
     /\ forall w', (do (a0, w1) <- Ok (ralloc w c'); Ok (rput_obj w1 r (rset_vars o (dset name a0 (ro_vars o))))) = Ok w' -> grows w w').
  { intro c'. destruct (alloc_put w r o name c' V G) as [H1 H2]. split.
    - exact (f_equal (@Ok world) H1).
    - intros w' E. cbn [rbind] in E. unfold ralloc at 1 in E. inversion E. exact H2. }
  destruct (dget name (ro_vars o)) as [[v|k]|] eqn:Dg; cbn [option_map].
  1, 3: (cbn [look assign_value]; destruct a as [v'|k']; cbn [look assign_value];
    [ split; [cbn [rbind rmap]; f_equal; unfold view, put_obj, set_heap, rput_obj, rset_heap; cbn; f_equal; rewrite map_list_set; f_equal;
              unfold vobj, set_vars; cbn; f_equal; rewrite vmap_dset; reflexivity|];
      intros w' E; inversion E; split; [exists []; symmetry; apply app_nil_r|]; intros _ o' i x a j; cbn in *;
      destruct (In_list_set _ _ _ _ i) as [E'|E']; [|apply (V o' E' x a j)];
      subst o'; cbn in j; destruct (In_dset' _ _ _ _ _ j) as [[_ E']|E']; [subst a; exact Logic.I|apply (valid_slot w r o x a V G E')]
    | cbn in Va; destruct (nth_error (rw_cells w) k') as [c|] eqn:Ck; [|apply nth_error_None in Ck; lia];
      destruct (container_copy c) as [c'|e]; cbn [rmap rbind]; [|split; [reflexivity|discriminate]];
      destruct (Alloc c') as [A1 A2]; split; [symmetry; exact A1|exact A2]]).
  assert (Vk : k < List.length (rw_cells w)).
  { apply (valid_slot w r o name (RCell k) V G). clear -Dg. induction (ro_vars o) as [|[n x] t IH]; cbn in Dg; [discriminate|].
    destruct (String.eqb_spec name n); [inversion Dg; subst; left; reflexivity|right; auto]. }
  cbn [look]. destruct (nth_error (rw_cells w) k) as [c|] eqn:Ck; [|apply nth_error_None in Ck; lia].
  cbn [assign_value]. destruct (container_replace c (Some (look (rw_cells w) a)) []) as [c'|e]; cbn [rmap rbind]; [|split; [reflexivity|discriminate]].
  destruct (Alloc c') as [A1 A2]; split; [symmetry; exact A1|exact A2].
Qed.

Lemma del_view w r name :
  delattr (view w) r name = rmap view (rdelattr w r name) /\ forall w', rdelattr w r name = Ok w' -> grows w w' /\ rw_cells w' = rw_cells w.
Proof.
  unfold delattr, rdelattr. rewrite view_obj. destruct (rget_obj w r) as [o|] eqn:G; [|split; [reflexivity|discriminate]].
  cbn [option_map vobj m_vars]. rewrite vmap_dmem. destruct (dmem name (ro_vars o)); [|split; [reflexivity|discriminate]]. split.
  - cbn [rmap]. f_equal. unfold view, put_obj, set_heap, rput_obj, rset_heap. cbn. f_equal. rewrite map_list_set. f_equal.
    unfold vobj, set_vars. cbn. f_equal. rewrite vmap_ddel. reflexivity.
  - intros w' E. inversion E. split; [|reflexivity]. split; [exists []; symmetry; apply app_nil_r|].
    intros V o' i x a j. cbn in *. destruct (In_list_set _ _ _ _ i) as [E'|E']; [|apply (V o' E' x a j)].
    subst o'. cbn in j. apply (valid_slot w r o x a V G). apply (In_ddel _ _ _ j).
Qed.

Lemma set_path_view w parts a : wvalid w -> rvalid (List.length (rw_cells w)) a -> forall r,
  set_path (view w) r parts (look (rw_cells w) a) = rmap view (rset_path w r parts a)
  /\ forall w', rset_path w r parts a = Ok w' -> grows w w'.
Proof.
  intros V Va. induction parts as [|n [|m t] IH]; intro r; [split; [reflexivity|discriminate]|exact (set_view w r n a V Va)|].
  cbn [set_path rset_path] in *. rewrite view_obj. destruct (rget_obj w r) as [o|]; [|split; [reflexivity|discriminate]].
  cbn [option_map vobj m_vars]. rewrite vmap_dget. destruct (dget n (ro_vars o)) as [[v|k]|]; cbn [option_map].
  - destruct v; cbn [look]; try (split; [reflexivity|discriminate]). apply IH.
  - destruct (look_cell (rw_cells w) k) as [[c E]|E]; rewrite E; (split; [reflexivity|discriminate]).
  - destruct (String.eqb n "_module__state"); (split; [reflexivity|discriminate]).
Qed.

Lemma update_loop_view items : forall w r, wvalid w -> dvalid (List.length (rw_cells w)) items ->
  update_loop (view w) r (vmap (look (rw_cells w)) items) = (view (fst (rupdate_loop w r items)), snd (rupdate_loop w r items))
  /\ grows w (fst (rupdate_loop w r items)).
Proof.
  induction items as [|[path a] t IH]; intros w r V Vi; [split; [reflexivity|apply grows_refl]|].
  rewrite vmap_cons. cbn [update_loop rupdate_loop].
  destruct (set_path_view w (split_slash path) a V (Vi path a (or_introl eq_refl)) r) as [E H]. rewrite E.
  destruct (rset_path w r (split_slash path) a) as [w1|e]; cbn [rmap]; [|split; [reflexivity|apply grows_refl]].
  pose proof (H w1 eq_refl) as G. pose proof (grows_len _ _ G) as L.
  destruct G as [[e Ex] V1]. assert (Vt : dvalid (List.length (rw_cells w)) t) by (intros x b i; apply (Vi x b); right; exact i).
  rewrite <- (vmap_look_ext (rw_cells w) e t Vt), <- Ex.
  destruct (IH w1 r (V1 V)) as [I1 I2].
  { intros x b i. apply (rvalid_mono (List.length (rw_cells w))); [exact L|apply (Vt x b i)]. }
  split; [exact I1|]. apply (grows_trans _ w1); [split; [exists e; exact Ex|exact V1]|exact I2].
Qed.

Definition svalid (n : nat) (ss : list (dict rattr)) : Prop := forall s, In s ss -> dvalid n s.
Lemma update_view w r current us : wvalid w -> dvalid (List.length (rw_cells w)) current -> svalid (List.length (rw_cells w)) us ->
  update_module (view w) r (vmap (look (rw_cells w)) current) (map (vmap (look (rw_cells w))) us)
  = (view (fst (rupdate_module w r current us)), snd (rupdate_module w r current us)) /\ grows w (fst (rupdate_module w r current us)).
Proof.
  intros V Vc Vu. unfold update_module, rupdate_module.
  change (vmap (look (rw_cells w)) current :: map (vmap (look (rw_cells w))) us) with (map (vmap (look (rw_cells w))) (current :: us)).
  change (@nil (string * attr)) with (vmap (look (rw_cells w)) []). rewrite <- vmap_fold. apply update_loop_view; [exact V|].
  intros x a i. destruct (In_fold _ _ _ i) as [[]|(s & [E|E] & j)]; [subst s; apply (Vc x a j)|apply (Vu s E x a j)].
Qed.

(** ** building *)
Definition rbuild_subs := fix go (l : list (string * rdef)) (im : list (nat * nat)) (w : rworld)
               : result (list (string * rattr) * list (nat * nat) * rworld) :=
               match l with
               | [] => Ok ([], im, w)
               | (name, sub) :: t =>
                   do (r', im', w') <- rbuild sub im w;
                   do (ds, im'', w'') <- go t im' w';
                   Ok ((name, RRaw (PyMod r')) :: ds, im'', w'')
               end.
Definition vbuild_subs := fix go (l : list (string * mdef)) (im : list (nat * nat)) (w : world)
               : result (list (string * attr) * list (nat * nat) * world) :=
               match l with
               | [] => Ok ([], im, w)
               | (name, sub) :: t =>
                   do (r', im', w') <- build sub im w;
                   do (ds, im'', w'') <- go t im' w';
                   Ok ((name, ARaw (PyMod r')) :: ds, im'', w'')
               end.
Definition raw_entries (ds : list (string * rattr)) : Prop := forall n a, In (n, a) ds -> exists v, a = RRaw v.
Lemma rbuild_DDef c idx subs st ini im w : rbuild (DDef c idx subs st ini) im w =
  match im_get idx im with
  | Some _ => Err AssertionError
  | None =>
      do (ds, im2, w2) <- rbuild_subs subs ((idx, List.length (rw_heap w)) :: im) (rset_heap w (rw_heap w ++ [mkRobj c 0 false (0, 0) []]));
      Ok (List.length (rw_heap w), im2, mkRworld (list_set (List.length (rw_heap w)) (mkRobj c (S (rw_uuid w2)) ini (rw_trace w2) (dupdate (dupdate [] st) (dict_of ds))) (rw_heap w2)) (rw_cells w2) (S (rw_uuid w2)) (rw_trace w2) (rw_nodes w2))
  end.
Proof. reflexivity. Qed.
Lemma build_MDef' c idx subs st ini im w : build (MDef c idx subs st ini) im w =
  match im_get idx im with
  | Some _ => Err AssertionError
  | None =>
      do (ds, im2, w2) <- vbuild_subs subs ((idx, List.length (w_heap w)) :: im) (set_heap w (w_heap w ++ [mkMobj c 0 false (0, 0) []]));
      Ok (List.length (w_heap w), im2, mkWorld (list_set (List.length (w_heap w)) (mkMobj c (S (w_uuid w2)) ini (w_trace w2) (dupdate (dupdate [] st) (dict_of ds))) (w_heap w2)) (S (w_uuid w2)) (w_trace w2) (w_nodes w2))
  end.
Proof. reflexivity. Qed.

Lemma rbuild_raw l : forall im w ds im' w', rbuild_subs l im w = Ok (ds, im', w') -> raw_entries ds.
Proof.
  induction l as [|[n d] t IH]; intros im w ds im' w' E; cbn in E; [inversion E; intros ? ? []|].
  destruct (rbuild d im w) as [[[r1 im1] w1]|e]; [|discriminate]. cbn in E.
  destruct (rbuild_subs t im1 w1) as [[[ds2 im2] w2]|e] eqn:E2; [|discriminate]. cbn in E. inversion E; subst.
  intros n' a [i|i]; [inversion i; eauto|apply (IH _ _ _ _ _ E2 n' a i)].
Qed.

Definition build_ok (d : rdef) : Prop := forall im w, wvalid w -> defall (rvalid (List.length (rw_cells w))) d ->
  build (vdef (rw_cells w) d) im (view w) = rmap (fun x => (fst x, view (snd x))) (rbuild d im w)
  /\ forall r im' w', rbuild d im w = Ok (r, im', w') -> rw_cells w' = rw_cells w /\ wvalid w'.
Lemma build_subs_ok l : Forall (fun nd => build_ok (snd nd)) l -> forall im w, wvalid w -> subsall (rvalid (List.length (rw_cells w))) l ->
  vbuild_subs (map (fun nd => (fst nd, vdef (rw_cells w) (snd nd))) l) im (view w)
  = rmap (fun x => (vmap (look (rw_cells w)) (fst (fst x)), snd (fst x), view (snd x))) (rbuild_subs l im w)
  /\ forall ds im' w', rbuild_subs l im w = Ok (ds, im', w') -> rw_cells w' = rw_cells w /\ wvalid w'.
Proof.
  induction 1 as [|[n d] t H F IH]; intros im w V Vs.
  - split; [reflexivity|]. intros ds im' w' E. inversion E; subst. auto.
  - cbn [map fst snd vbuild_subs rbuild_subs] in *. destruct (H im w V (Vs n d (or_introl eq_refl))) as [E1 E2]. rewrite E1.
    destruct (rbuild d im w) as [[[r1 im1] w1]|e]; cbn [rmap rbind fst snd]; [|split; [reflexivity|discriminate]].
    destruct (E2 _ _ _ eq_refl) as [C1 V1].
    destruct (IH im1 w1 V1) as [I1 I2].
    { rewrite C1. intros n' d' i. apply (Vs n' d'). right. exact i. }
    rewrite C1 in I1. fold vbuild_subs. fold rbuild_subs. rewrite I1.
    destruct (rbuild_subs t im1 w1) as [[[ds2 im2] w2]|e]; cbn [rmap rbind fst snd]; [|split; [reflexivity|discriminate]].
    destruct (I2 _ _ _ eq_refl) as [C2 V2]. split; [reflexivity|]. intros ds im' w' E. inversion E; subst. split; [congruence|exact V2].
Qed.
Lemma build_view d : build_ok d.
Proof.
  induction d as [i|c idx subs st ini IH] using rdef_ind'; intros im w V Vd.
  - cbn. destruct (im_get i im) as [r|]; (split; [reflexivity|intros; try discriminate]).
    inversion H; subst. auto.
  - rewrite defall_DDef in Vd. destruct Vd as [Vs Vst]. cbn [vdef]. rewrite build_MDef', rbuild_DDef.
    destruct (im_get idx im) as [r|]; [split; [reflexivity|discriminate]|].
    set (w1 := rset_heap w (rw_heap w ++ [mkRobj c 0 false (0, 0) []])).
    assert (V1 : wvalid w1).
    { intros o i x a j. cbn in *. apply in_app_or in i. destruct i as [i|[i|[]]]; [apply (V o i x a j)|subst o; destruct j]. }
    assert (Ew : set_heap (view w) (w_heap (view w) ++ [mkMobj c 0 false (0, 0) []]) = view w1).
    { unfold view, set_heap, w1, rset_heap. cbn. rewrite map_app. reflexivity. }
    rewrite Ew, view_len. destruct (build_subs_ok subs IH ((idx, List.length (rw_heap w)) :: im) w1 V1 Vs) as [B1 B2].
    change (rw_cells w) with (rw_cells w1). rewrite B1.
    destruct (rbuild_subs subs ((idx, List.length (rw_heap w)) :: im) w1) as [[[ds im2] w2]|e] eqn:Eb; cbn [rmap rbind fst snd]; [|split; [reflexivity|discriminate]].
    destruct (B2 _ _ _ eq_refl) as [C2 V2]. split.
    + f_equal. f_equal. unfold view. cbn. f_equal. rewrite map_list_set. f_equal. unfold vobj. cbn. f_equal.
      rewrite !vmap_dupdate, vmap_dict_of, C2. reflexivity.
    + intros r im' w' E. inversion E; subst. cbn. split; [exact C2|].
      intros o i x a j. cbn in *. destruct (In_list_set _ _ _ _ i) as [E'|E']; [|apply (V2 o E' x a j)].
      subst o. cbn in j. destruct (In_dupdate' _ _ _ j) as [j1|j1].
      * destruct (In_dupdate' _ _ _ j1) as [[]|j2]. rewrite C2. apply (Vst x a j2).
      * destruct (In_dupdate' _ _ _ j1) as [[]|j2]. destruct (rbuild_raw _ _ _ _ _ _ Eb x a j2) as [v Ev]. subst a. exact Logic.I.
Qed.

Lemma merge_view w d ss : wvalid w -> defall (rvalid (List.length (rw_cells w))) d -> svalid (List.length (rw_cells w)) ss ->
  merge (view w) (vdef (rw_cells w) d) (map (vmap (look (rw_cells w))) ss) = rmap (fun x => (fst x, view (snd x))) (rmerge w d ss)
  /\ forall r w', rmerge w d ss = Ok (r, w') -> grows w w'.
Proof.
  intros V Vd Vs. unfold merge, rmerge, build_module. destruct (build_view d [] w V Vd) as [B1 B2]. rewrite B1.
  destruct (rbuild d [] w) as [[[r im] w1]|e]; cbn [rmap rbind fst snd]; [|split; [reflexivity|discriminate]].
  destruct (B2 _ _ _ eq_refl) as [C1 V1].
  destruct (update_view w1 r [] ss V1) as [U1 U2]; [intros ? ? []|rewrite C1; exact Vs|].
  rewrite C1 in U1. change (vmap (look (rw_cells w)) []) with (@nil (string * attr)) in U1. rewrite U1. destruct (rupdate_module w1 r [] ss) as [w2 [u|e]]; cbn [fst snd] in *.
  - split; [reflexivity|]. intros r' w' E. inversion E; subst. apply (grows_trans _ w1); [|exact U2].
    split; [exists []; rewrite app_nil_r; exact C1|intros _; exact V1].
  - split; [reflexivity|discriminate].
Qed.

(** get_state returns valid references *)
Lemma iter_fields_In cs nt (rec : nat -> list nat -> list string -> result (list (string * rattr) * list nat)) (P : rattr -> Prop) l parts :
  (forall n a, In (n, a) l -> P a) ->
  (forall r seen parts xs s2, rec r seen parts = Ok (xs, s2) -> forall x a, In (x, a) xs -> P a) ->
  forall seen xs s2, riter_fields rec nt cs l seen parts = Ok (xs, s2) -> forall x a, In (x, a) xs -> P a /\ True.
Proof.
  intros Hl Hr. induction l as [|[n b] t IH]; intros seen xs s2 E x a i; cbn [riter_fields] in E; [inversion E; subst; destruct i|].
  specialize (IH (fun n a j => Hl n a (or_intror j))).
  assert (D : (do (ys, s2) <- riter_fields rec nt cs t seen parts;
        if is_node nt (look cs b) then Ok ((join_path (parts ++ [n]), b) :: ys, s2) else Ok (ys, s2)) = Ok (xs, s2) -> P a /\ True).
  { intro E'. destruct (riter_fields rec nt cs t seen parts) as [[ys s3]|e] eqn:Et; [|discriminate]. cbn in E'.
    destruct (is_node nt (look cs b)); inversion E'; subst.
    - destruct i as [i|i]; [inversion i; subst; split; [apply (Hl n a (or_introl eq_refl))|trivial]|apply (IH _ _ _ Et x a i)].
    - apply (IH _ _ _ Et x a i). }
  destruct b as [v|k]; [destruct v|]; try (apply D; exact E).
  destruct (rec r seen (parts ++ [n])) as [[xs1 s3]|e] eqn:Er; [|discriminate]. cbn in E.
  destruct (riter_fields rec nt cs t s3 parts) as [[ys s4]|e] eqn:Et; [|discriminate]. cbn in E. inversion E; subst.
  apply in_app_or in i. destruct i as [i|i]; [split; [apply (Hr _ _ _ _ _ Er x a i)|trivial]|apply (IH _ _ _ Et x a i)].
Qed.
Lemma iter_In w (P : rattr -> Prop) fuel : (forall r o n a, rget_obj w r = Some o -> In (n, a) (ro_vars o) -> P a) ->
  forall r seen parts xs s2, riter_state_rec fuel w r seen parts = Ok (xs, s2) -> forall x a, In (x, a) xs -> P a.
Proof.
  intro H. induction fuel as [|n IH]; intros r seen parts xs s2 E x a i; [discriminate|]. cbn in E.
  destruct (rget_obj w r) as [o|] eqn:G; [|discriminate]. destruct (nmem (ro_id o) seen); [inversion E; subst; destruct i|].
  refine (proj1 (iter_fields_In _ _ _ P _ _ _ IH _ _ _ E x a i)).
  intros n' a' j. apply (H r o n' a' G). apply (Permutation_in _ (sort_perm (ro_vars o)) j).
Qed.
Lemma state_In w (P : rattr -> Prop) r s : (forall r o n a, rget_obj w r = Some o -> In (n, a) (ro_vars o) -> P a) ->
  rget_state w r = Ok s -> forall x a, In (x, a) s -> P a.
Proof.
  intros H E x a i. unfold rget_state in E. destruct (riter_state_rec _ w r [] []) as [[xs s2]|e] eqn:Ei; [|discriminate].
  cbn in E. inversion E; subst. apply In_gmk in i. apply (iter_In w P _ H _ _ _ _ _ Ei x a i).
Qed.

Lemma update_state_view w r us : wvalid w -> svalid (List.length (rw_cells w)) us ->
  update_state (view w) r (UStates (Many (map (vmap (look (rw_cells w))) us)))
  = (view (fst (rupdate_state w r us)), snd (rupdate_state w r us)) /\ grows w (fst (rupdate_state w r us)).
Proof.
  intros V Vu. unfold update_state, rupdate_state. rewrite state_view.
  destruct (rget_state w r) as [s|e] eqn:Es; cbn [rmap]; [|split; [reflexivity|apply grows_refl]].
  cbn [sts_list]. apply update_view; [exact V| |exact Vu].
  intros x a i. apply (state_In w (rvalid (List.length (rw_cells w))) r s (fun r o n a g j => valid_slot w r o n a V g j) Es x a i).
Qed.

(** ** pop_state *)
Lemma pop_match_view cs ps path a : forall ss,
  pop_match ps (map (vmap (look cs)) ss) path (look cs a) = option_map (map (vmap (look cs))) (rpop_match cs ps ss path a).
Proof.
  induction ps as [|p ps IH]; intros [|s ss]; [reflexivity..|]. cbn. destruct (p path (look cs a)).
  - cbn. rewrite vmap_dset. reflexivity.
  - rewrite IH. destruct (rpop_match cs ps ss path a); reflexivity.
Qed.
Definition vpop (cs : list container) (x : rpop_result) : pop_result :=
  (view (fst x), rmap (fun y => (fst y, map (vmap (look cs)) (snd y))) (snd x)).
Definition pop_good (w : rworld) (x : rpop_result) : Prop := rw_cells (fst x) = rw_cells w /\ grows w (fst x).
Lemma pop_good_refl w x : pop_good w (w, x).
Proof. split; [reflexivity|apply grows_refl]. Qed.
Lemma pop_good_trans w w1 x : rw_cells w1 = rw_cells w -> grows w w1 -> pop_good w1 x -> pop_good w x.
Proof. intros C G [C' G']. split; [congruence|apply (grows_trans _ w1); assumption]. Qed.

Lemma pop_fields_view cs nt ps self l parts (rec : rworld -> nat -> list nat -> list string -> list (dict rattr) -> rpop_result) rec' :
  (forall w r mi parts ss, rw_cells w = cs -> rec' (view w) r mi parts (map (vmap (look cs)) ss) = vpop cs (rec w r mi parts ss) /\ pop_good w (rec w r mi parts ss)) ->
  forall w mi ss, rw_cells w = cs ->
  pop_fields rec' nt ps self (vmap (look cs) l) (view w) mi parts (map (vmap (look cs)) ss) = vpop cs (rpop_fields rec nt ps self l w mi parts ss)
  /\ pop_good w (rpop_fields rec nt ps self l w mi parts ss).
Proof.
  intro H. induction l as [|[n a] t IH]; intros w mi ss C; [split; [reflexivity|apply pop_good_refl]|].
  rewrite vmap_cons.
  set (dflt := if is_node nt (look cs a) then
            match rpop_match cs ps ss (join_path (parts ++ [n])) a with
            | Some states1 =>
                match rdelattr w self n with
                | Ok w1 => rpop_fields rec nt ps self t w1 mi parts states1
                | Err e => (w, Err e)
                end
            | None => rpop_fields rec nt ps self t w mi parts ss
            end
          else rpop_fields rec nt ps self t w mi parts ss).
  assert (D : forall a', look cs a = a' ->
     (if is_node nt a' then
            match pop_match ps (map (vmap (look cs)) ss) (join_path (parts ++ [n])) a' with
            | Some states1 =>
                match delattr (view w) self n with
                | Ok w1 => pop_fields rec' nt ps self (vmap (look cs) t) w1 mi parts states1
                | Err e => (view w, Err e)
                end
            | None => pop_fields rec' nt ps self (vmap (look cs) t) (view w) mi parts (map (vmap (look cs)) ss)
            end
          else pop_fields rec' nt ps self (vmap (look cs) t) (view w) mi parts (map (vmap (look cs)) ss)) = vpop cs dflt /\ pop_good w dflt).
  { intros a' E. subst a'. unfold dflt. destruct (is_node nt (look cs a)); [|apply IH, C]. rewrite pop_match_view.
    destruct (rpop_match cs ps ss (join_path (parts ++ [n])) a) as [ss1|]; cbn [option_map]; [|apply IH, C].
    destruct (del_view w self n) as [E1 E2]. rewrite E1. destruct (rdelattr w self n) as [w1|e]; cbn [rmap]; [|split; [reflexivity|apply pop_good_refl]].
    destruct (E2 w1 eq_refl) as [G1 C1]. destruct (IH w1 mi ss1) as [I1 I2]; [congruence|].
    split; [exact I1|apply (pop_good_trans w w1 _ C1 G1 I2)]. }
  destruct a as [v|k].
  - destruct v; try (cbn [look pop_fields rpop_fields]; rewrite C; apply (D _ eq_refl)).
    cbn [look pop_fields rpop_fields]. destruct (H w r mi (parts ++ [n]) ss C) as [R1 R2]. rewrite R1. unfold vpop at 1.
    destruct (rec w r mi (parts ++ [n]) ss) as [w1 [[mi1 ss1]|e]]; cbn [fst snd rmap].
    + destruct R2 as [C1 G1]. cbn [fst] in *. destruct (IH w1 mi1 ss1) as [I1 I2]; [congruence|]. split; [exact I1|apply (pop_good_trans w w1 _ C1 G1 I2)].
    + split; [reflexivity|exact R2].
  - cbn [rpop_fields]. rewrite C. fold dflt. clearbody dflt. destruct (look_cell cs k) as [[c E]|E]; rewrite E; apply (D _ E).
Qed.
Lemma pop_rec_view ps fuel : forall w r mi parts ss,
  pop_rec fuel ps (view w) r mi parts (map (vmap (look (rw_cells w))) ss) = vpop (rw_cells w) (rpop_rec fuel ps w r mi parts ss)
  /\ pop_good w (rpop_rec fuel ps w r mi parts ss).
Proof.
  induction fuel as [|n IH]; intros w r mi parts ss; [split; [reflexivity|apply pop_good_refl]|].
  cbn [pop_rec rpop_rec]. rewrite view_obj. destruct (rget_obj w r) as [o|]; cbn [option_map]; [|split; [reflexivity|apply pop_good_refl]].
  cbn [vobj m_id m_vars]. destruct (nmem (ro_id o) mi); [split; [reflexivity|apply pop_good_refl]|].
  destruct (pop_fields_view (rw_cells w) (rw_nodes w) ps r (ro_vars o) parts
     (fun w r mi parts st => rpop_rec n ps w r mi parts st) (fun w r mi parts st => pop_rec n ps w r mi parts st)) with (w := w) (mi := mi) (ss := ss) as [P1 P2].
  { intros w0 r0 mi0 p0 s0 C0. rewrite <- C0. apply IH. } { reflexivity. }
  cbn [view w_nodes] in *. rewrite P1. unfold vpop at 1.
  destruct (rpop_fields _ (rw_nodes w) ps r (ro_vars o) w mi parts ss) as [w1 [[mi1 ss1]|e]]; cbn [fst snd rmap]; (split; [reflexivity|exact P2]).
Qed.
Lemma pop_view fuel w r fs :
  (let '(w1, x) := pop_state fuel (view w) r fs in (w1, rmap sts_list x))
  = (view (fst (rpop_state fuel w r fs)), rmap (map (vmap (look (rw_cells w)))) (snd (rpop_state fuel w r fs)))
  /\ rw_cells (fst (rpop_state fuel w r fs)) = rw_cells w /\ grows w (fst (rpop_state fuel w r fs)).
Proof.
  unfold pop_state, rpop_state. destruct fs as [|f t]; [split; [reflexivity|apply (pop_good_refl w (Err ValueError))]|].
  destruct (rmapM to_predicate (f :: t)) as [ps|e]; [|split; [reflexivity|apply (pop_good_refl w (Err e))]].
  destruct (pop_rec_view ps fuel w r [] [] (repeat [] (List.length ps))) as [P1 P2]. rewrite map_nil_repeat in P1.
  rewrite P1. unfold vpop. destruct (rpop_rec fuel ps w r [] [] (repeat [] (List.length ps))) as [w1 [[mi1 ss1]|e]]; cbn [fst snd rmap].
  - split; [|exact P2]. f_equal. rewrite pack_list, map_gmk. reflexivity.
  - split; [reflexivity|exact P2].
Qed.
(** a property of all references that are stored is one of all references popped *)
Lemma pop_match_In (P : rattr -> Prop) cs ps path a : P a -> forall ss ss', (forall s x b, In s ss -> In (x, b) s -> P b) ->
  rpop_match cs ps ss path a = Some ss' -> forall s x b, In s ss' -> In (x, b) s -> P b.
Proof.
  intro Pa. induction ps as [|p ps IH]; intros [|s0 ss] ss' H E; [discriminate..|]. cbn in E. destruct (p path (look cs a)).
  - inversion E; subst. intros s x b [i|i] j; [|apply (H s x b (or_intror i) j)]. subst s.
    destruct (In_dset' _ _ _ _ _ j) as [[_ e]|j']; [congruence|apply (H s0 x b (or_introl eq_refl) j')].
  - destruct (rpop_match cs ps ss path a) as [l|] eqn:El; [|discriminate]. inversion E; subst.
    intros s x b [i|i] j; [subst s; apply (H s0 x b (or_introl eq_refl) j)|].
    apply (IH ss l (fun s x b k => H s x b (or_intror k)) El s x b i j).
Qed.
Definition all_slots (P : rattr -> Prop) (w : rworld) : Prop := forall o, In o (rw_heap w) -> forall n a, In (n, a) (ro_vars o) -> P a.
Lemma del_slots P w r name w' : rdelattr w r name = Ok w' -> all_slots P w -> all_slots P w'.
Proof.
  unfold rdelattr. destruct (rget_obj w r) as [o|] eqn:G; [|discriminate]. destruct (dmem name (ro_vars o)); [|discriminate].
  intros E H. inversion E; subst. intros o' i n a j. cbn in *. destruct (In_list_set _ _ _ _ i) as [E'|E']; [|apply (H o' E' n a j)].
  subst o'. cbn in j. apply (H o (nth_error_In _ _ G) n a). apply (In_ddel _ _ _ j).
Qed.
Definition pop_all (P : rattr -> Prop) (x : rpop_result) : Prop :=
  all_slots P (fst x) /\ forall mi ss, snd x = Ok (mi, ss) -> forall s n a, In s ss -> In (n, a) s -> P a.
Lemma pop_fields_In (P : rattr -> Prop) nt ps self l parts (rec : rworld -> nat -> list nat -> list string -> list (dict rattr) -> rpop_result) :
  (forall w r mi parts ss, all_slots P w -> (forall s n a, In s ss -> In (n, a) s -> P a) -> pop_all P (rec w r mi parts ss)) ->
  (forall n a, In (n, a) l -> P a) ->
  forall w mi ss, all_slots P w -> (forall s n a, In s ss -> In (n, a) s -> P a) -> pop_all P (rpop_fields rec nt ps self l w mi parts ss).
Proof.
  intros H Hl. induction l as [|[n a] t IH]; intros w mi ss Hw Hs.
  - split; [exact Hw|]. intros mi' ss' E. inversion E; subst. exact Hs.
  - specialize (IH (fun n a j => Hl n a (or_intror j))).
    assert (D : pop_all P (if is_node nt (look (rw_cells w) a) then
            match rpop_match (rw_cells w) ps ss (join_path (parts ++ [n])) a with
            | Some states1 =>
                match rdelattr w self n with
                | Ok w1 => rpop_fields rec nt ps self t w1 mi parts states1
                | Err e => (w, Err e)
                end
            | None => rpop_fields rec nt ps self t w mi parts ss
            end
          else rpop_fields rec nt ps self t w mi parts ss)).
    { destruct (is_node nt (look (rw_cells w) a)); [|apply IH; assumption].
      destruct (rpop_match (rw_cells w) ps ss (join_path (parts ++ [n])) a) as [ss1|] eqn:Em; [|apply IH; assumption].
      destruct (rdelattr w self n) as [w1|e] eqn:Ed; [|split; [exact Hw|discriminate]].
      apply IH; [apply (del_slots P _ _ _ _ Ed Hw)|]. intros s x b. apply (pop_match_In P _ _ _ _ (Hl n a (or_introl eq_refl)) _ _ Hs Em). }
    cbn [rpop_fields]. destruct a as [v|k]; [destruct v|]; try exact D.
    pose proof (H w r mi (parts ++ [n]) ss Hw Hs) as [R1 R2]. destruct (rec w r mi (parts ++ [n]) ss) as [w1 [[mi1 ss1]|e]]; cbn [fst snd] in *.
    + apply IH; [exact R1|]. apply (R2 mi1 ss1 eq_refl).
    + split; [exact R1|discriminate].
Qed.
Lemma pop_rec_In P ps fuel : forall w r mi parts ss, all_slots P w -> (forall s n a, In s ss -> In (n, a) s -> P a) -> pop_all P (rpop_rec fuel ps w r mi parts ss).
Proof.
  induction fuel as [|n IH]; intros w r mi parts ss Hw Hs; [split; [exact Hw|discriminate]|].
  cbn [rpop_rec]. destruct (rget_obj w r) as [o|] eqn:G; [|split; [exact Hw|discriminate]].
  destruct (nmem (ro_id o) mi). { split; [exact Hw|]. intros mi' ss' E. inversion E; subst. exact Hs. }
  pose proof (pop_fields_In P (rw_nodes w) ps r (ro_vars o) parts (fun w r mi parts st => rpop_rec n ps w r mi parts st) (fun w r mi p ss a b => IH w r mi p ss a b)
    (Hw o (nth_error_In _ _ G)) w mi ss Hw Hs) as [R1 R2].
  destruct (rpop_fields _ (rw_nodes w) ps r (ro_vars o) w mi parts ss) as [w1 [[mi1 ss1]|e]]; cbn [fst snd] in *; (split; [exact R1|]); [|discriminate].
  intros mi' ss' E. inversion E; subst. apply (R2 mi1 ss' eq_refl).
Qed.
Lemma pop_In P fuel w r fs ss : all_slots P w -> snd (rpop_state fuel w r fs) = Ok ss -> forall s n a, In s ss -> In (n, a) s -> P a.
Proof.
  intros Hw. unfold rpop_state. destruct fs as [|f t]; [discriminate|]. destruct (rmapM to_predicate (f :: t)) as [ps|e]; [|discriminate].
  pose proof (pop_rec_In P ps fuel w r [] [] (repeat [] (List.length ps)) Hw) as Hp.
  assert (Hr : forall (s : dict rattr) n a, In s (repeat [] (List.length ps)) -> In (n, a) s -> P a) by (intros s n a i; rewrite (repeat_spec _ _ _ i); intros []).
  destruct (Hp Hr) as [_ H2]. destruct (rpop_rec fuel ps w r [] [] (repeat [] (List.length ps))) as [w1 [[mi1 ss1]|e]]; cbn in *; [|discriminate].
  intros E s n a i j. inversion E; subst. apply in_map_iff in i. destruct i as (s0 & E0 & i). subst s. apply (H2 mi1 ss1 eq_refl s0 n a i), In_gmk, j.
Qed.
