(** Alias4_proofs: the invariant of all programs, writes included. *)
From Verif Require Import PyBase PyBaseFacts ValuesM FiltersM StateM ModuleM AliasM Spec_Alias Alias_proofs Alias2_proofs Alias3_proofs.
From Coq Require Import Permutation.
Local Open Scope string_scope.
Local Open Scope list_scope.

(** ** attribute dicts have distinct names *)
Definition hnodups (h : list robj) : Prop := forall o, In o h -> NoDup (keys (ro_vars o)).
Lemma nodups_iff w : nodups w <-> hnodups (rw_heap w).
Proof.
  split; intros H.
  - intros o i. destruct (In_nth_error _ _ i) as [r G]. apply (H r o G).
  - intros r o G. apply H, (nth_error_In _ _ G).
Qed.
Lemma hnodups_set r o h : NoDup (keys (ro_vars o)) -> hnodups h -> hnodups (list_set r o h).
Proof. intros N H o' i. destruct (In_list_set _ _ _ _ i) as [e|e]; [subst; exact N|apply H, e]. Qed.
Lemma set_nodups w r name a w' : rsetattr w r name a = Ok w' -> nodups w -> nodups w'.
Proof.
  intros E H. rewrite nodups_iff in *. unfold rsetattr in E. destruct (rget_obj w r) as [o|] eqn:G; [|discriminate]. destruct (negb (rtrace_valid w (ro_trace o))); [discriminate|].
  destruct (String.eqb name "_module__state"); [discriminate|].
  destruct (rassign w (dget name (ro_vars o)) a) as [[b w1]|e] eqn:Ea; [|discriminate]. cbn in E. inversion E; subst. cbn.
  assert (Hh : rw_heap w1 = rw_heap w).
  { unfold rassign in Ea. destruct (dget name (ro_vars o)) as [[v|k]|].
    1, 3: destruct a as [v'|k']; [inversion Ea; reflexivity|]; destruct (nth_error (rw_cells w) k') as [c|]; [|discriminate];
       destruct (container_copy c); [|discriminate]; inversion Ea; reflexivity.
    destruct (nth_error (rw_cells w) k) as [c|]; [|discriminate]. destruct (container_replace c (Some (look (rw_cells w) a)) []); [|discriminate]. inversion Ea. reflexivity. }
  rewrite Hh. apply hnodups_set; [|exact H]. cbn. apply NoDup_keys_dset, H, (nth_error_In _ _ G).
Qed.
Lemma set_path_nodups parts a : forall w r w', rset_path w r parts a = Ok w' -> nodups w -> nodups w'.
Proof.
  induction parts as [|n [|m t] IH]; intros w r w' E; [discriminate|apply (set_nodups w r n a w' E)|].
  cbn [rset_path] in *. destruct (rget_obj w r) as [o|]; [|discriminate]. destruct (dget n (ro_vars o)) as [[v|k]|]; [|discriminate|].
  - destruct v; try discriminate. apply (IH w r0 w' E).
  - destruct (String.eqb n "_module__state"); discriminate.
Qed.
Lemma update_loop_nodups items : forall w r, nodups w -> nodups (fst (rupdate_loop w r items)).
Proof.
  induction items as [|[path a] t IH]; intros w r H; [exact H|]. cbn [rupdate_loop].
  destruct (rset_path w r (split_slash path) a) as [w1|e] eqn:E; [|exact H]. apply IH, (set_path_nodups _ _ _ _ _ E H).
Qed.
Lemma build_nodups d : forall im w r im' w', rbuild d im w = Ok (r, im', w') -> nodups w -> nodups w'.
Proof.
  induction d as [i|c idx subs st ini IH] using rdef_ind'; intros im w r im' w' E H.
  - cbn in E. destruct (im_get i im); [|discriminate]. inversion E; subst. exact H.
  - rewrite rbuild_DDef in E. destruct (im_get idx im); [discriminate|].
    set (w1 := rset_heap w (rw_heap w ++ [mkRobj c 0 false (0, 0) []])) in *.
    assert (H1 : nodups w1).
    { rewrite nodups_iff in *. intros o i. cbn in i. apply in_app_or in i. destruct i as [i|[i|[]]]; [apply H, i|subst; constructor]. }
    assert (Hs : forall l, Forall (fun nd => forall im w r im' w', rbuild (snd nd) im w = Ok (r, im', w') -> nodups w -> nodups w') l ->
      forall im w ds im' w', rbuild_subs l im w = Ok (ds, im', w') -> nodups w -> nodups w').
    { clear. induction 1 as [|[n d] t H F IH]; intros im w ds im' w' E Hw; [inversion E; subst; exact Hw|].
      cbn [rbuild_subs fst snd] in *. destruct (rbuild d im w) as [[[r1 im1] w1]|e] eqn:E1; [|discriminate]. cbn [rbind] in E. fold rbuild_subs in E.
      destruct (rbuild_subs t im1 w1) as [[[ds2 im2] w2]|e] eqn:E2; [|discriminate]. inversion E; subst. apply (IH _ _ _ _ _ E2), (H _ _ _ _ _ E1 Hw). }
    destruct (rbuild_subs subs ((idx, List.length (rw_heap w)) :: im) w1) as [[[ds im2] w2]|e] eqn:Eb; [|discriminate].
    pose proof (Hs subs IH _ _ _ _ _ Eb H1) as H2. cbn [rbind] in E. inversion E; subst. rewrite nodups_iff in *. cbn.
    apply hnodups_set; [|exact H2]. cbn. apply NoDup_keys_dupdate, NoDup_keys_dupdate. constructor.
Qed.
Lemma merge_nodups w d ss r w' : rmerge w d ss = Ok (r, w') -> nodups w -> nodups w'.
Proof.
  unfold rmerge. destruct (rbuild d [] w) as [[[r1 im] w1]|e] eqn:Eb; [|discriminate]. cbn [rbind]. unfold rupdate_module. intros E H.
  pose proof (update_loop_nodups (fold_left (fun acc s => dupdate acc s) ([] :: ss) []) w1 r1 (build_nodups _ _ _ _ _ _ Eb H)) as U.
  destruct (rupdate_loop w1 r1 _) as [w2 [u|e]]; [|discriminate]. inversion E; subst. exact U.
Qed.

(** ** the invariant *)
Definition finv (f : conf rworld rattr rdef) : Prop :=
  fvalid f /\ nodups (f_world f) /\ owned (f_world f) /\ forall d, In d (f_defs f) -> defall (static (f_world f)) d.

Lemma ev_owned w w' : ev w w' -> owned w -> owned w'.
Proof.
  intros E O k N r1 n1 r2 n2 H1 H2. destruct (le_lt_dec (ncells w) k) as [L|L]; [apply (ev_new _ _ E k L N _ _ _ _ H1 H2)|].
  pose proof (proj1 (ev_node _ _ k E L) N) as Nw.
  assert (Hb : forall r n, holds w' r n k -> holds w r n k).
  { intros r n H. destruct (ev_holds _ _ E r n k H) as [K|[K|[_ K]]]; [exact K|lia|contradiction]. }
  apply (O k Nw); apply Hb; assumption.
Qed.
Lemma ev_static w w' a : ev w w' -> static w a -> static w' a.
Proof.
  intros E [H1 H2]. pose proof (ev_len _ _ E) as L. split; [apply (rvalid_mono _ _ _ L H1)|]. intros k Ek. subst a. cbn in H1. rewrite (ev_node _ _ k E H1). apply (H2 k eq_refl).
Qed.
Lemma ev_same w w' : rw_heap w' = rw_heap w -> rw_cells w' = rw_cells w -> rw_nodes w' = rw_nodes w -> wvalid w -> ev w w'.
Proof.
  intros Hh Hc Hn V. apply ev_less; [exact Hc|exact Hn|rewrite Hh; reflexivity|exact V|]. intros r n k (o & G & i). left. exists o. unfold rget_obj in *. rewrite <- Hh. auto.
Qed.
Lemma alloc_ev w c : wvalid w -> ev w (snd (ralloc w c)).
Proof.
  intro V. split; [exists [c]; reflexivity|reflexivity|reflexivity| |].
  - intros r n k (o & G & i). left. exists o. auto.
  - intros k Lk _ r1 n1 r2 n2 (o & G & i) _. pose proof (valid_slot w r1 o n1 (RCell k) V G i) as K. cbn in K. lia.
Qed.
Lemma new_ev w c : wvalid w -> ev w (snd (rnew_module w c)).
Proof.
  intro V. apply ev_less; [reflexivity..| |exact V|].
  - cbn. rewrite app_length. lia.
  - intros r' n k (o & G & i). left. unfold rget_obj in G. cbn in G. destruct (le_lt_dec (List.length (rw_heap w)) r') as [L|L].
    + rewrite nth_error_app2 in G by exact L. destruct (r' - List.length (rw_heap w)) as [|[|q]]; cbn in G; [|discriminate..]. inversion G; subst. destruct i.
    + rewrite nth_error_app1 in G by exact L. exists o. auto.
Qed.

(** a statement that is not a write *)
Lemma step_ev f k : finv f -> is_write k = false ->
  ev (f_world f) (f_world (fst (step objects f k))) /\ nodups (f_world (fst (step objects f k))) /\
  forall d, In d (f_defs (fst (step objects f k))) -> In d (f_defs f) \/ defall (static (f_world f)) d.
Proof.
  intros ((Vw & Vd & Vs & Va) & ND & O & St) NW.
  assert (R : forall o : out, ev (f_world f) (f_world (fst (f, o))) /\ nodups (f_world (fst (f, o))) /\ forall d, In d (f_defs (fst (f, o))) -> In d (f_defs f) \/ defall (static (f_world f)) d)
    by (intro o; split; [apply ev_refl, Vw|split; [exact ND|auto]]).
  destruct k; try discriminate; cbn [step].
  - cbn [o_new objects]. pose proof (new_ev (f_world f) c Vw) as E. destruct (rnew_module (f_world f) c) as [r w1] eqn:Er. cbn [fst snd f_world add_mod f_defs] in *.
    split; [exact E|]. split; [|auto]. inversion Er; subst. rewrite nodups_iff in *. cbn. intros o i. apply in_app_or in i. destruct i as [i|[i|[]]]; [apply ND, i|subst; constructor].
  - destruct (container_call c (CVal v) md) as [x|e]; [|apply R]. cbn [o_cont objects]. pose proof (alloc_ev (f_world f) x Vw) as E.
    destruct (ralloc (f_world f) x) as [a w1] eqn:Er. cbn [fst snd f_world add_val with_world f_defs] in *. split; [exact E|]. split; [|auto]. inversion Er; subst. exact ND.
  - destruct (nth_error (f_mods f) m) as [r|]; [|apply R]. destruct (arg_of objects f a) as [x|] eqn:Ex; [|apply R]. cbn [o_set objects].
    destruct (rsetattr (f_world f) r name x) as [w1|e] eqn:E; [|apply R]. cbn. split; [apply (set_ev _ _ _ _ _ Vw E)|]. split; [apply (set_nodups _ _ _ _ _ E ND)|auto].
  - destruct (nth_error (f_mods f) m) as [r|]; [|apply R]. cbn [o_del objects].
    destruct (rdelattr (f_world f) r name) as [w1|e] eqn:E; [|apply R]. cbn. split; [apply (del_ev _ _ _ _ Vw E)|]. split; [apply (del_nodups _ _ _ _ ND E)|auto].
  - destruct (nth_error (f_mods f) m) as [r|]; [|apply R]. destruct (o_get objects (f_world f) r name); apply R.
  - destruct (nth_error (f_mods f) m) as [r|]; [|apply R]. destruct (o_state objects (f_world f) r); [|apply R]. cbn. apply (R ODone).
  - destruct (nth_error (f_mods f) m) as [r|]; [|apply R]. cbn [o_def o_state o_part objects].
    destruct (rget_module_def (f_world f) r) as [d|e] eqn:Ed; [|apply R]. destruct (rget_state (f_world f) r) as [s|e]; [|apply R].
    destruct (rpartition (f_world f) s fs) as [ss|e]; [|apply R]. cbn. split; [apply ev_refl, Vw|]. split; [exact ND|].
    intros d' i. apply in_app_or in i. destruct i as [i|[i|[]]]; [auto|]. subst d'. right. refine (def_In (f_world f) _ r d _ Ed).
    intros r0 o n a G i Nn. split; [apply (valid_slot _ r0 o n a Vw G i)|]. intros k Ek. subst a. unfold node_cell. rewrite Nn. discriminate.
  - destruct (nth_error (f_states f) s) as [x|]; [|apply R]. destruct (o_filter objects (f_world f) x fs); [|apply R]. cbn. apply (R ODone).
  - destruct (nth_error (f_states f) s) as [x|]; [|apply R]. destruct (nth_error (f_states f) t) as [y|]; [|apply R]. cbn. apply (R ODone).
  - destruct (nth_error (f_states f) s) as [x|]; [|apply R]. destruct (nth_error (f_states f) t) as [y|]; [|apply R]. cbn. apply (R ODone).
  - destruct (nth_error (f_defs f) d) as [x|] eqn:N; [|apply R]. destruct (vars_of (f_states f) ss) as [l|] eqn:N2; [|apply R]. cbn [o_merge objects].
    destruct (rmerge (f_world f) x l) as [[r w1]|e] eqn:E; [|apply R]. cbn.
    split; [apply (merge_ev _ _ _ _ _ Vw (St x (nth_error_In _ _ N)) (fun s i => Vs s (vars_of_In _ _ _ N2 s i)) E)|]. split; [apply (merge_nodups _ _ _ _ _ E ND)|auto].
  - destruct (nth_error (f_mods f) m) as [r|]; [|apply R]. destruct (vars_of (f_states f) ss) as [l|] eqn:N2; [|apply R]. cbn [o_update objects].
    pose proof (update_state_ev (f_world f) r l Vw (fun s i => Vs s (vars_of_In _ _ _ N2 s i))) as E.
    assert (H : nodups (fst (rupdate_state (f_world f) r l))).
    { unfold rupdate_state. destruct (rget_state (f_world f) r); [|exact ND]. apply update_loop_nodups, ND. }
    destruct (rupdate_state (f_world f) r l) as [w1 [u|e]]; cbn in *; auto.
  - destruct (nth_error (f_mods f) m) as [r|]; [|apply R]. cbn [o_pop objects]. destruct (pop_gone fuel (f_world f) r fs ND O) as (L & ND' & _).
    destruct (rpop_state fuel (f_world f) r fs) as [w1 [ss|e]]; cbn in *; (split; [apply (less_ev _ _ Vw L)|split; [exact ND'|auto]]).
  - destruct (nth_error (f_states f) s) as [x|]; [|apply R]. destruct (dget path x); [|apply R]. cbn. apply (R ODone).
  - destruct (nth_error (f_mods f) m) as [r|]; [|apply R]. destruct (o_attr objects (f_world f) r name); [|apply R]. cbn. apply (R ODone).
  - destruct (nth_error (f_vals f) x); apply R.
  - destruct (nth_error (f_states f) s); apply R.
  - cbn. split; [apply ev_same; reflexivity || exact Vw|]. split; [exact ND|auto].
Qed.

(** a write *)
Definition written (w w' : rworld) : Prop :=
  rw_heap w' = rw_heap w /\ rw_nodes w' = rw_nodes w /\ ncells w' = ncells w /\ forall k, node_cell w' k <-> node_cell w k.
Lemma write_cls c f v : c_cls (cont_write c f v) = c_cls c.
Proof. unfold cont_write. destruct (String.eqb f "value"); reflexivity. Qed.
Lemma write_written w a f v w' : rwrite w a f v = Ok w' -> written w w'.
Proof.
  unfold rwrite. destruct a as [x|k]; [discriminate|]. destruct (nth_error (rw_cells w) k) as [c|] eqn:G; [|discriminate]. intro E. inversion E; subst.
  split; [reflexivity|]. split; [reflexivity|]. split; [cbn; apply list_set_length|]. intro j. unfold node_cell. cbn.
  assert (L : k < ncells w) by (apply nth_error_Some; congruence).
  destruct (Nat.eq_dec j k) as [e|e].
  - subst j. rewrite nth_list_set_same by exact L. rewrite G. unfold is_node, isinstance. cbn. rewrite write_cls. reflexivity.
  - rewrite nth_list_set_other by congruence. reflexivity.
Qed.
Lemma written_holds w w' r n k : written w w' -> (holds w' r n k <-> holds w r n k).
Proof. intros (H & _). unfold holds, rget_obj. rewrite H. reflexivity. Qed.
Lemma step_write f x fld v : f_world (fst (step objects f (KWrite x fld v))) = f_world f \/ written (f_world f) (f_world (fst (step objects f (KWrite x fld v)))).
Proof.
  cbn [step]. destruct (nth_error (f_vals f) x) as [a|]; [|left; reflexivity]. cbn [o_write objects].
  destruct (rwrite (f_world f) a fld v) as [w1|e] eqn:E; [|left; reflexivity]. right. cbn. apply (write_written _ _ _ _ _ E).
Qed.
Lemma written_static w w' a : written w w' -> static w a -> static w' a.
Proof. intros (H1 & H2 & H3 & H4) [K1 K2]. split; [rewrite H3; exact K1|]. intros k E. rewrite H4. apply (K2 k E). Qed.

Lemma write_env f x fld v : let f' := fst (step objects f (KWrite x fld v)) in
  f_mods f' = f_mods f /\ f_defs f' = f_defs f /\ f_states f' = f_states f /\ f_vals f' = f_vals f.
Proof.
  cbn [step]. destruct (nth_error (f_vals f) x) as [a|]; [|cbn; auto]. destruct (o_write objects (f_world f) a fld v); cbn; auto.
Qed.

Lemma step_inv f k : finv f -> finv (fst (step objects f k)).
Proof.
  intro F. pose proof F as (V & ND & O & St). destruct (is_write k) eqn:W.
  - destruct k; try discriminate. destruct (write_env f x field v) as (E1 & E2 & E3 & E4).
    destruct (step_write f x field v) as [E|Wr].
    + assert (Ef : fst (step objects f (KWrite x field v)) = f) by (destruct f, (fst (step objects _ (KWrite x field v))); cbn in *; congruence).
      rewrite Ef. exact F.
    + set (f' := fst (step objects f (KWrite x field v))) in *. destruct V as (Vw & Vd & Vs & Va). pose proof Wr as (H1 & H2 & H3 & H4).
      split; [|split; [|split]].
      * unfold fvalid. rewrite H3, E2, E3, E4. split; [|auto]. unfold wvalid. rewrite H1, H3. exact Vw.
      * rewrite nodups_iff in *. rewrite H1. exact ND.
      * intros j Nj r1 n1 r2 n2 K1 K2. apply (written_holds _ _ _ _ _ Wr) in K1. apply (written_holds _ _ _ _ _ Wr) in K2. rewrite H4 in Nj. apply (O j Nj _ _ _ _ K1 K2).
      * rewrite E2. intros d i. refine (defall_imp _ _ d _ (St d i)). intro a. apply written_static, Wr.
  - destruct (step_sim f k V W) as (_ & V' & _). destruct (step_ev f k F W) as (E & ND' & St').
    split; [exact V'|]. split; [exact ND'|]. split; [apply (ev_owned _ _ E O)|].
    intros d i. refine (defall_imp _ _ d (fun a => ev_static _ _ a E) _). destruct (St' d i) as [j|j]; [apply (St d j)|exact j].
Qed.
Lemma run_cons {W A D} (O : ops W A D) f k t : run O f (k :: t) = (fst (run O (fst (step O f k)) t), snd (step O f k) :: snd (run O (fst (step O f k)) t)).
Proof. cbn [run]. destruct (step O f k) as [f1 o]. cbn [fst snd]. destruct (run O f1 t). reflexivity. Qed.
Lemma run_inv p : forall f, finv f -> finv (fst (run objects f p)).
Proof. induction p as [|k t IH]; intros f H; [exact H|]. rewrite run_cons. apply IH, step_inv, H. Qed.
Lemma start_inv nt : finv (start (rworld0 nt)).
Proof.
  split; [|split; [|split]].
  - split; [intros o []|]. split; [intros d []|]. split; [intros s []|intros a []].
  - intros r o G. destruct r; discriminate.
  - intros k _ r1 n1 r2 n2 (o & G & _). destruct r1; discriminate.
  - intros d [].
Qed.
Lemma reachable_inv nt f : reachable nt f -> finv f.
Proof. intros [p E]. subst f. apply run_inv, start_inv. Qed.

(** an existing node container does not become an attribute *)
Lemma step_old f k c : finv f -> c < ncells (f_world f) -> node_cell (f_world f) c ->
  let f' := fst (step objects f k) in c < ncells (f_world f') /\ node_cell (f_world f') c /\ forall r n, holds (f_world f') r n c -> holds (f_world f) r n c.
Proof.
  intros F L N. destruct (is_write k) eqn:W.
  - destruct k; try discriminate. destruct (step_write f x field v) as [E|Wr]; cbn zeta.
    + rewrite E. auto.
    + pose proof Wr as (H1 & H2 & H3 & H4). rewrite H3, H4. split; [exact L|]. split; [exact N|]. intros r n. apply (written_holds _ _ _ _ _ Wr).
  - destruct (step_ev f k F W) as (E & _). cbn zeta. pose proof (ev_len _ _ E). split; [lia|]. split; [apply (ev_node _ _ c E L), N|].
    intros r n H1. destruct (ev_holds _ _ E r n c H1) as [K|[K|[_ K]]]; [exact K|lia|]. exfalso. apply K, (ev_node _ _ c E L), N.
Qed.
Lemma run_old p : forall f c, finv f -> c < ncells (f_world f) -> node_cell (f_world f) c ->
  let f' := fst (run objects f p) in c < ncells (f_world f') /\ node_cell (f_world f') c /\ forall r n, holds (f_world f') r n c -> holds (f_world f) r n c.
Proof.
  induction p as [|k t IH]; intros f c F L N; [cbn; auto|]. rewrite run_cons. cbn zeta.
  destruct (step_old f k c F L N) as (L1 & N1 & H1). destruct (IH _ c (step_inv f k F) L1 N1) as (L2 & N2 & H2). cbn [fst].
  split; [exact L2|]. split; [exact N2|]. intros r n H. apply H1, H2, H.
Qed.
