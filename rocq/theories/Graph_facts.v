(** Basic facts about the module heap: following paths, writing attributes. *)
From Coq Require Import Permutation.
From Verif Require Import PyBase PyBaseFacts ValuesM Spec_Eq ValuesFacts StateM ModuleM Spec_Module.
Local Open Scope string_scope.
Local Open Scope list_scope.

Lemma get_obj_lt w r o : get_obj w r = Some o -> r < List.length (w_heap w).
Proof. unfold get_obj. intros H. apply nth_error_Some. congruence. Qed.
Lemma get_obj_ex w r : r < List.length (w_heap w) -> exists o, get_obj w r = Some o.
Proof. unfold get_obj. intros H. apply nth_error_Some in H. destruct (nth_error _ r); [eauto|congruence]. Qed.

Lemma get_put w r o x : get_obj (put_obj w r o) x =
  if Nat.eqb r x then (if Nat.ltb x (List.length (w_heap w)) then Some o else None) else get_obj w x.
Proof. unfold get_obj, put_obj. cbn. apply nth_list_set. Qed.
Lemma get_put_same w r o o' : get_obj w r = Some o' -> get_obj (put_obj w r o) r = Some o.
Proof.
  intros H. rewrite get_put, Nat.eqb_refl. apply get_obj_lt in H.
  apply Nat.ltb_lt in H. now rewrite H.
Qed.
Lemma get_put_other w r o x : r <> x -> get_obj (put_obj w r o) x = get_obj w x.
Proof. intros H. rewrite get_put. apply Nat.eqb_neq in H. now rewrite H. Qed.

Lemma set_vars_id o : set_vars o (m_vars o) = o.
Proof. now destruct o. Qed.

Lemma trace_valid_iff w t : trace_valid w t = true <-> t = w_trace w.
Proof.
  unfold trace_valid. rewrite andb_true_iff, !Nat.eqb_eq. destruct t, (w_trace w); cbn.
  split; [intros [-> ->]; reflexivity|intros [= -> ->]; auto].
Qed.

(** ** paths *)
Lemma follow_cons w r n p :
  follow w r (n :: p) =
    match get_obj w r with
    | Some o => match dget n (m_vars o) with Some (ARaw (PyMod r')) => follow w r' p | _ => None end
    | None => None
    end.
Proof. reflexivity. Qed.

Lemma follow_app w p : forall r q,
  follow w r (p ++ q) = match follow w r p with Some x => follow w x q | None => None end.
Proof.
  induction p as [|n p IH]; intros r q.
  - cbn [app]. destruct q as [|m q]; cbn; destruct (get_obj w r) eqn:E; cbn; rewrite ?E; reflexivity.
  - cbn [app]. rewrite !follow_cons. destruct (get_obj w r) as [o|]; [|reflexivity].
    destruct (dget n (m_vars o)) as [[[| | | | | |]|]|]; auto.
Qed.

Lemma follow_valid w p : forall r x, follow w r p = Some x -> exists o, get_obj w x = Some o.
Proof.
  induction p as [|n p IH]; intros r x; cbn.
  - destruct (get_obj w r) eqn:E; [|discriminate]. intros [= <-]. eauto.
  - destruct (get_obj w r) as [o|]; [|discriminate].
    destruct (dget n (m_vars o)) as [[[| | | | | |]|]|]; try discriminate. apply IH.
Qed.

Lemma follow_start w r p x : follow w r p = Some x -> exists o, get_obj w r = Some o.
Proof. destruct p; cbn; destruct (get_obj w r); eauto; discriminate. Qed.

Definition child (w : world) (r : nat) (name : string) (r' : nat) : Prop :=
  exists o, get_obj w r = Some o /\ dget name (m_vars o) = Some (ARaw (PyMod r')).

Lemma follow_one w r n r' o' : child w r n r' -> get_obj w r' = Some o' -> follow w r [n] = Some r'.
Proof. intros (o & Ho & Hd) Ho'. cbn. rewrite Ho, Hd, Ho'. reflexivity. Qed.

Lemma follow_snoc w r p n x y : follow w r p = Some x -> child w x n y ->
  (exists o, get_obj w y = Some o) -> follow w r (p ++ [n]) = Some y.
Proof. intros H1 H2 [o Ho]. rewrite follow_app, H1. eapply follow_one; eauto. Qed.

Lemma follow_cons_child w r n p x : follow w r (n :: p) = Some x ->
  exists r', child w r n r' /\ follow w r' p = Some x.
Proof.
  rewrite follow_cons. destruct (get_obj w r) as [o|] eqn:E; [|discriminate].
  destruct (dget n (m_vars o)) as [[[| | | | | |]|]|] eqn:E2; try discriminate.
  intros H. exists r0. split; [|exact H]. exists o. auto.
Qed.

Lemma child_follow w r n r' p : child w r n r' -> follow w r (n :: p) = follow w r' p.
Proof. intros (o & Ho & Hd). rewrite follow_cons, Ho, Hd. reflexivity. Qed.

Lemma reaches_refl w r o : get_obj w r = Some o -> reaches w r r.
Proof. intros H. exists []. cbn. now rewrite H. Qed.
Lemma reaches_trans w a b c : reaches w a b -> reaches w b c -> reaches w a c.
Proof. intros [p Hp] [q Hq]. exists (p ++ q). now rewrite follow_app, Hp. Qed.
Lemma reaches_child w r n r' : wf_world w -> child w r n r' -> reaches w r r'.
Proof.
  intros Hw (o & Ho & Hd). pose proof (wfo_refs _ _ (wf_objs _ Hw _ _ Ho) _ _ Hd) as Hlt.
  apply get_obj_ex in Hlt. destruct Hlt as [o' Ho']. exists [n]. eapply follow_one; eauto. exists o. auto.
Qed.
Lemma reaches_valid w r x : reaches w r x -> exists o, get_obj w x = Some o.
Proof. intros [p Hp]. eapply follow_valid; eauto. Qed.

(** a set of modules closed under submodules contains everything reachable *)
Lemma closed_reaches w (P : nat -> Prop) r :
  P r -> (forall x n y, P x -> child w x n y -> P y) -> forall x, reaches w r x -> P x.
Proof.
  intros Hr Hc x [p Hp]. revert r Hr Hp. induction p as [|n p IH]; intros r Hr Hp.
  - cbn in Hp. destruct (get_obj w r); [|discriminate]. now injection Hp as <-.
  - apply follow_cons_child in Hp. destruct Hp as (r' & Hc' & Hp). apply (IH r'); eauto.
Qed.

(** ** set_path is setattr at the end of the path *)
Lemma set_path_follow w p : forall r n a x,
  follow w r p = Some x -> set_path w r (p ++ [n]) a = setattr w x n a.
Proof.
  induction p as [|m p IH]; intros r n a x H.
  - cbn in *. destruct (get_obj w r) eqn:E; [|discriminate]. now injection H as <-.
  - apply follow_cons_child in H. destruct H as (r' & (o & Ho & Hd) & H).
    cbn [app set_path]. rewrite Ho, Hd. destruct (p ++ [n]) eqn:E.
    + destruct p; discriminate.
    + rewrite <- E. now apply IH.
Qed.

(** ** writes *)

(** [w'] is [w] with some attribute slots overwritten: [T x n = Some a] means
    that slot [n] of module [x] now holds [a]. *)
Record wrote (w w' : world) (T : nat -> string -> option attr) : Prop := {
  wr_len : List.length (w_heap w') = List.length (w_heap w);
  wr_uuid : w_uuid w' = w_uuid w;
  wr_trace : w_trace w' = w_trace w;
  wr_nodes : w_nodes w' = w_nodes w;
  wr_obj : forall x o, get_obj w x = Some o ->
    exists d, get_obj w' x = Some (set_vars o d) /\
      (NoDup (keys (m_vars o)) -> NoDup (keys d)) /\
      (forall n, In n (keys d) -> In n (keys (m_vars o)) \/ exists a, T x n = Some a) /\
      (forall n, dget n d = match T x n with Some a => Some a | None => dget n (m_vars o) end);
  wr_same : forall x, (forall n, T x n = None) -> get_obj w' x = get_obj w x
}.

Lemma wrote_refl w : wrote w w (fun _ _ => None).
Proof.
  constructor; auto. intros x o Ho. exists (m_vars o). rewrite set_vars_id. auto.
Qed.

Lemma wrote_trans w1 w2 w3 T1 T2 : wrote w1 w2 T1 -> wrote w2 w3 T2 ->
  wrote w1 w3 (fun x n => match T2 x n with Some a => Some a | None => T1 x n end).
Proof.
  intros H1 H2. constructor.
  - rewrite (wr_len _ _ _ H2). apply H1.
  - rewrite (wr_uuid _ _ _ H2). apply H1.
  - rewrite (wr_trace _ _ _ H2). apply H1.
  - rewrite (wr_nodes _ _ _ H2). apply H1.
  - intros x o Ho. destruct (wr_obj _ _ _ H1 x o Ho) as (d1 & Ho1 & Hn1 & Hk1 & Hd1).
    destruct (wr_obj _ _ _ H2 x _ Ho1) as (d2 & Ho2 & Hn2 & Hk2 & Hd2). exists d2. cbn in *.
    split; [exact Ho2|]. split; [auto|]. split.
    + intros n Hn. destruct (Hk2 n Hn) as [Hn'|[a Ha]].
      * destruct (Hk1 n Hn') as [|[a Ha]]; auto. right. destruct (T2 x n); eauto.
      * right. rewrite Ha. eauto.
    + intros n. rewrite Hd2. destruct (T2 x n); [reflexivity|]. apply Hd1.
  - intros x Hx. rewrite (wr_same _ _ _ H2), (wr_same _ _ _ H1); auto; intros n; specialize (Hx n); destruct (T2 x n); congruence.
Qed.

Lemma wrote_ext w w' T T' : wrote w w' T -> (forall x n, T x n = T' x n) -> wrote w w' T'.
Proof.
  intros H HT. destruct H as [H1 H2 H3 H4 H5 H6]. constructor; auto.
  - intros x o Ho. destruct (H5 x o Ho) as (d & Hd1 & Hd2 & Hd3 & Hd4). exists d.
    split; [exact Hd1|]. split; [exact Hd2|]. split.
    + intros n Hn. destruct (Hd3 n Hn) as [|[a Ha]]; auto. right. exists a. now rewrite <- HT.
    + intros n. rewrite <- HT. apply Hd4.
  - intros x Hx. apply H6. intros n. now rewrite HT.
Qed.

Lemma setattr_inv w x n a w' : setattr w x n a = Ok w' ->
  exists o a', get_obj w x = Some o /\ m_trace o = w_trace w /\ n <> "_module__state" /\
    assign_value (dget n (m_vars o)) a = Ok a' /\
    w' = put_obj w x (set_vars o (dset n a' (m_vars o))).
Proof.
  unfold setattr. destruct (get_obj w x) as [o|] eqn:Eo; [|discriminate].
  destruct (trace_valid w (m_trace o)) eqn:Et; [|discriminate]. cbn [negb].
  destruct (String.eqb_spec n "_module__state") as [|Hn]; [discriminate|].
  destruct (assign_value (dget n (m_vars o)) a) as [a'|] eqn:Ea; [|discriminate]. cbn.
  intros [= <-]. exists o, a'. split; [reflexivity|]. split; [now apply trace_valid_iff in Et|]. auto.
Qed.

Lemma setattr_ok w x n a o a' : get_obj w x = Some o -> m_trace o = w_trace w ->
  n <> "_module__state" -> assign_value (dget n (m_vars o)) a = Ok a' ->
  setattr w x n a = Ok (put_obj w x (set_vars o (dset n a' (m_vars o)))).
Proof.
  intros Ho Ht Hn Ha. unfold setattr. rewrite Ho, (proj2 (trace_valid_iff w _) Ht). cbn [negb].
  apply String.eqb_neq in Hn. rewrite Hn, Ha. reflexivity.
Qed.

Definition single (x : nat) (n : string) (a : attr) : nat -> string -> option attr :=
  fun y m => if Nat.eqb x y && String.eqb m n then Some a else None.

Lemma put_wrote w x o n a : get_obj w x = Some o ->
  wrote w (put_obj w x (set_vars o (dset n a (m_vars o)))) (single x n a).
Proof.
  intros Ho. constructor; try reflexivity.
  - cbn. apply list_set_length.
  - intros y oy Hy. unfold single. destruct (Nat.eqb_spec x y) as [<-|Hne]; cbn [andb].
    + assert (oy = o) by congruence. subst oy. exists (dset n a (m_vars o)).
      split; [eapply get_put_same; eauto|]. split; [apply NoDup_keys_dset|]. split.
      * intros m Hm. apply In_keys_dset in Hm. destruct Hm as [->|Hm]; auto.
        right. exists a. now rewrite String.eqb_refl.
      * intros m. rewrite dget_dset. destruct (String.eqb m n); reflexivity.
    + exists (m_vars oy). rewrite get_put_other by assumption. rewrite set_vars_id. auto.
  - intros y Hy. apply get_put_other. intros <-. specialize (Hy n). unfold single in Hy.
    rewrite Nat.eqb_refl, String.eqb_refl in Hy. discriminate.
Qed.

(** writes that touch no submodule slot and store no submodule *)
Definition plain_writes (w : world) (T : nat -> string -> option attr) : Prop :=
  forall x n a, T x n = Some a -> is_submodule a = false /\
    forall o b, get_obj w x = Some o -> dget n (m_vars o) = Some b -> is_submodule b = false.

Lemma is_sub_inv a : is_submodule a = true -> exists r, a = ARaw (PyMod r).
Proof. destruct a as [[| | | | | |]|]; cbn; try discriminate. eauto. Qed.

Lemma wrote_child w w' T x n y : wrote w w' T -> plain_writes w T ->
  (child w x n y <-> child w' x n y).
Proof.
  intros Hw Hp. split.
  - intros (o & Ho & Hd). destruct (wr_obj _ _ _ Hw x o Ho) as (d & Ho' & _ & _ & Hd').
    exists (set_vars o d). split; [exact Ho'|]. cbn. rewrite Hd'.
    destruct (T x n) as [a|] eqn:E; [|exact Hd].
    destruct (Hp x n a E) as [_ H]. specialize (H o _ Ho Hd). discriminate.
  - intros (o' & Ho' & Hd'). assert (Hlt : x < List.length (w_heap w)).
    { rewrite <- (wr_len _ _ _ Hw). eapply get_obj_lt; eauto. }
    apply get_obj_ex in Hlt. destruct Hlt as [o Ho]. exists o. split; [exact Ho|].
    destruct (wr_obj _ _ _ Hw x o Ho) as (d & Ho2 & _ & _ & Hd2). assert (o' = set_vars o d) by congruence.
    subst o'. cbn in Hd'. rewrite Hd2 in Hd'. destruct (T x n) as [a|] eqn:E; [|exact Hd'].
    injection Hd' as ->. destruct (Hp x n _ E) as [H _]. discriminate.
Qed.

Lemma wrote_valid w w' T x : wrote w w' T -> ((exists o, get_obj w x = Some o) <-> exists o, get_obj w' x = Some o).
Proof.
  intros Hw. split; intros [o Ho]; apply get_obj_ex; apply get_obj_lt in Ho; rewrite ?(wr_len _ _ _ Hw) in *; assumption.
Qed.

Lemma wrote_follow w w' T p : wrote w w' T -> plain_writes w T ->
  forall r, follow w' r p = follow w r p.
Proof.
  intros Hw Hp. induction p as [|n p IH]; intros r.
  - cbn. pose proof (wrote_valid _ _ _ r Hw) as H. destruct (get_obj w r) as [o|], (get_obj w' r) as [o'|]; auto.
    + destruct (proj1 H) as [? ?]; [eauto|discriminate].
    + destruct (proj2 H) as [? ?]; [eauto|discriminate].
  - rewrite !follow_cons.
    destruct (follow w r (n :: p)) as [y|] eqn:E.
    + apply follow_cons_child in E. destruct E as (r' & Hc & E). apply (wrote_child _ _ _ _ _ _ Hw Hp) in Hc as Hc'.
      destruct Hc as (o & -> & ->). destruct Hc' as (o' & -> & ->). now rewrite IH.
    + destruct (follow w' r (n :: p)) as [y|] eqn:E'.
      * apply follow_cons_child in E'. destruct E' as (r' & Hc & E'). apply (wrote_child _ _ _ _ _ _ Hw Hp) in Hc as Hc'.
        rewrite (child_follow _ _ _ _ p Hc') in E. rewrite IH in E'. congruence.
      * rewrite follow_cons in E, E'. congruence.
Qed.

Lemma wrote_reaches w w' T r x : wrote w w' T -> plain_writes w T -> (reaches w r x <-> reaches w' r x).
Proof. intros Hw Hp. unfold reaches. split; intros [p H]; exists p; erewrite ?wrote_follow in * by eauto; assumption. Qed.

(** ** the assignments of [_update_module] *)

(** One resolved write: path of submodules, owner, attribute name, given value, stored value. *)
Record entry := mkE { e_parts : list string; e_own : nat; e_name : string; e_val : attr; e_new : attr }.
Definition e_key (e : entry) : string := join_path (e_parts e ++ [e_name e]).
Definition e_slot (e : entry) : nat * string := (e_own e, e_name e).

(** The writes as a lookup function. *)
Fixpoint writes (es : list entry) (x : nat) (n : string) : option attr :=
  match es with
  | [] => None
  | e :: t => if Nat.eqb (e_own e) x && String.eqb n (e_name e) then Some (e_new e) else writes t x n
  end.

Definition entry_ok (w : world) (r : nat) (e : entry) : Prop :=
  follow w r (e_parts e) = Some (e_own e) /\
  Forall no_slash (e_parts e) /\ no_slash (e_name e) /\ e_name e <> "_module__state" /\
  is_submodule (e_val e) = false /\
  exists o, get_obj w (e_own e) = Some o /\ m_trace o = w_trace w /\
    assign_value (dget (e_name e) (m_vars o)) (e_val e) = Ok (e_new e) /\
    (forall b, dget (e_name e) (m_vars o) = Some b -> is_submodule b = false).

Lemma assign_not_sub old a a' : is_submodule a = false -> assign_value old a = Ok a' -> is_submodule a' = false.
Proof.
  intros Ha. unfold assign_value. destruct old as [[v|c]|].
  - destruct a as [v'|c']; [intros [= <-]; exact Ha|]. destruct (container_copy c'); cbn; [intros [= <-]; reflexivity|discriminate].
  - destruct (container_replace c (Some a) []); cbn; [intros [= <-]; reflexivity|discriminate].
  - destruct a as [v'|c']; [intros [= <-]; exact Ha|]. destruct (container_copy c'); cbn; [intros [= <-]; reflexivity|discriminate].
Qed.

Lemma writes_None es x n : ~ In (x, n) (map e_slot es) -> writes es x n = None.
Proof.
  induction es as [|e es IH]; cbn; [reflexivity|]. intros H.
  destruct (Nat.eqb_spec (e_own e) x) as [E1|E1]; cbn [andb]; [|apply IH; tauto].
  destruct (String.eqb_spec n (e_name e)) as [E2|E2]; [|apply IH; tauto].
  exfalso. apply H. left. unfold e_slot. congruence.
Qed.
Lemma writes_In es e : NoDup (map e_slot es) -> In e es -> writes es (e_own e) (e_name e) = Some (e_new e).
Proof.
  induction es as [|f es IH]; cbn; [tauto|]. intros Hn [->|Hi].
  - now rewrite Nat.eqb_refl, String.eqb_refl.
  - inversion Hn; subst. destruct (Nat.eqb_spec (e_own f) (e_own e)) as [E1|E1]; cbn [andb]; [|auto].
    destruct (String.eqb_spec (e_name e) (e_name f)) as [E2|E2]; [|auto].
    exfalso. apply H1. apply in_map_iff. exists e. split; [|assumption]. unfold e_slot. congruence.
Qed.
Lemma writes_Some es x n a : writes es x n = Some a -> exists e, In e es /\ e_own e = x /\ e_name e = n /\ e_new e = a.
Proof.
  induction es as [|e es IH]; cbn; [discriminate|].
  destruct (Nat.eqb_spec (e_own e) x) as [E1|E1]; cbn [andb].
  - destruct (String.eqb_spec n (e_name e)) as [E2|E2].
    + intros [= <-]. eauto 6.
    + intros H. destruct (IH H) as (f & ? & ?). eauto.
  - intros H. destruct (IH H) as (f & ? & ?). eauto.
Qed.

Lemma update_loop_entries es : forall w r,
  NoDup (map e_slot es) -> Forall (entry_ok w r) es ->
  exists w', update_loop w r (map (fun e => (e_key e, e_val e)) es) = (w', Ok tt) /\
             wrote w w' (writes es) /\ plain_writes w (writes es).
Proof.
  induction es as [|e es IH]; intros w r Hnd Hok.
  - exists w. split; [reflexivity|]. split; [apply wrote_refl|]. intros x n a. discriminate.
  - inversion Hok as [|? ? He Hes]; subst. cbn in Hnd. inversion Hnd as [|? ? Hni Hnd']; subst.
    destruct He as (Hf & Hs1 & Hs2 & Hres & Hsub & o & Ho & Ht & Ha & Hb).
    cbn [map update_loop]. unfold e_key at 1.
    assert (Esplit : split_slash (join_path (e_parts e ++ [e_name e])) = e_parts e ++ [e_name e]).
    { apply split_join; [destruct (e_parts e); discriminate|]. apply Forall_app. auto. }
    rewrite Esplit, (set_path_follow _ _ _ _ _ _ Hf).
    rewrite (setattr_ok _ _ _ _ _ _ Ho Ht Hres Ha).
    set (w1 := put_obj w (e_own e) (set_vars o (dset (e_name e) (e_new e) (m_vars o)))).
    assert (Hw1 : wrote w w1 (single (e_own e) (e_name e) (e_new e))) by (now apply put_wrote).
    assert (Hp1 : plain_writes w (single (e_own e) (e_name e) (e_new e))).
    { intros x n a Hx. unfold single in Hx. destruct (Nat.eqb_spec (e_own e) x) as [<-|]; cbn in Hx; [|discriminate].
      destruct (String.eqb_spec n (e_name e)) as [->|]; [|discriminate]. injection Hx as <-.
      split; [eapply assign_not_sub; eauto|]. intros o' b Ho'. assert (o' = o) by congruence. subst o'. apply Hb. }
    destruct (IH w1 r) as (w' & Hrun & Hwr & Hpl); auto.
    { rewrite Forall_forall in Hes |- *. intros f Hf'. specialize (Hes f Hf').
      destruct Hes as (Gf & G1 & G2 & G3 & G4 & o2 & Go & Gt & Ga & Gb).
      split; [rewrite (wrote_follow _ _ _ _ Hw1 Hp1); exact Gf|]. split; [exact G1|]. split; [exact G2|].
      split; [exact G3|]. split; [exact G4|].
      destruct (wr_obj _ _ _ Hw1 _ _ Go) as (d & Hd1 & _ & _ & Hd2). exists (set_vars o2 d).
      split; [exact Hd1|]. split; [exact Gt|].
      assert (Hs : single (e_own e) (e_name e) (e_new e) (e_own f) (e_name f) = None).
      { unfold single. destruct (Nat.eqb_spec (e_own e) (e_own f)) as [E1|E1]; [|reflexivity].
        destruct (String.eqb_spec (e_name f) (e_name e)) as [E2|E2]; [|reflexivity].
        exfalso. apply Hni. apply in_map_iff. exists f. split; [|assumption]. unfold e_slot. congruence. }
      cbn. rewrite Hd2, Hs. auto. }
    exists w'. split; [exact Hrun|].
    assert (Hfun : forall x n, writes (e :: es) x n =
        match writes es x n with Some a => Some a | None => single (e_own e) (e_name e) (e_new e) x n end).
    { intros x n. cbn [writes]. unfold single. destruct (Nat.eqb_spec (e_own e) x) as [E1|E1]; cbn [andb].
      - destruct (String.eqb_spec n (e_name e)) as [E2|E2].
        + subst. rewrite writes_None; [reflexivity|]. exact Hni.
        + destruct (writes es x n); reflexivity.
      - destruct (writes es x n); reflexivity. }
    split.
    + eapply wrote_ext; [eapply wrote_trans; [exact Hw1|exact Hwr]|]. intros x n. now rewrite Hfun.
    + intros x n a Hx. rewrite Hfun in Hx. destruct (writes es x n) as [a'|] eqn:Ew.
      * injection Hx as ->. destruct (Hpl x n a Ew) as [G1 G2]. split; [exact G1|].
        intros ox b Hox Hbx. destruct (wr_obj _ _ _ Hw1 _ _ Hox) as (d & Hd1 & _ & _ & Hd2).
        assert (Hs : single (e_own e) (e_name e) (e_new e) x n = None).
        { unfold single. destruct (Nat.eqb_spec (e_own e) x) as [E1|E1]; [|reflexivity].
          destruct (String.eqb_spec n (e_name e)) as [E2|E2]; [|reflexivity].
          exfalso. apply writes_Some in Ew. destruct Ew as (f & Hf1 & Hf2 & Hf3 & _). apply Hni.
          apply in_map_iff. exists f. split; [|assumption]. unfold e_slot. congruence. }
        apply (G2 _ b Hd1). cbn. now rewrite Hd2, Hs.
      * apply (Hp1 x n a Hx).
Qed.
