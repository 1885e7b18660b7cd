(** Keys inside scan: the contexts of the layers behave as the context merged
    from the same partition, with other keys for the streams that are split. *)
From Coq Require Import ZArith Lia.
From Verif Require Import PyBase PyBaseFacts ValuesM Spec_Eq ModuleM ContextM ScanM Spec_Context Context_proofs Mdef_proofs.
Local Open Scope string_scope.
Local Open Scope list_scope.

(** a stream, but for its key: the name it was made under, count and path *)
Notation ghost := (string * nat * counts)%type.
Definition real (K : string -> key) (g : ghost) : stream := mkStream (K (fst (fst g))) (snd (fst g)) (snd g).
Definition gbump (g : ghost) : ghost := (fst (fst g), S (snd (fst g)), snd g).
Lemma real_bump K g : real K (gbump g) = bump (real K g).
Proof. reflexivity. Qed.

Section Layers.
Context (blake : string -> nat).

(** what a pure context is, but for the keys *)
Definition pure_of (K : string -> key) (pc : pctx) : Prop :=
  forall name path, In (name, path) (pc_counts pc) -> dget name (pc_keys pc) = Some (K name).

Record wrel (P0 : string -> option counts) (K K' : string -> key) (base : list ghost) (w w' : cworld) : Prop := {
  wr_s : cw_streams w = map (real K) base;
  wr_s' : cw_streams w' = map (real K') base;
  wr_c : cw_ctxs w = cw_ctxs w';
  wr_t : cw_trace w = cw_trace w';
  wr_p : Forall2 (fun p p' => pc_counts p = pc_counts p' /\ pc_flags p = pc_flags p' /\ pure_of K p /\ pure_of K' p') (cw_pures w) (cw_pures w');
  wr_cn : forall x, In x (cw_ctxs w) -> NoDup (keys (x_rngs x)) /\
     forall name i, dget name (x_rngs x) = Some i -> exists g, nth_error base i = Some g /\ fst (fst g) = name;
  wr_pn : forall p, In p (cw_pures w) -> NoDup (map fst (pc_counts p)) /\
     forall name path, In (name, path) (pc_counts p) -> exists p0 rest, P0 name = Some p0 /\ path = p0 ++ rest;
  wr_path : forall g, In g base -> exists p0 rest, P0 (fst (fst g)) = Some p0 /\ snd g = p0 ++ rest
}.

(** what a call returns in the two worlds *)
Definition keyed (P0 : string -> option counts) (K K' : string -> key) (o : cop) (out out' : cout) : Prop :=
  match o, out with
  | ODraw _ name, OutKey k => exists p0 rest, P0 name = Some p0 /\ rest <> [] /\
      k = KFold (K name) (stable_hash blake (p0 ++ rest)) /\ out' = OutKey (KFold (K' name) (stable_hash blake (p0 ++ rest)))
  | _, _ => out' = out
  end.

Lemma fork_all_ghost items : forall base,
  (forall name i, In (name, i) items -> exists g, nth_error base i = Some g /\ fst (fst g) = name) ->
  exists base' l, (forall K', fork_all items (map (real K') base) = (Ok (map (fun np => (fst np, mkStream (K' (fst np)) 0 (snd np))) l), map (real K') base')) /\
    map fst l = map fst items /\ List.length base' = List.length base /\
    (forall i, option_map (fun g : ghost => (fst (fst g), snd g)) (nth_error base' i) = option_map (fun g : ghost => (fst (fst g), snd g)) (nth_error base i)) /\
    (forall name path, In (name, path) l -> exists g c, In g base /\ fst (fst g) = name /\ path = snd g ++ [c]).
Proof.
  induction items as [|[name i] items IH]; intros base H.
  - exists base, []. repeat split; auto. intros ? ? [].
  - destruct (H name i (or_introl eq_refl)) as (g & G & <-).
    destruct (IH (list_set i (gbump g) base)) as (base' & l & F & N & Ln & P & Q).
    { intros n j Hj. destruct (H n j (or_intror Hj)) as (g' & G' & E). rewrite nth_list_set.
      destruct (Nat.eqb_spec i j) as [->|Hne].
      - exists (gbump g). split; [|rewrite G in G'; injection G' as <-; exact E].
        replace (Nat.ltb j (List.length base)) with true; [reflexivity|]. symmetry. apply Nat.ltb_lt. apply nth_error_Some. congruence.
      - exists g'. auto. }
    exists base', ((fst (fst g), snd g ++ [snd (fst g)]) :: l). split.
    { intros K'. cbn [fork_all]. rewrite nth_error_map, G. cbn [option_map].
      specialize (F K'). rewrite (map_list_set (real K')) in F. rewrite real_bump in F. cbn in F |- *. rewrite F. reflexivity. }
    split; [cbn; now rewrite N|]. rewrite list_set_length in Ln. split; [exact Ln|].
    assert (Pb : forall j, option_map (fun g : ghost => (fst (fst g), snd g)) (nth_error (list_set i (gbump g) base) j) = option_map (fun g : ghost => (fst (fst g), snd g)) (nth_error base j)).
    { intros j. rewrite nth_list_set. destruct (Nat.eqb_spec i j) as [->|Hne]; [|reflexivity]. rewrite G.
      replace (Nat.ltb j (List.length base)) with true; [reflexivity|]. symmetry. apply Nat.ltb_lt. apply nth_error_Some. congruence. }
    split; [intros j; rewrite P; apply Pb|].
    intros n p [E|E].
    + injection E as <- <-. exists g, (snd (fst g)). split; [eapply nth_error_In; eauto|auto].
    + destruct (Q n p E) as (g' & c & I & A & B). apply In_nth_error in I as [j I].
      specialize (Pb j). rewrite I in Pb. cbn in Pb. destruct (nth_error base j) as [g''|] eqn:E2; [|discriminate]. cbn in Pb. injection Pb as Pa Pb'.
      exists g'', c. split; [eapply nth_error_In; eauto|]. split; congruence.
Qed.

Lemma merge_ghost l : forall (base : list ghost), exists ns,
  (forall K ks, (forall name path, In (name, path) l -> dget name ks = Some (K name)) ->
    merge_streams ks l (map (real K) base) = Ok (ns, map (real K) (base ++ map (fun np => (fst np, 0, snd np)) l))) /\
  map fst ns = map fst l /\
  (forall name i, In (name, i) ns -> exists g, nth_error (base ++ map (fun np => (fst np, 0, snd np)) l) i = Some g /\ fst (fst g) = name).
Proof.
  induction l as [|[name path] l IH]; intros base.
  - exists []. split; [intros; cbn; rewrite app_nil_r; reflexivity|]. split; [reflexivity|]. intros ? ? [].
  - destruct (IH (base ++ [(name, 0, path)])) as (ns & F & N & Q). exists ((name, List.length base) :: ns). split; [|split].
    + intros K ks H. cbn [merge_streams]. rewrite (H name path (or_introl eq_refl)).
      specialize (F K ks (fun n p I => H n p (or_intror I))). rewrite map_app in F. cbn [map real fst snd] in F.
      unfold real at 2 in F. cbn [fst snd] in F. rewrite F. cbn [rbind map fst snd]. rewrite <- app_assoc, map_length. reflexivity.
    + cbn. now rewrite N.
    + intros n i [E|E].
      * injection E as <- <-. exists (name, 0, path). split; [|reflexivity]. cbn [map fst snd]. rewrite nth_error_app2 by lia. now rewrite Nat.sub_diag.
      * destruct (Q n i E) as (g & A & B). exists g. split; [|exact B]. rewrite <- app_assoc in A. exact A.
Qed.

Definition no_new (o : cop) : Prop := match o with ONew _ _ _ => False | _ => True end.

Lemma step_rel P0 K K' base w w' o : wrel P0 K K' base w w' -> no_new o ->
  exists base', wrel P0 K K' base' (fst (crun1 blake w o)) (fst (crun1 blake w' o)) /\ keyed P0 K K' o (snd (crun1 blake w o)) (snd (crun1 blake w' o)).
Proof.
  intros R N. pose proof R as [R1 R2 R3 R4 R5 R6 R7 R8]. destruct o as [p fl rs|c name|c|c|i|t]; [destruct N| | | | |].
  - cbn [crun1]. rewrite <- R3, <- R4. destruct (nth_error (cw_ctxs w) c) as [x|] eqn:X; [|exists base; split; [exact R|reflexivity]].
    unfold make_rng. destruct (dget name (x_rngs x)) as [i|] eqn:D.
    2:{ exists base. cbn. split; [|reflexivity]. destruct R; constructor; auto. }
    destruct (negb _).
    { exists base. cbn. split; [|reflexivity]. destruct R; constructor; auto. }
    destruct (R6 x (nth_error_In _ _ X)) as [_ R6']. destruct (R6' name i D) as (g & G & E).
    rewrite R1, R2, !nth_error_map, G. cbn [option_map fst snd].
    exists (list_set i (gbump g) base). split.
    + constructor; cbn [fst set_streams cw_streams cw_ctxs cw_pures cw_trace]; auto.
      * now rewrite (map_list_set (real K)).
      * now rewrite (map_list_set (real K')).
      * intros y Hy. destruct (R6 y Hy) as [A B]. split; [exact A|]. intros n j Hj. destruct (B n j Hj) as (g' & G' & E').
        rewrite nth_list_set. destruct (Nat.eqb_spec i j) as [->|Hne]; [|eauto].
        exists (gbump g). split; [|rewrite G in G'; injection G' as <-; exact E'].
        replace (Nat.ltb j (List.length base)) with true; [reflexivity|]. symmetry. apply Nat.ltb_lt. apply nth_error_Some. congruence.
      * intros g' I. apply In_nth_error in I as [j I]. rewrite nth_list_set in I. destruct (Nat.eqb i j); [|eapply R8, nth_error_In; eauto].
        destruct (Nat.ltb j (List.length base)); [|discriminate]. injection I as <-. cbn. eapply R8, nth_error_In; eauto.
    + destruct (R8 g (nth_error_In _ _ G)) as (p0 & rest & A & B). rewrite E in A. exists p0, (rest ++ [snd (fst g)]). split; [exact A|].
      split; [now destruct rest|]. unfold real. cbn. rewrite E, B, <- app_assoc. auto.
  - cbn [crun1]. rewrite <- R3, <- R4. destruct (nth_error (cw_ctxs w) c) as [x|] eqn:X; [|exists base; split; [exact R|reflexivity]].
    exists base. split; [|reflexivity]. constructor; cbn; auto; [now rewrite R3|].
    intros y Hy. apply in_app_iff in Hy as [Hy|[<-|[]]]; [auto|]. cbn. apply (R6 x (nth_error_In _ _ X)).
  - cbn [crun1]. rewrite <- R3, <- R4. destruct (nth_error (cw_ctxs w) c) as [x|] eqn:X; [|exists base; split; [exact R|reflexivity]].
    unfold context_partition. destruct (negb _).
    { exists base. cbn. split; [|reflexivity]. destruct R; constructor; auto. }
    destruct (R6 x (nth_error_In _ _ X)) as [NX R6'].
    destruct (fork_all_ghost (x_rngs x) base) as (base' & l & F & NL & Ln & P & Q).
    { intros n i I. apply R6'. apply In_dget; auto. }
    rewrite R1, R2, (F K), (F K'). cbn [rmap fst snd]. rewrite !map_map. cbn [fst snd s_key s_path].
    exists base'. split; [|reflexivity].
    assert (NL' : NoDup (map fst l)) by (rewrite NL; exact NX).
    assert (D : forall KK : string -> key, dict_of (map (fun np : string * counts => (fst np, KK (fst np))) l) = map (fun np : string * counts => (fst np, KK (fst np))) l).
    { intros KK. apply dict_of_nodup. unfold keys. rewrite map_map. exact NL'. }
    assert (PO : forall KK fl, pure_of KK (mkPctx (dict_of (map (fun np : string * counts => (fst np, KK (fst np))) l)) (map (fun np : string * counts => (fst np, snd np)) l) fl)).
    { intros KK fl n p I. cbn [pc_keys pc_counts] in *. rewrite D. apply In_dget; [unfold keys; rewrite map_map; exact NL'|].
      apply in_map_iff in I as (np & E & I). injection E as <- <-. apply in_map_iff. exists np. auto. }
    constructor; cbn [fst add_pure set_streams cw_streams cw_ctxs cw_pures cw_trace]; auto.
    + apply Forall2_app; [exact R5|]. constructor; [|constructor]. cbn [pc_counts pc_flags]. auto.
    + intros y Hy. destruct (R6 y Hy) as [A B]. split; [exact A|]. intros n j Hj. destruct (B n j Hj) as (g' & G' & E').
      specialize (P j). rewrite G' in P. destruct (nth_error base' j) as [g2|]; [|discriminate]. cbn in P. injection P as P1 P2. exists g2. split; [reflexivity|congruence].
    + intros p Hp. apply in_app_iff in Hp as [Hp|[<-|[]]]; [auto|]. cbn [pc_counts]. rewrite map_map. split; [exact NL'|].
      intros n pa I. apply in_map_iff in I as (np & E & I). injection E as <- <-. destruct np as [n pa]. destruct (Q n pa I) as (g & c0 & I' & A & B).
      destruct (R8 g I') as (p0 & rest & C1 & C2). exists p0, (rest ++ [c0]). cbn. rewrite A in C1. split; [exact C1|]. rewrite B, C2. now rewrite <- app_assoc.
    + intros g I. apply In_nth_error in I as [j I]. specialize (P j). rewrite I in P. destruct (nth_error base j) as [g2|] eqn:G2; [|discriminate].
      cbn in P. injection P as P1 P2. rewrite P1, P2. eapply R8, nth_error_In; eauto.
  - cbn [crun1]. rewrite <- R4.
    destruct (nth_error (cw_pures w) i) as [p|] eqn:Ep.
    + destruct (Forall2_nth_l _ _ _ R5 i p Ep) as (p' & Ep' & Pc & Pf & Pk & Pk'). rewrite Ep'. unfold pctx_merge.
      destruct (merge_ghost (pc_counts p) base) as (ns & F & NN & Q). rewrite R1, R2, (F K _ Pk). rewrite <- Pc, (F K' (pc_keys p')).
      2:{ intros n pa I. apply (Pk' n pa). now rewrite <- Pc. }
      cbn [rbind]. rewrite <- Pf. destruct (R7 p (nth_error_In _ _ Ep)) as [NP R7'].
      assert (DN : dict_of ns = ns). { apply dict_of_nodup. unfold keys. rewrite NN. exact NP. }
      exists (base ++ map (fun np => (fst np, 0, snd np)) (pc_counts p)). split; [|reflexivity].
      constructor; cbn [fst add_ctx set_streams cw_streams cw_ctxs cw_pures cw_trace]; auto; [now rewrite R3| |].
      * intros y Hy. apply in_app_iff in Hy as [Hy|[<-|[]]].
        -- destruct (R6 y Hy) as [A B]. split; [exact A|]. intros n j Hj. destruct (B n j Hj) as (g' & G' & E'). exists g'. split; [|exact E'].
           rewrite nth_error_app1; [exact G'|]. apply nth_error_Some. congruence.
        -- cbn [x_rngs]. rewrite DN. split; [unfold keys; rewrite NN; exact NP|]. intros n j Hj. apply Q. now apply dget_In.
      * intros g I. apply in_app_iff in I as [I|I]; [auto|]. apply in_map_iff in I as ([n pa] & <- & I). cbn. apply R7'. exact I.
    + replace (nth_error (cw_pures w') i) with (@None pctx).
      2:{ symmetry. apply nth_error_None. apply nth_error_None in Ep. rewrite <- (Forall2_length _ _ _ R5). exact Ep. }
      exists base. split; [exact R|reflexivity].
  - exists base. split; [|reflexivity]. destruct R; constructor; auto.
Qed.

Lemma run_rel P0 K K' ops : forall base w w', wrel P0 K K' base w w' -> Forall no_new ops ->
  Forall2 (fun o oo => keyed P0 K K' o (fst oo) (snd oo)) ops (combine (snd (crun blake w ops)) (snd (crun blake w' ops))) /\
  List.length (snd (crun blake w ops)) = List.length ops /\ List.length (snd (crun blake w' ops)) = List.length ops.
Proof.
  induction ops as [|o ops IH]; intros base w w' R N; [cbn; auto|].
  inversion N as [|? ? N1 N2]; subst. destruct (step_rel P0 K K' base w w' o R N1) as (base' & R' & Y).
  destruct (IH base' _ _ R' N2) as (A & B & C). rewrite !crun_cons. cbn [snd combine List.length].
  split; [constructor; auto|]. rewrite B, C. auto.
Qed.

(** ** The contexts of the layers *)
Definition root (pc : pctx) (name : string) : key := match dget name (pc_keys pc) with Some k => k | None => KArr 0 end.
Definition layer_root (p : string -> bool) (n : nat) (pc : pctx) (i : nat) (name : string) : key :=
  if p name then KSplit (root pc name) n i else root pc name.

Lemma dget_step_keys p n pc i name : dget name (pc_keys (step_keys p n pc i)) =
  option_map (fun k => if p name then KSplit k n i else k) (dget name (pc_keys pc)).
Proof.
  cbn [step_keys pc_keys]. induction (pc_keys pc) as [|[m k] l IH]; [reflexivity|].
  cbn [filter fst dget]. destruct (String.eqb_spec name m) as [->|Hne].
  - destruct (p m) eqn:E; cbn [negb map app dget fst snd].
    + now rewrite String.eqb_refl.
    + clear IH. assert (H : forall l2 : dict key, dget m (map (fun nk => (fst nk, KSplit (snd nk) n i)) (filter (fun nk : string * key => p (fst nk)) l) ++ (m, k) :: l2) = Some k).
      { intros l2. induction l as [|[m' k'] l IH]; [cbn; now rewrite String.eqb_refl|]. cbn [filter fst]. destruct (p m') eqn:E2; [|exact IH].
        cbn [map app dget fst snd]. destruct (String.eqb_spec m m') as [->|?]; [congruence|exact IH]. }
      apply H.
  - destruct (p m) eqn:E; cbn [negb map app dget fst snd].
    + apply String.eqb_neq in Hne. rewrite Hne. exact IH.
    + rewrite <- IH. apply String.eqb_neq in Hne. clear IH. induction (map (fun nk => (fst nk, KSplit (snd nk) n i)) (filter (fun nk : string * key => p (fst nk)) l)) as [|[a b] l1 IH1]; cbn [app dget fst snd].
      * now rewrite Hne.
      * destruct (String.eqb name a); [reflexivity|exact IH1].
Qed.

Definition wf_pctx (pc : pctx) : Prop := NoDup (map fst (pc_counts pc)) /\ forall name path, In (name, path) (pc_counts pc) -> In name (keys (pc_keys pc)).

Lemma alone_rel t p n pc i : wf_pctx pc ->
  exists base, wrel (fun name => dget name (pc_counts pc)) (root pc) (layer_root p n pc i) base (alone t pc) (alone t (step_keys p n pc i)).
Proof.
  intros [N H]. unfold alone, pctx_merge. destruct (merge_ghost (pc_counts pc) []) as (ns & F & NN & Q). cbn [map app] in F, Q.
  change (pc_counts (step_keys p n pc i)) with (pc_counts pc).
  assert (PR : pure_of (root pc) pc).
  { intros name path I. unfold root. destruct (dget name (pc_keys pc)) eqn:D; [reflexivity|]. apply dget_None in D. exfalso. eauto. }
  rewrite (F (root pc) (pc_keys pc) PR). rewrite (F (layer_root p n pc i) (pc_keys (step_keys p n pc i))).
  2:{ intros name path I. rewrite dget_step_keys, (PR name path I). reflexivity. }
  cbn [rbind]. change (pc_flags (step_keys p n pc i)) with (pc_flags pc).
  assert (DN : dict_of ns = ns). { apply dict_of_nodup. unfold keys. rewrite NN. exact N. }
  exists (map (fun np => (fst np, 0, snd np)) (pc_counts pc)). constructor; cbn [cw_streams cw_ctxs cw_pures cw_trace]; auto.
  - intros x [<-|[]]. cbn [x_rngs]. rewrite DN. split; [unfold keys; rewrite NN; exact N|]. intros name j Hj. apply Q. now apply dget_In.
  - intros q [].
  - intros g I. apply in_map_iff in I as ([name path] & <- & I). cbn. exists path, []. split; [apply In_dget; auto|now rewrite app_nil_r].
Qed.

Theorem layer_keys t p n pc i ops : wf_pctx pc -> Forall no_new ops ->
  Forall2 (fun o oo => keyed (fun name => dget name (pc_counts pc)) (root pc) (layer_root p n pc i) o (fst oo) (snd oo)) ops
    (combine (snd (crun blake (alone t pc) ops)) (snd (crun blake (alone t (step_keys p n pc i)) ops))) /\
  List.length (snd (crun blake (alone t pc) ops)) = List.length ops /\
  List.length (snd (crun blake (alone t (step_keys p n pc i)) ops)) = List.length ops.
Proof. intros W N. destruct (alone_rel t p n pc i W) as [base R]. eapply run_rel; eauto. Qed.

(** what call number [j] returns in a layer *)
Theorem layer_nth t p n pc i ops j o : wf_pctx pc -> Forall no_new ops -> nth_error ops j = Some o ->
  exists out out', nth_error (snd (crun blake (alone t pc) ops)) j = Some out /\
    nth_error (snd (crun blake (alone t (step_keys p n pc i)) ops)) j = Some out' /\
    keyed (fun name => dget name (pc_counts pc)) (root pc) (layer_root p n pc i) o out out'.
Proof.
  intros W N Hj. destruct (layer_keys t p n pc i ops W N) as (A & B & C).
  destruct (Forall2_nth_l _ _ _ A j o Hj) as ([out out'] & E & Y). exists out, out'.
  assert (L : j < List.length ops) by (apply nth_error_Some; congruence).
  assert (G : forall l l' : list cout, nth_error (combine l l') j = Some (out, out') -> nth_error l j = Some out /\ nth_error l' j = Some out').
  { clear. revert j. induction j as [|j IH]; intros [|a l] [|b l'] H; try discriminate; cbn in *; [injection H as -> ->; auto|auto]. }
  destruct (G _ _ E). auto.
Qed.

Lemma partition_wf cur x ss pc ss' : NoDup (keys (x_rngs x)) -> context_partition cur x ss = (Ok pc, ss') -> wf_pctx pc.
Proof.
  intros N P. unfold context_partition in P. destruct (negb _); [discriminate|].
  destruct (fork_all (x_rngs x) ss) as [[fs|e] ss1] eqn:F; [|discriminate]. cbn in P. injection P as <- <-.
  destruct (fork_all_names _ _ _ _ F) as [KN _].
  split; cbn [pc_counts pc_keys].
  - rewrite map_map. cbn. change (NoDup (map fst fs)). rewrite KN. exact N.
  - intros name path I. rewrite dict_of_nodup.
    + apply in_map_iff in I as (nf & E & I). injection E as <- <-. unfold keys. rewrite map_map. cbn. now apply in_map with (f := fst).
    + unfold keys. rewrite map_map. cbn. change (NoDup (map fst fs)). rewrite KN. exact N.
Qed.

(** the fork of a stream of the parent *)
Lemma partition_paths cur x ss pc ss' name : NoDup (keys (x_rngs x)) -> NoDup (map snd (x_rngs x)) -> context_partition cur x ss = (Ok pc, ss') ->
  forall i s, dget name (x_rngs x) = Some i -> nth_error ss i = Some s ->
  dget name (pc_counts pc) = Some (s_path s ++ [s_count s]) /\ dget name (pc_keys pc) = Some (s_key s).
Proof.
  intros N N2 P i s D S. unfold context_partition in P. destruct (negb _); [discriminate|].
  destruct (fork_all (x_rngs x) ss) as [[fs|e] ss1] eqn:F; [|discriminate]. cbn in P. injection P as <- <-.
  destruct (fork_all_names _ _ _ _ F) as [KN _].
  assert (Nf : NoDup (map fst fs)) by (rewrite KN; exact N).
  cbn [pc_counts pc_keys]. rewrite dict_of_nodup.
  2:{ unfold keys. rewrite map_map. exact Nf. }
  assert (I : In (name, mkStream (s_key s) 0 (s_path s ++ [s_count s])) fs).
  { clear - F D S N2. apply dget_In in D. revert ss fs ss1 F S N2 D. induction (x_rngs x) as [|[m a] items IH]; intros ss fs ss1 F S N2 D; [destruct D|].
    cbn [fork_all] in F. destruct (nth_error ss a) as [sa|] eqn:A; [|discriminate]. destruct (fork_all items _) as [[fs2|e] ss2] eqn:F2; [|discriminate].
    cbn in F. injection F as <- <-. inversion N2 as [|? ? Na N2']; subst. destruct D as [E|D].
    - injection E as <- <-. left. congruence.
    - right. eapply IH; eauto. rewrite nth_list_set_other; [exact S|]. intros ->. apply Na. cbn. apply in_map_iff. exists (name, i). auto. }
  split; apply In_dget.
  - unfold keys. rewrite map_map. exact Nf.
  - apply in_map_iff. eexists. split; [|exact I]. reflexivity.
  - unfold keys. rewrite map_map. exact Nf.
  - apply in_map_iff. eexists. split; [|exact I]. reflexivity.
Qed.
End Layers.
