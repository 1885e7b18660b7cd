(** Tracers_proofs: the invariant behind C88. *)
From Coq Require Import Lia.
From Verif Require Import PyBase PyBaseFacts TracersM Spec_Tracers.
Local Open Scope string_scope.
Local Open Scope nat_scope.
Local Open Scope list_scope.

(** ** the contexts are restored *)
Definition same_ctx (s s' : tstate) : Prop := ts_mains s' = ts_mains s /\ ts_dyn s' = ts_dyn s /\ ts_nnx s' = ts_nnx s.
Lemma same_ctx_refl s : same_ctx s s. Proof. repeat split. Qed.
Lemma same_ctx_trans a b c : same_ctx a b -> same_ctx b c -> same_ctx a c.
Proof. unfold same_ctx. intuition congruence. Qed.
Definition grows (h h' : list tmod) : Prop :=
  forall r o, nth_error h r = Some o -> exists o', nth_error h' r = Some o' /\ tm_jax o' = tm_jax o /\ tm_nnx o' = tm_nnx o.
Lemma grows_refl h : grows h h. Proof. intros r o O. eauto. Qed.
Lemma grows_trans a b c : grows a b -> grows b c -> grows a c.
Proof. intros A B r o O. destruct (A r o O) as (o1 & O1 & J1 & N1). destruct (B r o1 O1) as (o2 & O2 & J2 & N2). exists o2. intuition congruence. Qed.
Lemma grows_app h l : grows h (h ++ l).
Proof. intros r o O. exists o. rewrite nth_error_app1; [auto|]. apply nth_error_Some. congruence. Qed.

Lemma tsetattr_frame s r a x s' res : tsetattr s r a x = (s', res) ->
  same_ctx s s' /\ ts_next s' = ts_next s /\ ts_idle s' = ts_idle s /\ ts_escaped s' = ts_escaped s /\ grows (ts_heap s) (ts_heap s') /\ res <> Raised Escaped.
Proof.
  unfold tsetattr. intros E. destruct (nth_error (ts_heap s) r) as [o|] eqn:O; [destruct (is_valid s o)|]; injection E as <- <-;
    (split; [repeat split|]); (do 3 (split; [reflexivity|])); (split; [|discriminate]); try apply grows_refl.
  intros r' o' O'. cbn. destruct (Nat.eq_dec r' r) as [->|N].
  - rewrite nth_list_set_same by (apply nth_error_Some; congruence). eexists. split; [reflexivity|]. cbn. rewrite O in O'. injection O' as <-. auto.
  - rewrite nth_list_set_other by auto. eauto.
Qed.
Lemma twrite_back_frame d : forall s r s' res, twrite_back s r d = (s', res) ->
  same_ctx s s' /\ ts_next s' = ts_next s /\ ts_idle s' = ts_idle s /\ ts_escaped s' = ts_escaped s /\ grows (ts_heap s) (ts_heap s') /\ res <> Raised Escaped.
Proof.
  induction d as [|[a x] d IH]; intros s r s' res E; cbn [twrite_back] in E.
  - injection E as <- <-. split; [apply same_ctx_refl|]. repeat (split; [reflexivity|]). split; [apply grows_refl|discriminate].
  - destruct (tsetattr s r a x) as [s1 res1] eqn:T. pose proof (tsetattr_frame _ _ _ _ _ _ T) as (C1 & X1 & I1 & E1 & G1 & R1). destruct res1 as [|e].
    + apply IH in E as (C2 & X2 & I2 & E2 & G2 & R2). split; [eapply same_ctx_trans; eauto|]. repeat (split; [congruence|]). split; [eapply grows_trans; eauto|auto].
    + injection E as <- <-. auto 8.
Qed.

Definition popped (k : kind) (l : list main) : list main := match k with KNnxJit | KNnxGrad => tl l | _ => l end.
Lemma popped_inner k dyn args diff l : popped k (inner_nnx k dyn args diff l) = l.
Proof. now destruct k. Qed.
Lemma enter_call_frame s e k m args self sel s2 e2 t tgt : enter_call s e k m args self sel = inr (s2, e2, t, tgt) ->
  ts_mains s2 = t :: ts_mains s /\ t = mkMain (ts_next s) (List.length (ts_mains s)) /\ ts_next s2 = S (ts_next s) /\
  popped k (ts_nnx s2) = ts_nnx s /\ grows (ts_heap s) (ts_heap s2) /\ ts_escaped s2 = ts_escaped s /\ (ts_idle s = true -> ts_idle s2 = true).
Proof.
  unfold enter_call. destruct (values _ _) as [vs|]; [|discriminate].
  destruct (takes_module k), m as [m|]; try discriminate.
  - destruct (dget m e) as [[x|r]|]; try discriminate. destruct (nth_error (ts_heap s) r) as [o|]; [|discriminate].
    set (s1 := enter s k _ _ _ _). destruct (current_nnx_trace s1) as [n|]; [|discriminate]. intros [= <- <- <- <-]. cbn [set_heap ts_mains ts_next ts_nnx ts_heap ts_escaped ts_idle].
    subst s1. unfold enter. cbn [ts_mains ts_next ts_nnx ts_escaped ts_idle]. rewrite popped_inner. repeat (split; [reflexivity|]). split; [apply grows_app|]. split; [reflexivity|]. now intros ->.
  - intros [= <- <- <- <-]. unfold enter. cbn [ts_mains ts_next ts_nnx ts_escaped ts_idle ts_heap]. rewrite popped_inner. repeat (split; [reflexivity|]). split; [apply grows_refl|]. split; [reflexivity|]. now intros ->.
Qed.

Lemma trun_frame p : forall s e s' e' r, trun p s e = (s', e', r) ->
  same_ctx s s' /\ ts_next s <= ts_next s' /\ grows (ts_heap s) (ts_heap s') /\ (ts_idle s = true -> ts_idle s' = true).
Proof.
  induction p as [|p IHp q IHq|p IHp q IHq|x|x m a|m a x|x ys low|k sf body IH m args self sel outs pick]; intros s e s' e' r E; cbn [trun] in E.
  - injection E as <- <- <-. split; [apply same_ctx_refl|]. auto using grows_refl.
  - destruct (trun p s e) as [[s1 e1] [|x]] eqn:P; pose proof (IHp _ _ _ _ _ P) as (C & N & G & I).
    + apply IHq in E as (C2 & N2 & G2 & I2). split; [eapply same_ctx_trans; eauto|]. split; [lia|]. split; [eapply grows_trans; eauto|auto].
    + injection E as <- <- <-. auto.
  - destruct (trun p s e) as [[s1 e1] [|x]] eqn:P; pose proof (IHp _ _ _ _ _ P) as (C & N & G & I).
    + injection E as <- <- <-. auto.
    + apply IHq in E as (C2 & N2 & G2 & I2). split; [eapply same_ctx_trans; eauto|]. split; [lia|]. split; [eapply grows_trans; eauto|auto].
  - destruct (current_nnx_trace s); injection E as <- <- <-; (split; [repeat split|]); cbn; (split; [lia|]); split; auto using grows_refl, grows_app.
  - destruct (dget m e) as [[v|r0]|]; [|destruct (nth_error (ts_heap s) r0) as [o|]; [destruct (dget a (tm_vars o))|]|]; injection E as <- <- <-; (split; [repeat split|]); auto using grows_refl.
  - assert (K : forall s0, (s, e, Raised s0) = (s', e', r) -> same_ctx s s' /\ ts_next s <= ts_next s' /\ grows (ts_heap s) (ts_heap s') /\ (ts_idle s = true -> ts_idle s' = true)).
    { intros s0 [= <- <- <-]. split; [apply same_ctx_refl|]. auto using grows_refl. }
    destruct (dget m e) as [[v|r0]|]; destruct (dget x e) as [[v'|r1]|]; try exact (K _ E).
    destruct (tsetattr s r0 a v') as [s1 r1] eqn:T. injection E as <- <- <-. apply tsetattr_frame in T as (C1 & X1 & I1 & E1 & G1 & R1).
    split; [exact C1|]. split; [lia|]. split; [exact G1|]. congruence.
  - destruct (values e ys) as [vs|]; [destruct (forallb _ vs)|]; injection E as <- <- <-; (split; [repeat split|]); auto using grows_refl.
  - destruct (enter_call s e k m args self sel) as [x|[[[s2 e2] t] tgt]] eqn:EC.
    { injection E as <- <- <-. split; [apply same_ctx_refl|]. auto using grows_refl. }
    apply enter_call_frame in EC as (M2 & T & N2 & P2 & G2 & X2 & I2).
    destruct (trun body s2 e2) as [[s3 e3] r3] eqn:B. pose proof (IH _ _ _ _ _ B) as ((M3 & D3 & NN3) & N3 & G3 & I3).
    assert (L : same_ctx s (leave s3 k (ts_dyn s)) /\ ts_next s <= ts_next (leave s3 k (ts_dyn s)) /\ grows (ts_heap s) (ts_heap (leave s3 k (ts_dyn s))) /\
                (ts_idle s = true -> ts_idle (leave s3 k (ts_dyn s)) = true)).
    { unfold same_ctx, leave. cbn. rewrite M3, M2. cbn. split; [split; [reflexivity|split; [reflexivity|]]|].
      - rewrite NN3. exact P2.
      - split; [lia|]. split; [eapply grows_trans; eauto|auto]. }
    destruct r3 as [|x]; [|injection E as <- <- <-; exact L].
    destruct (results (ts_mains s) t pick e3 outs e) as [e4|]; [|injection E as <- <- <-; exact L].
    destruct tgt as [[r0 copy]|]; [|injection E as <- <- <-; exact L]. destruct sf; [|injection E as <- <- <-; exact L].
    destruct (twrite_back (leave s3 k (ts_dyn s)) r0 (updates s3 (ts_mains s) t pick copy)) as [s5 r5] eqn:TW.
    apply twrite_back_frame in TW as (C5 & X5 & I5 & E5 & G5 & R5). destruct L as (LC & LN & LG & LI).
    assert (L : same_ctx s s5 /\ ts_next s <= ts_next s5 /\ grows (ts_heap s) (ts_heap s5) /\ (ts_idle s = true -> ts_idle s5 = true)).
    { split; [eapply same_ctx_trans; eauto|]. split; [lia|]. split; [eapply grows_trans; eauto|]. intros H. rewrite I5. auto. }
    destruct r5; injection E as <- <- <-; exact L.
Qed.

(** ** the invariant *)
Definition suffix (T l : list main) : Prop := exists l', l = l' ++ T.
Definition lin (T : list main) (x : leaf) : Prop := match x with Conc => True | Tr m => In m T /\ 0 < mt_level m end.
Fixpoint levels (l : list main) : Prop := match l with [] => True | m :: r => mt_level m = List.length r /\ levels r end.

Record ctx_ok (s : tstate) : Prop := {
  c_levels : levels (ts_mains s);
  c_ids : NoDup (map mt_id (ts_mains s));
  c_fresh : forall m, In m (ts_mains s) -> mt_id m < ts_next s;
  c_dyn : In (ts_dyn s) (ts_mains s);
  c_nnx : exists n, hd_error (ts_nnx s) = Some n /\ In n (ts_mains s) /\
            exists t r, ts_mains s = t :: r /\ (t = ts_dyn s \/ t = n) }.
Definition obj_ok (mains : list main) (next : nat) (o : tmod) : Prop :=
  mt_id (tm_jax o) < next /\ mt_id (tm_nnx o) < next /\
  forall T, suffix T mains -> In (tm_jax o) T -> In (tm_nnx o) T -> forall a x, In (a, x) (tm_vars o) -> lin T x.
Definition heap_ok (mains : list main) (next : nat) (h : list tmod) : Prop := forall r o, nth_error h r = Some o -> obj_ok mains next o.
Definition var_ok (mains : list main) (h : list tmod) (v : tvar) : Prop :=
  match v with
  | XVal x => lin mains x
  | XMod r => exists o, nth_error h r = Some o /\ In (tm_jax o) mains /\ In (tm_nnx o) mains
  end.
Definition env_ok (mains : list main) (h : list tmod) (e : env) : Prop := forall x v, dget x e = Some v -> var_ok mains h v.
Record good (s : tstate) (e : env) : Prop := {
  g_ctx : ctx_ok s;
  g_heap : heap_ok (ts_mains s) (ts_next s) (ts_heap s);
  g_env : env_ok (ts_mains s) (ts_heap s) e }.

Lemma suffix_refl l : suffix l l. Proof. now exists []. Qed.
Lemma suffix_cons T m l : suffix T (m :: l) -> T = m :: l \/ suffix T l.
Proof. intros [[|x l'] E]; cbn in E; [left; congruence|]. right. injection E as -> ->. now exists l'. Qed.
Lemma suffix_tl T m l : suffix T l -> suffix T (m :: l).
Proof. intros [l' ->]. now exists (m :: l'). Qed.
Lemma suffix_In T l m : suffix T l -> In m T -> In m l.
Proof. intros [l' ->] I. apply in_or_app. auto. Qed.
Lemma suffix_top T t r : NoDup (map mt_id (t :: r)) -> suffix T (t :: r) -> In t T -> T = t :: r.
Proof.
  intros N Sf I. apply suffix_cons in Sf as [|Sf]; auto. exfalso. cbn in N. inversion N as [|? ? N1 N2]; subst. apply N1.
  apply in_map. eapply suffix_In; eauto.
Qed.
Lemma same_main l a b : NoDup (map mt_id l) -> In a l -> In b l -> is_main a b = true -> a = b.
Proof.
  intros N A B E. unfold is_main in E. apply Nat.eqb_eq in E. induction l as [|x l IH]; [easy|]. cbn in N. inversion N as [|? ? N1 N2]; subst.
  destruct A as [<-|A], B as [<-|B]; auto.
  - exfalso. apply N1. rewrite E. now apply in_map.
  - exfalso. apply N1. rewrite <- E. now apply in_map.
Qed.
Lemma lin_mono T T' x : (forall m, In m T -> In m T') -> lin T x -> lin T' x.
Proof. destruct x; cbn; intuition. Qed.
Lemma levels_lt l m : levels l -> In m l -> mt_level m < List.length l.
Proof. induction l as [|x l IH]; intros L I; [easy|]. destruct L as [L1 L2]. cbn. destruct I as [<-|I]; [lia|]. specialize (IH L2 I). lia. Qed.

Lemma env_grows mains h h' e : grows h h' -> env_ok mains h e -> env_ok mains h' e.
Proof.
  intros G E x v D. specialize (E x v D). destruct v as [y|r]; cbn in *; auto. destruct E as (o & O & J & N).
  destruct (G r o O) as (o' & O' & J' & N'). exists o'. rewrite J', N'. auto.
Qed.
Lemma env_set mains h e x v : env_ok mains h e -> var_ok mains h v -> env_ok mains h (dset x v e).
Proof. intros E V y w D. rewrite dget_dset in D. destruct (String.eqb y x); [congruence|eauto]. Qed.
Lemma env_push mains h e t : env_ok mains h e -> env_ok (t :: mains) h e.
Proof.
  intros E x v D. specialize (E x v D). destruct v as [y|r]; cbn in *.
  - eapply lin_mono; [|exact E]. intros; now right.
  - destruct E as (o & O & J & N). exists o. auto.
Qed.
Lemma heap_push mains next h t : mt_id t = next -> heap_ok mains next h -> heap_ok (t :: mains) (S next) h.
Proof.
  intros F H r o O. destruct (H r o O) as (J & N & V). split; [lia|]. split; [lia|]. intros T Sf IJ IN a x D.
  apply suffix_cons in Sf as [->|Sf]; [|eauto]. apply (lin_mono mains); [intros; now right|].
  apply (V mains (suffix_refl _)) with (a := a); auto.
  - destruct IJ as [E|]; auto. rewrite <- E in J. lia.
  - destruct IN as [E|]; auto. rewrite <- E in N. lia.
Qed.
Lemma heap_pop mains next next' h t : next <= next' -> heap_ok (t :: mains) next h -> heap_ok mains next' h.
Proof.
  intros L H r o O. destruct (H r o O) as (J & N & V). split; [lia|]. split; [lia|]. intros T Sf. apply V. now apply suffix_tl.
Qed.
Lemma heap_app mains next h o : heap_ok mains next h -> obj_ok mains next o -> heap_ok mains next (h ++ [o]).
Proof.
  intros H K r o' O. destruct (Nat.lt_ge_cases r (List.length h)) as [L|L].
  - rewrite nth_error_app1 in O by auto. eauto.
  - rewrite nth_error_app2 in O by auto. destruct (r - List.length h) as [|n]; cbn in O; [congruence|]. now destruct n.
Qed.

Lemma In_dset {A} a (x : A) k v d : In (a, x) (dset k v d) -> x = v \/ In (a, x) d.
Proof.
  induction d as [|[k' v'] d IH]; cbn.
  - intros [[= <- <-]|[]]; auto.
  - destruct (String.eqb k k'); intros [E|I]; auto.
    + injection E as <- <-. auto.
    + destruct (IH I); auto.
Qed.
(** an object of the current context takes any usable value *)
Lemma obj_here s o : ctx_ok s -> is_valid s o = true -> In (tm_jax o) (ts_mains s) -> In (tm_nnx o) (ts_mains s) ->
  (forall a x, In (a, x) (tm_vars o) -> lin (ts_mains s) x) -> obj_ok (ts_mains s) (ts_next s) o.
Proof.
  intros C V J N K. destruct C as [CL CI CF CD (n & HN & IN & t & r & M & TOP)]. split; [auto|]. split; [auto|].
  unfold is_valid, current_nnx_trace in V. rewrite HN in V. apply andb_prop in V as [V1 V2]. change (current_jax_trace s) with (ts_dyn s) in V1.
  apply (same_main (ts_mains s)) in V1; auto. apply (same_main (ts_mains s)) in V2; auto.
  intros T Sf JT NT a x D. assert (T = ts_mains s) as ->; [|eauto]. rewrite M in *. apply suffix_top; auto.
  destruct TOP as [->| ->]; congruence.
Qed.

Lemma tsetattr_good s e r a x s' res : good s e -> lin (ts_mains s) x -> var_ok (ts_mains s) (ts_heap s) (XMod r) ->
  tsetattr s r a x = (s', res) -> good s' e.
Proof.
  intros [C H E] L (o & O & J & N) T. pose proof (tsetattr_frame _ _ _ _ _ _ T) as ((M' & D' & NN') & X' & _ & _ & G & _).
  unfold tsetattr in T. rewrite O in T. destruct (is_valid s o) eqn:V; injection T as <- <-; [|constructor; auto].
  constructor; cbn in *; [destruct C; constructor; auto| |eapply env_grows; eauto].
  intros r' o' O'. destruct (Nat.eq_dec r' r) as [->|Ne].
  - rewrite nth_list_set_same in O' by (apply nth_error_Some; congruence). injection O' as <-. apply obj_here; auto.
    cbn. intros a' x' Dx. apply In_dset in Dx as [->|Dx]; [exact L|].
    destruct (H r o O) as (_ & _ & K). apply (K (ts_mains s) (suffix_refl _) J N a' x' Dx).
  - rewrite nth_list_set_other in O' by auto. eauto.
Qed.
Lemma twrite_back_good e r : forall d s s' res, good s e -> (forall a x, In (a, x) d -> lin (ts_mains s) x) ->
  var_ok (ts_mains s) (ts_heap s) (XMod r) -> twrite_back s r d = (s', res) -> good s' e.
Proof.
  induction d as [|[a x] d IH]; intros s s' res G L V E; cbn [twrite_back] in E; [now injection E as <- <-|].
  destruct (tsetattr s r a x) as [s1 res1] eqn:T. pose proof (tsetattr_good _ _ _ _ _ _ _ G (L a x (or_introl eq_refl)) V T) as G1.
  apply tsetattr_frame in T as ((M1 & _ & _) & _ & _ & _ & Gr & _). destruct res1; [|now injection E as <- <-].
  eapply IH; eauto.
  - rewrite M1. intros a' x' I. apply (L a' x'). now right.
  - rewrite M1. cbn in *. destruct V as (o & O & J & N). destruct (Gr r o O) as (o' & O' & J' & N'). exists o'. rewrite J', N'. auto.
Qed.

(** ** the top trace *)
Lemma top_tracer_In xs t : top_tracer xs = Some t -> In (Tr t) xs.
Proof.
  revert t. induction xs as [|[|m] xs IH]; intros t; cbn [top_tracer]; [discriminate|intros H; right; auto|].
  destruct (top_tracer xs) as [u|] eqn:U; [destruct (mt_level m <? mt_level u)|]; intros E; injection E as <-; cbn; auto.
Qed.
Lemma top_tracer_max xs m : In (Tr m) xs -> exists t, top_tracer xs = Some t /\ mt_level m <= mt_level t.
Proof.
  induction xs as [|[|u] xs IH]; intros I; [easy| |].
  - destruct I as [|I]; [discriminate|]. cbn [top_tracer]. auto.
  - cbn [top_tracer]. destruct I as [E|I]; [injection E as ->|].
    + destruct (top_tracer xs) as [v|]; [|eauto]. destruct (mt_level m <? mt_level v) eqn:L; [|eauto]. exists v. apply Nat.ltb_lt in L. split; auto. lia.
    + destruct (IH I) as (v & -> & L). destruct (mt_level u <? mt_level v) eqn:L'; [eauto|]. exists u. split; auto. apply Nat.ltb_ge in L'. lia.
Qed.
Lemma find_top_In mains dyn xs : In dyn mains -> (forall x, In x xs -> lin mains x) -> In (find_top_trace dyn xs) mains.
Proof.
  intros D L. unfold find_top_trace. destruct (top_tracer xs) as [t|] eqn:T; auto. destruct (_ <? _); auto.
  apply top_tracer_In in T. now apply (L (Tr t)).
Qed.
Lemma find_top_new mains t dyn xs : levels (t :: mains) -> In dyn (t :: mains) -> In (Tr t) xs ->
  (forall x, In x xs -> lin (t :: mains) x) -> find_top_trace dyn xs = t.
Proof.
  intros [LV LS] D I L. unfold find_top_trace. destruct (top_tracer_max _ _ I) as (u & U & LE). rewrite U.
  assert (In u (t :: mains)) as [Eu|Iu]; [apply top_tracer_In in U; now apply (L (Tr u))| |].
  - subst u. destruct (mt_level t <? mt_level dyn) eqn:E; auto. apply Nat.ltb_lt in E. destruct D as [->|D]; auto. apply (levels_lt _ _ LS) in D. lia.
  - apply (levels_lt _ _ LS) in Iu. lia.
Qed.
Lemma leaves_map l : tree_leaves (PNode (map PLeaf l)) = l.
Proof. cbn. induction l as [|x l IH]; [reflexivity|]. cbn. now rewrite IH. Qed.
Lemma leaves_args l : tree_leaves (PNode [PNode (map PLeaf l); PNode []]) = l.
Proof. pose proof (leaves_map l) as H. cbn in *. rewrite H. now rewrite app_nil_r. Qed.

Lemma values_ok mains h e : env_ok mains h e -> forall xs vs, values e xs = Some vs -> forall v, In v vs -> lin mains v.
Proof.
  intros E. induction xs as [|x xs IH]; intros vs V v I; cbn in V; [injection V as <-; easy|].
  destruct (dget x e) as [[u|]|] eqn:D; try discriminate. destruct (values e xs) as [us|]; [|discriminate]. injection V as <-.
  destruct I as [<-|I]; [|eapply IH; eauto]. exact (E x _ D).
Qed.
Lemma bind_args_ok mains h : forall ps vs e, env_ok mains h e -> (forall v, In v vs -> lin mains v) -> env_ok mains h (bind_args ps vs e).
Proof.
  induction ps as [|p ps IH]; intros [|v vs] e E L; cbn; auto. apply IH; [|intros u I; apply L; now right].
  apply env_set; auto. apply (L v). now left.
Qed.
Lemma In_given t sel d a x : In (a, x) (map (pass t sel) d) -> x = Tr t \/ In (a, x) d.
Proof.
  intros I. apply in_map_iff in I as ([n y] & E & I). unfold pass in E. cbn in E. injection E as -> <-. destruct (sel a); auto.
Qed.


Lemma enter_good s e k m args self sel s2 e2 t tgt : good s e -> k <> KLocal -> enter_call s e k m args self sel = inr (s2, e2, t, tgt) ->
  ts_idle s2 = false -> good s2 e2 /\
  (forall r copy, tgt = Some (r, copy) -> var_ok (ts_mains s) (ts_heap s) (XMod r) /\ var_ok (ts_mains s2) (ts_heap s2) (XMod copy)) /\
  (ts_dyn s2 = t \/ hd_error (ts_nnx s2) = Some t).
Proof.
  intros [C H E] K EC ID. pose proof (enter_call_frame _ _ _ _ _ _ _ _ _ _ _ EC) as (M2 & T & N2 & _ & GR & _ & _).
  destruct C as [CL CI CF CD (n & HN & IN & tt0 & rr & M & TOP)].
  unfold enter_call in EC. destruct (values _ _) as [vs|] eqn:VS; [|discriminate]. rewrite <- T in EC.
  set (inner := map (pass_arg k t) (combine (map snd args) vs)) in *.
  assert (CL' : levels (t :: ts_mains s)). { split; auto. now rewrite T. }
  assert (CI' : NoDup (map mt_id (t :: ts_mains s))).
  { cbn. constructor; auto. intros I. apply in_map_iff in I as (m' & I1 & I2). apply CF in I2. rewrite T in I1. cbn in I1. lia. }
  assert (LT : lin (t :: ts_mains s) (Tr t)).
  { cbn. split; auto. rewrite T. cbn. rewrite M. cbn. lia. }
  assert (LI : forall v, In v inner -> lin (t :: ts_mains s) v).
  { intros v I. subst inner. apply in_map_iff in I as ([b u] & <- & I). apply in_combine_r in I.
    assert (lin (t :: ts_mains s) u) by (eapply lin_mono; [|eapply values_ok; eauto]; intros; now right).
    unfold pass_arg. cbn. destruct k, b; auto. }
  assert (E1 : forall e0, env_ok (ts_mains s) (ts_heap s) e0 -> env_ok (t :: ts_mains s) (ts_heap s) (bind_args (map (fun a => snd (fst a)) args) inner e0)).
  { intros e0 E0. apply bind_args_ok; auto. now apply env_push. }
  assert (HP : heap_ok (t :: ts_mains s) (S (ts_next s)) (ts_heap s)). { apply heap_push; auto. now rewrite T. }
  assert (FR : forall m', In m' (t :: ts_mains s) -> mt_id m' < S (ts_next s)).
  { intros m' [<-|I]; [rewrite T; cbn; lia|]. apply CF in I. lia. }
  destruct (takes_module k) eqn:TM, m as [m|]; try discriminate.
  - destruct (dget m e) as [[x|r]|] eqn:Dm; try discriminate. destruct (nth_error (ts_heap s) r) as [o|] eqn:O; [|discriminate].
    set (given := map (pass t sel) (tm_vars o)) in *. set (diff := map snd (filter (is_selected sel) given)) in *.
    set (idle := match k with KNnxGrad => _ | _ => _ end) in *. set (s1 := enter s k t inner diff idle) in *.
    pose proof (E m _ Dm) as Vr. cbn in Vr. destruct Vr as (o' & O' & OJ & ON). rewrite O in O'. injection O' as <-.
    assert (LG : forall a x, In (a, x) given -> lin (t :: ts_mains s) x).
    { intros a x I. apply In_given in I as [->|I]; auto. apply (lin_mono (ts_mains s)); [intros; now right|].
      destruct (H r o O) as (_ & _ & V). exact (V _ (suffix_refl _) OJ ON a x I). }
    assert (LD : forall x, In x diff -> lin (t :: ts_mains s) x).
    { intros x I. subst diff. apply in_map_iff in I as ([a y] & <- & I). apply filter_In in I as [I _]. exact (LG a y I). }
    assert (DY : In (ts_dyn s1) (t :: ts_mains s)). { subst s1. unfold enter. cbn. destruct (dynamic k); [now left|now right]. }
    destruct (current_nnx_trace s1) as [n1|] eqn:CN; [|discriminate]. injection EC as <- <- <-. cbn [ts_idle set_heap] in ID.
    assert (NN : In n1 (t :: ts_mains s) /\ (ts_dyn s1 = t \/ n1 = t)).
    { subst s1. unfold current_nnx_trace, enter in CN. cbn [ts_nnx] in CN. unfold enter. cbn [ts_dyn ts_idle enter] in *. unfold enter in DY. cbn [ts_dyn] in DY.
      destruct k; try discriminate TM; cbn [inner_nnx hd_error dynamic] in *.
      - unfold get_top_trace in CN. rewrite leaves_args in CN. injection CN as <-. split; auto. apply find_top_In; auto.
      - rewrite HN in CN. injection CN as <-. split; auto. now right.
      - unfold get_top_trace in CN. rewrite leaves_map in CN. injection CN as <-. split; [apply find_top_In; auto|]. right.
        apply orb_false_elim in ID as [_ ID]. subst idle. apply negb_false_iff in ID. apply existsb_exists in ID as ([a y] & I & TR).
        apply (find_top_new (ts_mains s)); auto. subst diff. apply in_map_iff. exists (a, y). split.
        + subst given. apply in_map_iff in I as ([a' y'] & Ep & I). unfold pass in Ep. cbn in Ep. injection Ep as -> <-. unfold is_traced in TR. cbn in TR. cbn. now destruct (sel a).
        + apply filter_In. split; auto. unfold is_traced in TR. unfold is_selected. cbn in *. now destruct (sel a). }
    destruct NN as (NI & NT).
    assert (HO : heap_ok (t :: ts_mains s) (S (ts_next s)) (ts_heap s ++ [mkTmod (ts_dyn s1) n1 given])).
    { apply heap_app; auto. split; [apply FR; exact DY|]. split; [apply FR; exact NI|]. cbn. intros T' Sf J1 N1 a x I.
      apply suffix_top in Sf; auto; [|destruct NT as [Q|Q]; rewrite <- Q; auto]. rewrite Sf. eauto. }
    assert (VC : var_ok (t :: ts_mains s) (ts_heap s ++ [mkTmod (ts_dyn s1) n1 given]) (XMod (List.length (ts_heap s)))).
    { cbn. eexists. rewrite nth_error_app2, Nat.sub_diag by lia. split; [reflexivity|]. auto. }
    split; [|split].
    + constructor; cbn [set_heap ts_mains ts_next ts_heap].
      * constructor; cbn [set_heap ts_mains ts_next ts_dyn ts_nnx]; auto. exists n1. split; [exact CN|]. split; [exact NI|].
        exists t, (ts_mains s). split; [reflexivity|]. destruct NT; auto.
      * exact HO.
      * apply env_set; auto. eapply env_grows; [|apply E1; auto]. apply grows_app.
    + intros r' copy [= <- <-]. split; [|exact VC]. cbn. eauto.
    + cbn [set_heap ts_dyn ts_nnx]. destruct NT as [Q|Q]; [left; exact Q|right; rewrite <- Q; exact CN].
  - injection EC as <- <- <-. cbn [enter ts_idle] in ID.
    assert (k = KDynamic) as -> by (destruct k; try discriminate; congruence).
    split; [|split; [discriminate|now left]]. constructor; cbn; auto.
    constructor; cbn; auto. exists n. split; auto. split; auto. exists t, (ts_mains s). auto.
Qed.

Lemma lowered_ok outer t pick x : levels (t :: outer) -> NoDup (map mt_id (t :: outer)) -> lin (t :: outer) x -> lin outer (lowered outer t pick x).
Proof.
  intros [_ L] N I. unfold lowered. destruct (nth_error outer pick) as [u|] eqn:U.
  - unfold leaf_of. destruct (Nat.eqb (mt_level u) 0) eqn:Z; [exact Logic.I|]. apply Nat.eqb_neq in Z. cbn. split; [eapply nth_error_In; eauto|lia].
  - destruct x as [|m]; [exact Logic.I|]. destruct (is_main m t) eqn:Em; [exact Logic.I|]. cbn in *. destruct I as [[->|I] LV]; auto.
    unfold is_main in Em. rewrite Nat.eqb_refl in Em. discriminate.
Qed.
Lemma results_ok outer t pick h inner hi : levels (t :: outer) -> NoDup (map mt_id (t :: outer)) -> env_ok (t :: outer) hi inner ->
  forall outs e e', env_ok outer h e -> results outer t pick inner outs e = Some e' -> env_ok outer h e'.
Proof.
  intros L N I. induction outs as [|[x y] outs IH]; intros e e' E R; cbn in R; [now injection R as <-|].
  destruct (dget x inner) as [[v|]|] eqn:D; try discriminate. eapply IH; [|exact R]. apply env_set; auto. cbn. apply lowered_ok; auto. exact (I x _ D).
Qed.
Lemma op_result_ok s vs low : ctx_ok s -> (forall v, In v vs -> lin (ts_mains s) v) -> lin (ts_mains s) (op_result s vs low).
Proof.
  intros C L. assert (K : forall m, In m (ts_mains s) -> lin (ts_mains s) (leaf_of m)).
  { intros m I. unfold leaf_of. destruct (Nat.eqb (mt_level m) 0) eqn:Z; [exact Logic.I|]. apply Nat.eqb_neq in Z. cbn. split; auto. lia. }
  assert (T : In (find_top_trace (ts_dyn s) vs) (ts_mains s)) by (apply find_top_In; auto; apply (c_dyn s C)).
  unfold op_result. destruct low as [i|]; auto. destruct (nth_error (ts_mains s) i) as [m|] eqn:E; auto. destruct (_ <? _); auto.
  apply K. eapply nth_error_In; eauto.
Qed.
Lemma live_ok s x : lin (ts_mains s) x -> TracersM.live s x = true.
Proof. destruct x as [|m]; [reflexivity|]. intros [I _]. cbn. apply existsb_exists. exists m. split; auto. unfold is_main. apply Nat.eqb_refl. Qed.

Lemma leave_good s e s3 e3 k sx ex : good s e -> ts_mains sx = mkMain (ts_next s) (List.length (ts_mains s)) :: ts_mains s -> popped k (ts_nnx sx) = ts_nnx s ->
  ts_next s <= ts_next s3 -> good s3 e3 -> same_ctx sx s3 -> grows (ts_heap s) (ts_heap s3) -> env_ok (ts_mains s) (ts_heap s3) ex -> good (leave s3 k (ts_dyn s)) ex.
Proof.
  intros [C H E] M P NX [C3 H3 E3] (M3 & D3 & NN3) G EX. rewrite M in M3.
  destruct C as [CL CI CF CD CN].
  assert (X : match k with KNnxJit | KNnxGrad => tl (ts_nnx s3) | _ => ts_nnx s3 end = ts_nnx s) by (rewrite NN3; exact P).
  constructor; unfold leave; cbn [ts_mains ts_next ts_heap]; rewrite M3; cbn [tl].
  - constructor; cbn [ts_mains ts_next ts_heap ts_dyn ts_nnx]; rewrite ?M3; cbn [tl]; auto.
    + intros m I. apply CF in I. lia.
    + rewrite X. exact CN.
  - rewrite M3 in H3. eapply heap_pop; [|exact H3]. lia.
  - exact EX.
Qed.

Lemma trun_good p : guarded p -> forall s e s' e' r, good s e -> trun p s e = (s', e', r) -> ts_idle s' = false ->
  good s' e' /\ ts_escaped s' = ts_escaped s /\ r <> Raised Escaped.
Proof.
  induction p as [|p IHp q IHq|p IHp q IHq|x|x m a|m a x|x ys low|k sf body IH m args self sel outs pick]; intros GD s e s' e' r G E ID; cbn [trun] in E; cbn [guarded] in GD.
  - injection E as <- <- <-. split; [auto|]. split; [reflexivity|discriminate].
  - destruct GD as [GP GQ]. destruct (trun p s e) as [[s1 e1] [|x]] eqn:P.
    + pose proof (trun_frame _ _ _ _ _ _ E) as (_ & _ & _ & I2). assert (I1 : ts_idle s1 = false) by (destruct (ts_idle s1); auto; now rewrite I2 in ID).
      destruct (IHp GP _ _ _ _ _ G P I1) as (G1 & E1 & _). destruct (IHq GQ _ _ _ _ _ G1 E ID) as (G2 & E2 & R2). split; [exact G2|]. split; [congruence|exact R2].
    + injection E as <- <- <-. eauto.
  - destruct GD as [GP GQ]. destruct (trun p s e) as [[s1 e1] [|x]] eqn:P.
    + injection E as <- <- <-. eauto.
    + pose proof (trun_frame _ _ _ _ _ _ E) as (_ & _ & _ & I2). assert (I1 : ts_idle s1 = false) by (destruct (ts_idle s1); auto; now rewrite I2 in ID).
      destruct (IHp GP _ _ _ _ _ G P I1) as (G1 & E1 & _). destruct (IHq GQ _ _ _ _ _ G1 E ID) as (G2 & E2 & R2). split; [exact G2|]. split; [congruence|exact R2].
  - destruct G as [C H EN]. destruct C as [CL CI CF CD (n & HN & IN & TOP)] eqn:CC. unfold current_nnx_trace in E. rewrite HN in E. injection E as <- <- <-.
    split; [|split; [reflexivity|discriminate]]. change (current_jax_trace s) with (ts_dyn s).
    assert (HH : heap_ok (ts_mains s) (ts_next s) (ts_heap s ++ [mkTmod (ts_dyn s) n []])).
    { apply heap_app; auto. split; [apply CF; auto|]. split; [apply CF; auto|]. cbn. tauto. }
    constructor; cbn [set_heap ts_mains ts_next ts_heap]; auto.
    + destruct TOP as (t & rr & M & TT). constructor; cbn; auto. exists n. eauto 8.
    + apply env_set; [eapply env_grows; [apply grows_app|exact EN]|]. cbn. eexists. rewrite nth_error_app2, Nat.sub_diag by lia. split; [reflexivity|]. auto.
  - assert (K : forall x0, x0 <> Escaped -> (s, e, Raised x0) = (s', e', r) -> good s' e' /\ ts_escaped s' = ts_escaped s /\ r <> Raised Escaped).
    { intros x0 N [= <- <- <-]. split; auto. split; [reflexivity|congruence]. }
    destruct (dget m e) as [[v|r0]|] eqn:Dm; [eapply K; [|exact E]; discriminate| |eapply K; [|exact E]; discriminate].
    destruct G as [C H EN]. pose proof (EN m _ Dm) as (o & O & J & N). rewrite O in E.
    destruct (dget a (tm_vars o)) as [v|] eqn:D; [|eapply K; [|exact E]; discriminate].
    injection E as <- <- <-. split; [|split; [reflexivity|discriminate]]. constructor; auto. apply env_set; auto. cbn.
    destruct (H r0 o O) as (_ & _ & V). apply (V _ (suffix_refl _) J N a v). now apply dget_In.
  - assert (K : forall x0, x0 <> Escaped -> (s, e, Raised x0) = (s', e', r) -> good s' e' /\ ts_escaped s' = ts_escaped s /\ r <> Raised Escaped).
    { intros x0 N [= <- <- <-]. split; auto. split; [reflexivity|congruence]. }
    destruct (dget m e) as [[v|r0]|] eqn:Dm; destruct (dget x e) as [[v'|r1]|] eqn:Dx; try (eapply K; [|exact E]; discriminate).
    destruct (tsetattr s r0 a v') as [s1 r1] eqn:T. injection E as <- <- <-.
    pose proof (g_env _ _ G m _ Dm) as V1. pose proof (g_env _ _ G x _ Dx) as V2.
    split; [exact (tsetattr_good _ _ _ _ _ _ _ G V2 V1 T)|]. apply tsetattr_frame in T as (_ & _ & _ & X & _ & R). auto.
  - destruct (values e ys) as [vs|] eqn:V; [|injection E as <- <- <-; split; auto; split; [reflexivity|discriminate]].
    assert (L : forall v, In v vs -> lin (ts_mains s) v) by (eapply values_ok; [exact (g_env _ _ G)|exact V]).
    assert (F : forallb (TracersM.live s) vs = true) by (apply forallb_forall; intros v I; apply live_ok; auto). rewrite F in E. injection E as <- <- <-.
    split; [|split; [reflexivity|discriminate]]. destruct G as [C H EN]. constructor; auto. apply env_set; auto. cbn. now apply op_result_ok.
  - destruct GD as [GK GB].
    destruct (enter_call s e k m args self sel) as [x|[[[s2 e2] t] tgt]] eqn:EC.
    { injection E as <- <- <-. split; auto. split; [reflexivity|].
      intros [= ->]. clear - EC. unfold enter_call in EC. destruct (values _ _); [|discriminate]. destruct (takes_module k), m; try discriminate.
      destruct (dget v e) as [[y|y]|]; try discriminate. destruct (nth_error _ _); [|discriminate]. destruct (current_nnx_trace _); discriminate. }
    pose proof (enter_call_frame _ _ _ _ _ _ _ _ _ _ _ EC) as (M2 & T & N2 & P2 & G2 & X2 & I2).
    destruct (trun body s2 e2) as [[s3 e3] r3] eqn:B. pose proof (trun_frame _ _ _ _ _ _ B) as (SC & N3 & G3 & I3).
    assert (LI : ts_idle (leave s3 k (ts_dyn s)) = ts_idle s3) by reflexivity.
    assert (ID3 : ts_idle s3 = false).
    { destruct r3 as [|x]; [|injection E as <- <- <-; exact ID].
      destruct (results (ts_mains s) t pick e3 outs e) as [e4|]; [|injection E as <- <- <-; exact ID].
      destruct tgt as [[r0 copy]|]; [|injection E as <- <- <-; exact ID]. destruct sf; [|injection E as <- <- <-; exact ID].
      destruct (twrite_back (leave s3 k (ts_dyn s)) r0 (updates s3 (ts_mains s) t pick copy)) as [s5 r5] eqn:TW.
      apply twrite_back_frame in TW as (_ & _ & I5 & _). destruct r5; injection E as <- <- <-; congruence. }
    assert (ID2 : ts_idle s2 = false) by (destruct (ts_idle s2); auto; now rewrite I3 in ID3).
    destruct (enter_good _ _ _ _ _ _ _ _ _ _ _ G GK EC ID2) as (GD2 & TG & _).
    destruct (IH GB _ _ _ _ _ GD2 B ID3) as (GD3 & X3 & R3).
    assert (GR : grows (ts_heap s) (ts_heap s3)) by (eapply grows_trans; eauto).
    rewrite T in M2. assert (LG : forall ex, env_ok (ts_mains s) (ts_heap s3) ex -> good (leave s3 k (ts_dyn s)) ex).
    { intros ex EX. eapply leave_good; eauto. lia. }
    assert (EN : env_ok (ts_mains s) (ts_heap s3) e) by (eapply env_grows; [exact GR|exact (g_env _ _ G)]).
    assert (LE : ts_escaped (leave s3 k (ts_dyn s)) = ts_escaped s) by (cbn; congruence).
    pose proof (c_levels _ (g_ctx _ _ GD2)) as CL2. pose proof (c_ids _ (g_ctx _ _ GD2)) as CI2. rewrite M2, <- T in CL2, CI2.
    destruct r3 as [|x]; [|injection E as <- <- <-; auto].
    destruct (results (ts_mains s) t pick e3 outs e) as [e4|] eqn:RS; [|injection E as <- <- <-; split; [auto|split; [exact LE|discriminate]]].
    assert (E4 : env_ok (ts_mains s) (ts_heap s3) e4).
    { eapply results_ok; [exact CL2|exact CI2| |exact EN|exact RS]. pose proof (g_env _ _ GD3) as K. destruct SC as (M3 & _). rewrite M3, M2, <- T in K. exact K. }
    destruct tgt as [[r0 copy]|]; [|injection E as <- <- <-; split; [auto|split; [exact LE|discriminate]]].
    destruct sf; [|injection E as <- <- <-; split; [auto|split; [exact LE|discriminate]]].
    destruct (twrite_back (leave s3 k (ts_dyn s)) r0 (updates s3 (ts_mains s) t pick copy)) as [s5 r5] eqn:TW.
    destruct (TG r0 copy eq_refl) as (V0 & VC).
    assert (V0' : var_ok (ts_mains (leave s3 k (ts_dyn s))) (ts_heap (leave s3 k (ts_dyn s))) (XMod r0)).
    { destruct (g_ctx _ _ (LG e EN)). unfold leave. cbn [ts_mains ts_heap]. destruct SC as (M3 & _). rewrite M3, M2. cbn [tl]. destruct V0 as (o & O & J & N). destruct (GR r0 o O) as (o' & O' & J' & N'). exists o'. rewrite J', N'. auto. }
    assert (UP : forall a x, In (a, x) (updates s3 (ts_mains s) t pick copy) -> lin (ts_mains (leave s3 k (ts_dyn s))) x).
    { intros a x I. unfold updates in I. destruct VC as (c & Oc & Jc & Nc). destruct (G3 copy c Oc) as (c' & Oc' & Jc' & Nc'). rewrite Oc' in I.
      apply in_map_iff in I as ([a' x'] & Ep & I). cbn in Ep. injection Ep as -> <-.
      unfold leave. cbn [ts_mains]. destruct SC as (M3 & _). rewrite M3, M2. cbn [tl]. apply lowered_ok; auto.
      destruct (g_heap _ _ GD3 copy c' Oc') as (_ & _ & V). rewrite T, <- M2, <- M3. apply (V _ (suffix_refl _)) with (a := a); auto; rewrite M3.
      - rewrite Jc'. exact Jc.
      - rewrite Nc'. exact Nc. }
    pose proof (fun ex EX => twrite_back_good ex r0 _ _ _ _ (LG ex EX) UP V0' TW) as G5.
    apply twrite_back_frame in TW as (_ & _ & _ & X5 & _ & R5). destruct r5; injection E as <- <- <-; (split; [auto|split; [congruence|auto]]).
Qed.

Lemma start_good : good start [].
Proof.
  constructor; cbn.
  - constructor; cbn; auto.
    + constructor; [easy|constructor].
    + intros m [<-|[]]. cbn. lia.
    + exists base. split; auto. split; auto. exists base, []. auto.
  - intros r o O. now destruct r.
  - intros x v D. discriminate.
Qed.
Lemma point_good s e : point s e -> ts_idle s = false -> good s e /\ ts_escaped s = false.
Proof.
  induction 1 as [|p s e s' e' r P IH GD E|k m args self sel s e s' e' t target P IH K E]; intros ID.
  - split; [apply start_good|reflexivity].
  - pose proof (trun_frame _ _ _ _ _ _ E) as (_ & _ & _ & I). assert (I0 : ts_idle s = false) by (destruct (ts_idle s); auto; now rewrite I in ID).
    destruct (IH I0) as (G & X). destruct (trun_good p GD _ _ _ _ _ G E ID) as (G' & X' & _). split; [auto|congruence].
  - pose proof (enter_call_frame _ _ _ _ _ _ _ _ _ _ _ E) as (_ & _ & _ & _ & _ & X & I). assert (I0 : ts_idle s = false) by (destruct (ts_idle s); auto; now rewrite I in ID).
    destruct (IH I0) as (G & X0). destruct (enter_good _ _ _ _ _ _ _ _ _ _ _ G K E ID) as (G' & _). split; [auto|congruence].
Qed.
Lemma guard_raises s e k m args self sel s2 e2 t target x r a v : good s e -> k <> KLocal -> enter_call s e k m args self sel = inr (s2, e2, t, target) ->
  ts_idle s2 = false -> dget x e = Some (XMod r) -> tsetattr s2 r a v = (s2, Raised TraceGuard).
Proof.
  intros G K EC ID D. destruct (g_env _ _ G x _ D) as (o & O & J & N). destruct (enter_good _ _ _ _ _ _ _ _ _ _ _ G K EC ID) as (G2 & _ & TOP).
  pose proof (enter_call_frame _ _ _ _ _ _ _ _ _ _ _ EC) as (M2 & T & N2 & _ & GR & _). destruct (GR r o O) as (o' & O' & J' & N').
  unfold tsetattr. rewrite O'. replace (is_valid s2 o') with false; [reflexivity|]. symmetry. unfold is_valid. change (current_jax_trace s2) with (ts_dyn s2).
  assert (F : forall u, In u (ts_mains s) -> is_main u t = false).
  { intros u I. apply (c_fresh _ (g_ctx _ _ G)) in I. unfold is_main. apply Nat.eqb_neq. rewrite T. cbn. lia. }
  rewrite J', N'. unfold current_nnx_trace. destruct TOP as [->| ->]; [now rewrite F|]. rewrite (F _ N). apply andb_false_r.
Qed.
