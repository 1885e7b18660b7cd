(** Proofs about keys drawn in nested calls: every stream owns a region of (key, path) pairs. *)
From Coq Require Import ZArith Lia.
From Verif Require Import PyBase PyBaseFacts ModuleM ContextM ScanM Spec_Context Context_proofs RngNestM Spec_RngNest.
Local Open Scope string_scope.
Local Open Scope nat_scope.
Local Open Scope list_scope.

(** ** Splits of a key *)
Inductive desc (a : key) : key -> Prop :=
| desc_refl : desc a a
| desc_split k n i : desc a k -> desc a (KSplit k n i).
Fixpoint ksize (k : key) : nat := match k with KSplit k' _ _ => S (ksize k') | _ => 0 end.
Lemma desc_trans a b c : desc a b -> desc b c -> desc a c.
Proof. intros H. induction 1; auto using desc_split. Qed.
Lemma desc_size a b : desc a b -> a = b \/ ksize a < ksize b.
Proof. induction 1 as [|k n i H [<-|IH]]; cbn; auto. Qed.
Lemma desc_stem a b : desc a b -> stem a = stem b.
Proof. induction 1; auto. Qed.
Lemma desc_compare a b c : desc a c -> desc b c -> desc a b \/ desc b a.
Proof.
  intros H. revert b. induction H as [|k n i H IH]; intros b Hb; [now right|].
  inversion Hb; subst; [left; now apply desc_split|auto].
Qed.
Lemma split_apart k n i j x : desc (KSplit k n i) x -> desc (KSplit k n j) x -> i = j.
Proof.
  intros A B. destruct (desc_compare _ _ _ A B) as [D|D]; apply desc_size in D as [D|D]; cbn in D; try lia; congruence.
Qed.

(** How often [fold_in] was applied. *)
Fixpoint fdepth (k : key) : nat := match k with KSplit k' _ _ => fdepth k' | KFold k' _ => S (fdepth k') | _ => 0 end.
Lemma desc_fdepth a b : desc a b -> fdepth a = fdepth b.
Proof. induction 1; auto. Qed.
Lemma fdepth_stem k : fdepth (stem k) = fdepth k.
Proof. induction k; auto. Qed.

(** ** Regions *)
Notation pair := (key * counts)%type.
Section Parents.
(** [par k b]: key [k] was split from the key that was derived as [b] says. *)
Variable par : key -> pair -> Prop.
Hypothesis par_fun : forall k a b, par k a -> par k b -> a = b.
Hypothesis par_depth : forall k b, par k b -> fdepth (fst b) < fdepth k.
Hypothesis par_split : forall k n i b, par k b -> par (KSplit k n i) b.

Inductive under : pair -> pair -> Prop :=
| u_refl kp : under kp kp
| u_up k p b a : par k b -> under b a -> under (k, p) a.
Lemma under_depth x a : under x a -> x = a \/ fdepth (fst a) < fdepth (fst x).
Proof. induction 1 as [|k p b a H _ [<-|IH]]; auto; right; apply par_depth in H; cbn; lia. Qed.
Lemma under_chain x a : under x a -> forall b, under x b -> under a b \/ under b a.
Proof.
  induction 1 as [|k p b a H U IH]; intros c Hc; [now left|]. inversion Hc; subst; [right; econstructor; eauto|].
  match goal with Q : par k ?d |- _ => rewrite (par_fun _ _ _ H Q) in * end. auto.
Qed.
Lemma same_level x a b : under x a -> under x b -> fdepth (fst a) = fdepth (fst b) -> a = b.
Proof.
  intros Ha Hb E. destruct (under_chain _ _ Ha _ Hb) as [D|D]; apply under_depth in D as [D|D]; congruence || lia.
Qed.
Lemma under_trans x a b : under x a -> under a b -> under x b.
Proof. induction 1; intros; auto. econstructor; eauto. Qed.
Lemma par_desc k k' b : desc k k' -> par k b -> par k' b.
Proof. induction 1; auto. Qed.

Definition reg0 (s : stream) (kp : pair) : Prop :=
  desc (s_key s) (fst kp) /\ exists c rest, snd kp = s_path s ++ c :: rest /\ s_count s <= c.
Definition slot0 (s : stream) (kp : pair) : Prop :=
  desc (s_key s) (fst kp) /\ exists rest, snd kp = s_path s ++ s_count s :: rest.
Definition reg (s : stream) (kp : pair) : Prop := exists a, under kp a /\ reg0 s a.
Definition slot (s : stream) (kp : pair) : Prop := exists a, under kp a /\ slot0 s a.
Lemma slot_reg s kp : slot s kp -> reg s kp.
Proof. intros (a & U & D & rest & E). exists a. split; [exact U|]. split; [exact D|]. exists (s_count s), rest. auto. Qed.
Lemma bump_reg s kp : reg (bump s) kp -> reg s kp.
Proof. intros (a & U & D & c & rest & E & L). exists a. split; [exact U|]. split; [exact D|]. exists c, rest. cbn in *. split; [exact E|lia]. Qed.
Lemma bump_slot s kp : reg (bump s) kp -> slot s kp -> False.
Proof.
  intros (a & U & D & c & rest & E & L) (b & U' & D' & rest' & E').
  assert (a = b) as <-. { apply (same_level _ _ _ U U'). cbn in D. apply desc_fdepth in D, D'. congruence. }
  cbn in *. rewrite E in E'. apply app_inv_head in E'. injection E'. intros. lia.
Qed.
Lemma fork_slot s kp : reg (mkStream (s_key s) 0 (s_path s ++ [s_count s])) kp -> slot s kp.
Proof.
  intros (a & U & D & c & rest & E & _). exists a. split; [exact U|]. split; [exact D|]. exists (c :: rest). cbn in E. now rewrite <- app_assoc in E.
Qed.
Lemma reg_desc k k' p kp : desc k k' -> reg (mkStream k' 0 p) kp -> reg (mkStream k 0 p) kp.
Proof. intros D (a & U & D' & R). exists a. split; [exact U|]. split; [eapply desc_trans; eauto|exact R]. Qed.
Lemma reg_split_apart k n i j p p' kp : reg (mkStream (KSplit k n i) 0 p) kp -> reg (mkStream (KSplit k n j) 0 p') kp -> i = j.
Proof.
  intros (a & U & D & _) (b & U' & D' & _). cbn in D, D'.
  assert (a = b) as <-. { apply (same_level _ _ _ U U'). apply desc_fdepth in D, D'. cbn in D, D'. congruence. }
  eapply split_apart; eauto.
Qed.
(** What is derived from a drawn key lies under the draw, and is not the draw. *)
Lemma new_under r h q kp : par (KFold r h) q -> reg (mkStream (KFold r h) 0 []) kp -> under kp q /\ kp <> q.
Proof.
  intros H ([k p] & U & D & _). cbn in D. assert (Hk : par k q) by (eapply par_desc; eauto). split.
  - eapply under_trans; [exact U|]. econstructor; [exact Hk|constructor].
  - intros ->. apply under_depth in U. apply par_depth in Hk. destruct U as [->|U]; cbn in *; lia.
Qed.

(** ** The invariant: good streams own disjoint regions outside of [A] *)
Definition inv (ss : list stream) (good : nat -> Prop) (A : pair -> Prop) : Prop :=
  (forall i, good i -> i < List.length ss) /\
  (forall i j si sj kp, good i -> good j -> i <> j -> nth_error ss i = Some si -> nth_error ss j = Some sj ->
     reg si kp -> reg sj kp -> False) /\
  (forall i s kp, good i -> nth_error ss i = Some s -> reg s kp -> A kp -> False).

Lemma inv_weaken ss good (A B : pair -> Prop) : (forall kp, B kp -> A kp) -> inv ss good A -> inv ss good B.
Proof. intros H (I1 & I2 & I3). split; [|split]; eauto. Qed.
Lemma inv_bump ss good A i s : inv ss good A -> nth_error ss i = Some s -> inv (list_set i (bump s) ss) good A.
Proof.
  intros (I1 & I2 & I3) E. assert (Q : forall j sj, nth_error (list_set i (bump s) ss) j = Some sj -> exists s0, nth_error ss j = Some s0 /\ forall kp, reg sj kp -> reg s0 kp).
  { intros j sj H. destruct (Nat.eq_dec i j) as [<-|N].
    - rewrite nth_list_set_same in H by (apply nth_error_Some; congruence). injection H as <-. exists s. split; [exact E|]. apply bump_reg.
    - rewrite nth_list_set_other in H by exact N. exists sj. auto. }
  split; [|split].
  - intros j G. rewrite list_set_length. auto.
  - intros a b sa sb kp Ga Gb N Ea Eb Ra Rb. destruct (Q _ _ Ea) as (s1 & E1 & R1). destruct (Q _ _ Eb) as (s2 & E2 & R2). eauto.
  - intros a sa kp Ga Ea Ra. destruct (Q _ _ Ea) as (s1 & E1 & R1). eauto.
Qed.
Lemma inv_take ss good A i s : inv ss good A -> good i -> nth_error ss i = Some s ->
  inv (list_set i (bump s) ss) good (fun kp => A kp \/ slot s kp) /\ forall kp, slot s kp -> A kp -> False.
Proof.
  intros I G E. pose proof (inv_bump _ _ _ _ _ I E) as (J1 & J2 & J3). destruct I as (I1 & I2 & I3). split; [split; [|split]|]; auto.
  - intros j sj kp Gj Ej Rj [H|H]; [eauto|]. destruct (Nat.eq_dec i j) as [<-|N].
    + rewrite nth_list_set_same in Ej by (apply nth_error_Some; congruence). injection Ej as <-. eapply bump_slot; eauto.
    + rewrite nth_list_set_other in Ej by exact N. eapply (I2 i j); eauto using slot_reg.
  - intros kp H. apply slot_reg in H. eauto.
Qed.
Lemma inv_more ss good A s : inv ss good A -> inv (ss ++ [s]) good A.
Proof.
  intros (I1 & I2 & I3). assert (Q : forall j sj, good j -> nth_error (ss ++ [s]) j = Some sj -> nth_error ss j = Some sj).
  { intros j sj G H. rewrite nth_error_app1 in H; auto. }
  split; [|split]; eauto. intros i G. rewrite app_length. apply I1 in G. lia.
Qed.
Lemma inv_add ss good A s : inv ss good (fun kp => A kp \/ reg s kp) -> (forall kp, reg s kp -> A kp -> False) ->
  inv (ss ++ [s]) (fun i => good i \/ i = List.length ss) A.
Proof.
  intros (I1 & I2 & I3) D.
  assert (Q : forall j sj, good j -> nth_error (ss ++ [s]) j = Some sj -> nth_error ss j = Some sj).
  { intros j sj G H. rewrite nth_error_app1 in H; auto. }
  assert (Q2 : forall sj, nth_error (ss ++ [s]) (List.length ss) = Some sj -> sj = s).
  { intros sj H. rewrite nth_error_app2, Nat.sub_diag in H by lia. now injection H. }
  split; [|split].
  - intros i [G| ->]; rewrite app_length; cbn; [apply I1 in G|]; lia.
  - intros i j si sj kp [Gi| ->] [Gj| ->] N Ei Ej Ri Rj.
    + eauto.
    + apply Q2 in Ej as ->. eapply I3; eauto.
    + apply Q2 in Ei as ->. eapply I3; eauto.
    + congruence.
  - intros i si kp [Gi| ->] Ei Ri H; [eauto|]. apply Q2 in Ei as ->. eauto.
Qed.

Section Names.
Variable P : string -> bool.

Definition envok (env : list context) (good : nat -> Prop) : Prop :=
  forall x, In x env -> NoDup (keys (x_rngs x)) /\ forall name i, P name = true -> dget name (x_rngs x) = Some i -> good i.
Lemma envok_more env (good good' : nat -> Prop) : (forall i, good i -> good' i) -> envok env good -> envok env good'.
Proof. intros H E x I. destruct (E x I) as [N G]. split; eauto. Qed.
Lemma envok_snoc env good x : envok env good -> NoDup (keys (x_rngs x)) -> (forall name i, P name = true -> dget name (x_rngs x) = Some i -> good i) ->
  envok (env ++ [x]) good.
Proof. intros E N G y I. apply in_app_or in I as [I|[<-|[]]]; auto. Qed.

(** ** partition *)
Definition rfork (l : list (string * stream)) (kp : pair) : Prop := exists name f, In (name, f) l /\ P name = true /\ reg f kp.
Definition apart (l : list (string * stream)) : Prop :=
  forall n1 f1 n2 f2 kp, In (n1, f1) l -> In (n2, f2) l -> n1 <> n2 -> P n1 = true -> P n2 = true -> reg f1 kp -> reg f2 kp -> False.

Lemma fork_all_inv good : forall items ss A, inv ss good A -> NoDup (map fst items) ->
  (forall name i, In (name, i) items -> P name = true -> good i) ->
  match fork_all items ss with
  | (Err _, ss') => inv ss' good A
  | (Ok l, ss') => inv ss' good (fun kp => A kp \/ rfork l kp) /\ (forall kp, rfork l kp -> A kp -> False) /\ apart l /\ map fst l = map fst items
  end.
Proof.
  induction items as [|[name i] items IH]; intros ss A I ND G; cbn [fork_all].
  { split; [eapply inv_weaken; [|exact I]|]. - intros kp [H|(n & f & [] & _)]; exact H.
    - split; [intros kp (n & f & [] & _)|split; [intros n1 f1 n2 f2 kp []|reflexivity]]. }
  destruct (nth_error ss i) as [s|] eqn:E; [|exact I]. inversion ND as [|? ? ND1 ND2]; subst.
  set (f := mkStream (s_key s) 0 (s_path s ++ [s_count s])).
  destruct (P name) eqn:Pn.
  - destruct (inv_take _ _ _ _ _ I (G name i (or_introl eq_refl) Pn) E) as [J D].
    specialize (IH _ _ J ND2 (fun n j H => G n j (or_intror H))).
    destruct (fork_all items (list_set i (bump s) ss)) as [[l|e] ss']; cbn [rmap rbind].
    + destruct IH as (J1 & J2 & J3 & J4).
      assert (X1 : forall kp, reg f kp -> rfork l kp -> False).
      { intros kp R H. apply (J2 kp H). right. now apply fork_slot. }
      split; [|split; [|split]].
      * eapply inv_weaken; [|exact J1]. intros kp [H|(n & g & [Q|Q] & Pg & R)]; [auto|injection Q as <- <-; left; right; now apply fork_slot|].
        right. exists n, g. auto.
      * intros kp (n & g & [Q|Q] & Pg & R) H; [injection Q as <- <-; apply (D kp); [now apply fork_slot|exact H]|].
        apply (J2 kp); [exists n, g; auto|auto].
      * intros n1 f1 n2 f2 kp [Q1|Q1] [Q2|Q2] N P1 P2 R1 R2.
        -- congruence.
        -- injection Q1 as <- <-. apply (X1 kp R1). exists n2, f2. auto.
        -- injection Q2 as <- <-. apply (X1 kp R2). exists n1, f1. auto.
        -- eapply J3; [exact Q1|exact Q2|..]; eauto.
      * cbn. now rewrite J4.
    + eapply inv_weaken; [|exact IH]. intros kp H; now left.
  - pose proof (inv_bump _ _ _ _ _ I E) as J.
    specialize (IH _ _ J ND2 (fun n j H => G n j (or_intror H))).
    destruct (fork_all items (list_set i (bump s) ss)) as [[l|e] ss']; cbn [rmap rbind]; [|exact IH].
    destruct IH as (J1 & J2 & J3 & J4).
    assert (X : forall n g, In (n, g) ((name, f) :: l) -> P n = true -> In (n, g) l).
    { intros n g [Q|Q] H; [injection Q as <- <-; congruence|exact Q]. }
    split; [|split; [|split]].
    + eapply inv_weaken; [|exact J1]. intros kp [H|(n & g & Q & Pg & R)]; [auto|]. right. exists n, g. auto.
    + intros kp (n & g & Q & Pg & R) H. apply (J2 kp); [exists n, g; auto|auto].
    + intros n1 f1 n2 f2 kp Q1 Q2 N P1 P2 R1 R2. eapply J3; [apply (X _ _ Q1 P1)|apply (X _ _ Q2 P2)|..]; eauto.
    + cbn. now rewrite J4.
Qed.

(** ** pure contexts *)
Definition rl (ks : dict key) (l : list (string * counts)) (kp : pair) : Prop :=
  exists name path k, In (name, path) l /\ P name = true /\ dget name ks = Some k /\ reg (mkStream k 0 path) kp.
Definition sep (ks : dict key) (l : list (string * counts)) : Prop :=
  NoDup (map fst l) /\
  forall n1 p1 k1 n2 p2 k2 kp, In (n1, p1) l -> In (n2, p2) l -> n1 <> n2 -> P n1 = true -> P n2 = true ->
    dget n1 ks = Some k1 -> dget n2 ks = Some k2 -> reg (mkStream k1 0 p1) kp -> reg (mkStream k2 0 p2) kp -> False.

Lemma partition_inv cur x ss good A : inv ss good A -> NoDup (keys (x_rngs x)) ->
  (forall name i, P name = true -> dget name (x_rngs x) = Some i -> good i) ->
  match context_partition cur x ss with
  | (Err _, ss') => inv ss' good A
  | (Ok pc, ss') => inv ss' good (fun kp => A kp \/ rl (pc_keys pc) (pc_counts pc) kp) /\
      (forall kp, rl (pc_keys pc) (pc_counts pc) kp -> A kp -> False) /\ sep (pc_keys pc) (pc_counts pc)
  end.
Proof.
  intros I N G. unfold context_partition. destruct (negb (trace_ok cur (x_trace x))); [exact I|].
  pose proof (fork_all_inv good (x_rngs x) ss A I N (fun name i H Pn => G name i Pn (In_dget _ _ _ N H))) as F.
  destruct (fork_all (x_rngs x) ss) as [[l|e] ss'] eqn:EF; cbn [rmap rbind]; [|exact F].
  destruct F as (J1 & J2 & J3 & J4).
  cbn [pc_keys pc_counts].
  assert (NL : NoDup (map fst l)) by (rewrite J4; exact N).
  assert (C0 : forall f : stream, In f (map snd l) -> s_count f = 0).
  { clear -EF. revert ss l ss' EF. induction (x_rngs x) as [|[n i] t IH]; intros ss l ss' EF; cbn [fork_all] in EF; [injection EF as <- <-; intros f []|].
    destruct (nth_error ss i) as [s|]; [|discriminate]. destruct (fork_all t _) as [[l2|e2] s2] eqn:E2; cbn in EF; [|discriminate].
    injection EF as <- <-. intros f [<-|H]; [reflexivity|]. eapply IH; eauto. }
  assert (K : forall name, dget name (dict_of (map (fun ns : string * stream => (fst ns, s_key (snd ns))) l)) = option_map s_key (dget name l)).
  { intros name. rewrite dict_of_nodup; [apply dget_map|]. now rewrite keys_map. }
  assert (Q : forall name path k, In (name, path) (map (fun ns : string * stream => (fst ns, s_path (snd ns))) l) ->
      dget name (dict_of (map (fun ns : string * stream => (fst ns, s_key (snd ns))) l)) = Some k -> In (name, mkStream k 0 path) l).
  { intros name path k H D. apply in_map_iff in H as ([n f] & H & HI). injection H as <- <-. cbn [fst snd] in *.
    rewrite K, (In_dget _ _ _ NL HI) in D. injection D as <-.
    assert (C := C0 f (in_map snd _ _ HI)). destruct f as [a b c]. cbn in *. now subst b. }
  split; [|split; [|split]].
  - eapply inv_weaken; [|exact J1]. intros kp [H|(n & p & k & H1 & H2 & H3 & H4)]; [auto|]. right. exists n, (mkStream k 0 p). auto.
  - intros kp (n & p & k & H1 & H2 & H3 & H4) H. apply (J2 kp); [|exact H]. exists n, (mkStream k 0 p). auto.
  - rewrite map_map. exact NL.
  - intros n1 p1 k1 n2 p2 k2 kp H1 H2 Hn P1 P2 D1 D2 R1 R2. eapply (J3 n1 _ n2 _ kp (Q _ _ _ H1 D1) (Q _ _ _ H2 D2)); eauto.
Qed.

Lemma merge_streams_inv ks A : forall l ss good ns ss', inv ss good (fun kp => A kp \/ rl ks l kp) -> (forall kp, rl ks l kp -> A kp -> False) ->
  sep ks l -> merge_streams ks l ss = Ok (ns, ss') ->
  exists good' : nat -> Prop, (forall i, good i -> good' i) /\ inv ss' good' A /\ (forall name i, P name = true -> In (name, i) ns -> good' i).
Proof.
  induction l as [|[name path] l IH]; intros ss good ns ss' I D Sp E; cbn [merge_streams] in E.
  { injection E as <- <-. exists good. split; [auto|]. split; [|intros ? ? ? []]. eapply inv_weaken; [|exact I]. intros kp H; now left. }
  destruct (dget name ks) as [k|] eqn:Dk; [|discriminate].
  destruct (merge_streams ks l (ss ++ [mkStream k 0 path])) as [[ns1 ss1]|] eqn:E1; [|discriminate]. cbn [rbind] in E. injection E as <- <-.
  destruct Sp as [ND Sp]. inversion ND as [|? ? ND1 ND2]; subst.
  assert (Sub : forall kp, rl ks l kp -> rl ks ((name, path) :: l) kp).
  { intros kp (n & p & k0 & H1 & H2). exists n, p, k0. split; [now right|exact H2]. }
  assert (Sp' : sep ks l).
  { split; [exact ND2|]. intros n1 p1 k1 n2 p2 k2 kp H1 H2. apply (Sp n1 p1 k1 n2 p2 k2 kp); now right. }
  assert (J : exists good1 : nat -> Prop, (forall i, good i -> good1 i) /\ (P name = true -> good1 (List.length ss)) /\
             inv (ss ++ [mkStream k 0 path]) good1 (fun kp => A kp \/ rl ks l kp)).
  { destruct (P name) eqn:Pn.
    - exists (fun i => good i \/ i = List.length ss). split; [auto|]. split; [auto|]. apply inv_add.
      + eapply inv_weaken; [|exact I]. intros kp [[H|H]|H]; [auto|right; now apply Sub|]. right. exists name, path, k. split; [now left|auto].
      + intros kp R [H|(n & p & k0 & H1 & H2 & H3 & H4)].
        * apply (D kp); [|exact H]. exists name, path, k. split; [now left|auto].
        * assert (N : name <> n). { intros <-. apply ND1. change name with (fst (name, p)). now apply in_map. }
          eapply (Sp name path k n p k0 kp); eauto; [now left|now right].
    - exists good. split; [auto|]. split; [discriminate|]. apply inv_more. eapply inv_weaken; [|exact I]. intros kp [H|H]; auto. }
  destruct J as (good1 & G1 & G2 & J).
  destruct (IH _ _ _ _ J (fun kp H => D kp (Sub kp H)) Sp' E1) as (good' & G3 & I' & G4).
  exists good'. split; [auto|]. split; [exact I'|]. intros n i Pn [H|H]; [injection H as <- <-; auto|eauto].
Qed.

Lemma merge_inv t pc ss good A x ss' : inv ss good (fun kp => A kp \/ rl (pc_keys pc) (pc_counts pc) kp) ->
  (forall kp, rl (pc_keys pc) (pc_counts pc) kp -> A kp -> False) -> sep (pc_keys pc) (pc_counts pc) ->
  pctx_merge t pc ss = Ok (x, ss') ->
  exists good' : nat -> Prop, (forall i, good i -> good' i) /\ inv ss' good' A /\ NoDup (keys (x_rngs x)) /\
    (forall name i, P name = true -> dget name (x_rngs x) = Some i -> good' i).
Proof.
  intros I D Sp E. unfold pctx_merge in E. destruct (merge_streams (pc_keys pc) (pc_counts pc) ss) as [[ns ss1]|] eqn:E1; [|discriminate].
  cbn [rbind] in E. injection E as <- <-. destruct (merge_streams_inv _ _ _ _ _ _ _ I D Sp E1) as (good' & G1 & I' & G2).
  exists good'. split; [exact G1|]. split; [exact I'|]. cbn [x_rngs]. split; [apply NoDup_keys_dict_of|].
  intros name i Pn H. apply dget_In, dict_of_incl in H. eauto.
Qed.

(** ** the layers of a scan *)
Lemma step_key p n pc i name : p name = true ->
  dget name (pc_keys (step_keys p n pc i)) = option_map (fun k => KSplit k n i) (dget name (pc_keys pc)).
Proof.
  intros H. cbn [step_keys pc_keys]. rewrite dget_app, (dget_map (fun k => KSplit k n i)).
  rewrite (dget_filter_keys p), (dget_filter_keys (fun x => negb (p x))), H. cbn.
  now destruct (dget name (pc_keys pc)).
Qed.
Lemma step_rl p n pc i kp : (forall name, P name = true -> p name = true) ->
  rl (pc_keys (step_keys p n pc i)) (pc_counts (step_keys p n pc i)) kp -> rl (pc_keys pc) (pc_counts pc) kp.
Proof.
  intros H (name & path & k & H1 & H2 & H3 & H4). rewrite step_key in H3 by auto.
  destruct (dget name (pc_keys pc)) as [k0|] eqn:E; [|discriminate]. injection H3 as <-.
  exists name, path, k0. repeat (split; [assumption|]). eapply reg_desc; [|exact H4]. apply desc_split, desc_refl.
Qed.
Lemma step_sep p n pc i : (forall name, P name = true -> p name = true) -> sep (pc_keys pc) (pc_counts pc) ->
  sep (pc_keys (step_keys p n pc i)) (pc_counts (step_keys p n pc i)).
Proof.
  intros H [ND Sp]. split; [exact ND|]. intros n1 p1 k1 n2 p2 k2 kp H1 H2 N P1 P2 D1 D2 R1 R2.
  rewrite step_key in D1, D2 by auto.
  destruct (dget n1 (pc_keys pc)) as [k01|] eqn:E1; [|discriminate]. destruct (dget n2 (pc_keys pc)) as [k02|] eqn:E2; [|discriminate].
  injection D1 as <-. injection D2 as <-.
  eapply (Sp n1 p1 k01 n2 p2 k02 kp); eauto; (eapply reg_desc; [|eassumption]); apply desc_split, desc_refl.
Qed.
Lemma step_apart p n pc i j kp : (forall name, P name = true -> p name = true) -> sep (pc_keys pc) (pc_counts pc) -> i <> j ->
  rl (pc_keys (step_keys p n pc i)) (pc_counts (step_keys p n pc i)) kp -> rl (pc_keys (step_keys p n pc j)) (pc_counts (step_keys p n pc j)) kp -> False.
Proof.
  intros H [ND Sp] N (n1 & p1 & k1 & H1 & P1 & D1 & R1) (n2 & p2 & k2 & H2 & P2 & D2 & R2).
  rewrite step_key in D1, D2 by auto.
  destruct (dget n1 (pc_keys pc)) as [k01|] eqn:E1; [|discriminate]. destruct (dget n2 (pc_keys pc)) as [k02|] eqn:E2; [|discriminate].
  injection D1 as <-. injection D2 as <-. destruct (string_dec n1 n2) as [<-|Nn].
  - rewrite E1 in E2. injection E2 as <-. apply N. eapply reg_split_apart; eauto.
  - eapply (Sp n1 p1 k01 n2 p2 k02 kp); eauto; (eapply reg_desc; [|eassumption]); apply desc_split, desc_refl.
Qed.

(** ** New Contexts *)
Definition root_stream (k : key) : stream := mkStream k 0 [].
Definition rk (l : list (string * key)) (kp : pair) : Prop := exists n k, In (n, k) l /\ P n = true /\ reg (root_stream k) kp.
Definition RR (a b : string * key) : Prop :=
  P (fst a) = true -> P (fst b) = true -> forall kp, reg (root_stream (snd a)) kp -> reg (root_stream (snd b)) kp -> False.
Lemma make_new A : forall l ss good ns ss', inv ss good (fun kp => A kp \/ rk l kp) -> (forall kp, rk l kp -> A kp -> False) ->
  ForallOrdPairs RR l -> make_streams (map (fun nk => (fst nk, ArgKey (snd nk))) l) ss = (ns, ss') ->
  exists good' : nat -> Prop, (forall i, good i -> good' i) /\ inv ss' good' A /\ (forall name i, P name = true -> In (name, i) ns -> good' i).
Proof.
  induction l as [|[name k] l IH]; intros ss good ns ss' I D Sp E; cbn [make_streams map fst snd] in E.
  { injection E as <- <-. exists good. split; [auto|]. split; [|intros ? ? ? []]. eapply inv_weaken; [|exact I]. intros kp H; now left. }
  destruct (make_streams (map (fun nk => (fst nk, ArgKey (snd nk))) l) (ss ++ [mkStream k 0 []])) as [ns1 ss1] eqn:E1. injection E as <- <-.
  inversion Sp as [|? ? Sp1 Sp2]; subst. rewrite Forall_forall in Sp1.
  assert (Sub : forall kp, rk l kp -> rk ((name, k) :: l) kp).
  { intros kp (n & k0 & H1 & H2). exists n, k0. split; [now right|exact H2]. }
  assert (J : exists good1 : nat -> Prop, (forall i, good i -> good1 i) /\ (P name = true -> good1 (List.length ss)) /\
             inv (ss ++ [mkStream k 0 []]) good1 (fun kp => A kp \/ rk l kp)).
  { destruct (P name) eqn:Pn.
    - exists (fun i => good i \/ i = List.length ss). split; [auto|]. split; [auto|]. apply inv_add.
      + eapply inv_weaken; [|exact I]. intros kp [[H|H]|H]; [auto|right; now apply Sub|]. right. exists name, k. split; [now left|auto].
      + intros kp R [H|(n & k0 & H1 & H2 & H3)].
        * apply (D kp); [|exact H]. exists name, k. split; [now left|auto].
        * apply (Sp1 _ H1 Pn H2 kp); auto.
    - exists good. split; [auto|]. split; [discriminate|]. apply inv_more. eapply inv_weaken; [|exact I]. intros kp [H|H]; auto. }
  destruct J as (good1 & G1 & G2 & J).
  destruct (IH _ _ _ _ J (fun kp H => D kp (Sub kp H)) Sp2 E1) as (good' & G3 & I' & G4).
  exists good'. split; [auto|]. split; [exact I'|]. intros n i Pn [H|H]; [injection H as <- <-; auto|eauto].
Qed.
Lemma fop_filter {B} (R : B -> B -> Prop) f l : ForallOrdPairs R l -> ForallOrdPairs R (filter f l).
Proof.
  induction 1 as [|y l H1 H2 IH]; cbn; [constructor|]. destruct (f y); [|exact IH]. constructor; [|exact IH].
  rewrite Forall_forall in *. intros z Hz. apply filter_In in Hz as [Hz _]. auto.
Qed.
Lemma fop_snoc {B} (R : B -> B -> Prop) l y : ForallOrdPairs R l -> Forall (fun z => R z y) l -> ForallOrdPairs R (l ++ [y]).
Proof.
  induction 1 as [|z l H1 H2 IH]; intros F; cbn; [repeat constructor|]. inversion F; subst. constructor; [|auto].
  apply Forall_app. split; [exact H1|]. repeat constructor. assumption.
Qed.
Lemma dset_new {B} k (v : B) d : ~ In k (map fst d) -> dset k v d = d ++ [(k, v)].
Proof.
  induction d as [|[k' v'] d IH]; cbn; intros H; [reflexivity|]. destruct (String.eqb_spec k k') as [->|N]; [exfalso; auto|]. now rewrite IH by auto.
Qed.
Lemma context_new cur kvs ss good A : inv ss good (fun kp => A kp \/ rk kvs kp) -> (forall kp, rk kvs kp -> A kp -> False) -> ForallOrdPairs RR kvs ->
  let '(x, ss') := k_context cur kvs ss in
  exists good' : nat -> Prop, (forall i, good i -> good' i) /\ inv ss' good' A /\ NoDup (keys (x_rngs x)) /\
    (forall name i, P name = true -> dget name (x_rngs x) = Some i -> good' i).
Proof.
  intros I D Sp. unfold k_context, new_context. set (fl := filter (fun nk : string * key => negb (String.eqb (fst nk) "params")) kvs).
  assert (X : exists l, incl l kvs /\ ForallOrdPairs RR l /\
     match option_map ArgKey (dget "params" kvs) with Some p => dset "params" p (map (fun nk => (fst nk, ArgKey (snd nk))) fl)
       | None => map (fun nk => (fst nk, ArgKey (snd nk))) fl end = map (fun nk => (fst nk, ArgKey (snd nk))) l).
  { assert (Hi : incl fl kvs) by (intros z Hz; now apply filter_In in Hz).
    assert (Hf : ForallOrdPairs RR fl) by now apply fop_filter.
    destruct (dget "params" kvs) as [p|] eqn:Ep; cbn [option_map]; [|exists fl; auto].
    apply dget_In in Ep. exists (fl ++ [("params", p)]). split; [|split].
    - intros z Hz. apply in_app_or in Hz as [Hz|[<-|[]]]; auto.
    - apply fop_snoc; [exact Hf|]. apply Forall_forall. intros z Hz. pose proof Hz as Hz'. apply filter_In in Hz as [Hz Hn].
      destruct (ForallOrdPairs_In Sp z _ Hz Ep) as [->|[Q|Q]]; [cbn in Hn; discriminate|exact Q|].
      intros P1 P2 kp R1 R2. exact (Q P2 P1 kp R2 R1).
    - rewrite map_app. apply dset_new. rewrite map_map. intros Q. apply in_map_iff in Q as (z & Ez & Hz). cbn in Ez.
      apply filter_In in Hz as [_ Hz]. rewrite Ez in Hz. discriminate. }
  destruct X as (l & Hl & Fl & ->).
  assert (Sub : forall kp, rk l kp -> rk kvs kp) by (intros kp (n & k & H1 & H2); exists n, k; split; [apply Hl; exact H1|exact H2]).
  destruct (make_streams (map (fun nk => (fst nk, ArgKey (snd nk))) l) ss) as [ns ss'] eqn:Em.
  destruct (make_new A l ss good ns ss') as (good' & G1 & I' & G2); auto.
  { eapply inv_weaken; [|exact I]. intros kp [H|H]; auto. }
  { eauto. }
  exists good'. split; [exact G1|]. split; [exact I'|]. cbn [x_rngs]. split; [apply NoDup_keys_dict_of|].
  intros name i Pn H. apply dget_In, dict_of_incl in H. eauto.
Qed.

Lemma rk_one n k kp : rk [(n, k)] kp -> P n = true /\ reg (root_stream k) kp.
Proof. intros (n0 & k0 & [H|[]] & Pn & R). injection H as <- <-. auto. Qed.

(** ** What a run does *)
Variable blake : string -> nat.
Definition seen (l : list draw) : list pair := map derivation (filter (fun d => P (d_name d)) l).
Definition post (good : nat -> Prop) (A : pair -> Prop) (r : kres) : Prop :=
  let '(ss', l, _) := r in
  exists good' : nat -> Prop, (forall i, good i -> good' i) /\ inv ss' good' (fun kp => A kp \/ In kp (seen l)) /\
    NoDup (seen l) /\ (forall kp, In kp (seen l) -> ~ A kp) /\
    Forall (fun d => d_key d = KFold (d_root d) (stable_hash blake (d_path d))) l.

Lemma seen_app l l' : seen (l ++ l') = seen l ++ seen l'.
Proof. unfold seen. now rewrite filter_app, map_app. Qed.
Lemma post_nil ss good A res : inv ss good A -> post good A (ss, [], res).
Proof.
  intros I. exists good. split; [auto|]. split; [|split; [constructor|split; [intros kp []|constructor]]].
  eapply inv_weaken; [|exact I]. intros kp [H|[]]; exact H.
Qed.
Lemma post_join (good good1 : nat -> Prop) A l r : (forall i, good i -> good1 i) -> NoDup (seen l) -> (forall kp, In kp (seen l) -> ~ A kp) ->
  Forall (fun d => d_key d = KFold (d_root d) (stable_hash blake (d_path d))) l ->
  post good1 (fun kp => A kp \/ In kp (seen l)) r -> post good A (let '(ss', l', res') := r in (ss', l ++ l', res')).
Proof.
  destruct r as [[ss' l'] res']. intros G1 N1 D1 F1 (good2 & G2 & I2 & N2 & D2 & F2).
  exists good2. split; [auto|]. rewrite seen_app. split; [|split; [|split]].
  - eapply inv_weaken; [|exact I2]. intros kp [Q|Q]; [auto|]. apply in_app_or in Q as [Q|Q]; auto.
  - assert (D3 : forall kp, In kp (seen l') -> ~ In kp (seen l)) by (intros kp Q R; apply (D2 kp Q); now right).
    revert N1 N2 D3. generalize (seen l) as a, (seen l') as b. clear. induction a as [|y a IH]; intros b Na Nb D; [exact Nb|].
    inversion Na; subst. cbn. constructor.
    + intros Q. apply in_app_or in Q as [Q|Q]; [contradiction|]. apply (D y Q). now left.
    + apply IH; auto. intros kp Q R. apply (D kp Q). now right.
  - intros kp Q R. apply in_app_or in Q as [Q|Q]; [now apply (D1 kp)|]. apply (D2 kp Q). now left.
  - now apply Forall_app.
Qed.
Lemma post_then good A a f : post good A a ->
  (forall good' : nat -> Prop, (forall i, good i -> good' i) -> inv (fst (fst a)) good' (fun kp => A kp \/ In kp (seen (snd (fst a)))) ->
     post good' (fun kp => A kp \/ In kp (seen (snd (fst a)))) (f (snd a) (fst (fst a)))) ->
  post good A (k_then a f).
Proof.
  destruct a as [[ss l] res]. cbn [fst snd]. intros (good1 & G1 & I1 & N1 & D1 & F1) H. eapply post_join; eauto.
Qed.
Lemma post_weaken (good good0 : nat -> Prop) (A B : pair -> Prop) r : (forall i, good0 i -> good i) -> (forall kp, B kp -> A kp) -> post good A r -> post good0 B r.
Proof.
  destruct r as [[ss l] res]. intros Hg H (g & G & I & N & D & F). exists g. split; [auto|]. split; [|split; [exact N|split; [|exact F]]].
  - eapply inv_weaken; [|exact I]. intros kp [Q|Q]; auto.
  - intros kp Q R. apply (D kp Q). auto.
Qed.

Lemma draws_inv cur x (Hpar : forall r q, par (KFold r (stable_hash blake q)) (r, q)) : forall args,
  (forall a n, In (a, n) args -> P a = true -> P n = true) -> forall ss good A, inv ss good A ->
  (forall name i, P name = true -> dget name (x_rngs x) = Some i -> good i) ->
  let '(ss1, l, r) := k_draws blake cur x args ss in
  let R := match r with Ok kvs => rk kvs | Err _ => fun _ => False end in
  inv ss1 good (fun kp => (A kp \/ In kp (seen l)) \/ R kp) /\ NoDup (seen l) /\ (forall kp, In kp (seen l) -> ~ A kp) /\
  Forall (fun d => d_key d = KFold (d_root d) (stable_hash blake (d_path d))) l /\
  (forall kp, R kp -> A kp \/ In kp (seen l) -> False) /\ match r with Ok kvs => ForallOrdPairs RR kvs | Err _ => True end.
Proof.
  induction args as [|[a n] args IH]; intros Ha ss good A I Gx; cbn [k_draws].
  { cbn zeta. split; [eapply inv_weaken; [|exact I]; intros kp [[H|[]]|(n & k & [] & _)]; exact H|].
    split; [constructor|]. split; [intros kp []|]. split; [constructor|]. split; [intros kp (n & k & [] & _)|constructor]. }
  assert (E0 : inv ss good (fun kp => (A kp \/ In kp (seen [])) \/ False)) by (eapply inv_weaken; [|exact I]; intros kp [[H|[]]|[]]; exact H).
  assert (Ha' : forall a n, In (a, n) args -> P a = true -> P n = true) by (intros a0 n0 H; apply Ha; now right).
  unfold make_rng. destruct (dget n (x_rngs x)) as [i|] eqn:Di; [|cbn zeta; split; [exact E0|split; [constructor|split; [intros kp []|split; [constructor|tauto]]]]].
  destruct (negb (trace_ok cur (x_trace x))); [cbn zeta; split; [exact E0|split; [constructor|split; [intros kp []|split; [constructor|tauto]]]]|].
  destruct (nth_error ss i) as [s|] eqn:Es; [|cbn zeta; split; [exact E0|split; [constructor|split; [intros kp []|split; [constructor|tauto]]]]].
  unfold draw_of. rewrite Di, Es. set (q := s_path s ++ [s_count s]). set (K := KFold (s_key s) (stable_hash blake q)).
  destruct (P n) eqn:Pn.
  - destruct (inv_take _ _ _ _ _ I (Gx _ _ Pn Di) Es) as [J D]. specialize (IH Ha' _ _ _ J Gx).
    destruct (k_draws blake cur x args (list_set i (bump s) ss)) as [[ss2 l] r]. cbn zeta in IH |- *.
    destruct IH as (J1 & N1 & D1 & F1 & X1 & O1).
    assert (Sq : slot s (s_key s, q)). { exists (s_key s, q). split; [constructor|]. split; [apply desc_refl|]. exists []. reflexivity. }
    assert (SK : forall kp, reg (root_stream K) kp -> slot s kp /\ kp <> (s_key s, q)).
    { intros kp Q. destruct (new_under _ _ _ _ (Hpar (s_key s) q) Q) as [U Ne]. split; [|exact Ne].
      exists (s_key s, q). split; [exact U|]. split; [apply desc_refl|]. exists []. reflexivity. }
    assert (Es' : seen ([mkDraw n (s_key s) q K] ++ l) = (s_key s, q) :: seen l) by (unfold seen; cbn; rewrite Pn; reflexivity).
    rewrite Es'. split; [|split; [|split; [|split; [|split]]]].
    + eapply inv_weaken; [|exact J1]. intros kp [[H|[<-|H]]|H]; auto.
      destruct r as [kvs|e]; cbn [rbind] in H; [|destruct H]. destruct H as (n0 & k0 & [H|H] & P0 & R0).
      * injection H as <- <-. left. left. right. now apply SK.
      * right. exists n0, k0. auto.
    + constructor; [|exact N1]. intros H. apply (D1 _ H). now right.
    + intros kp [<-|H] HA; [now apply (D _ Sq)|]. apply (D1 _ H). now left.
    + constructor; [reflexivity|exact F1].
    + destruct r as [kvs|e]; cbn [rbind]; [|tauto]. intros kp (n0 & k0 & [H|H] & P0 & R0) Q.
      * injection H as <- <-. destruct (SK _ R0) as [S1 S2]. destruct Q as [Q|[<-|Q]]; [now apply (D kp)|now apply S2|]. apply (D1 _ Q). now right.
      * assert (RK : rk kvs kp) by (exists n0, k0; auto). destruct Q as [Q|[<-|Q]]; apply (X1 _ RK); auto.
    + destruct r as [kvs|e]; cbn [rbind]; [|exact Logic.I]. constructor; [|exact O1]. apply Forall_forall. intros [n0 k0] H0 Pa P0 kp R1 R2. cbn [fst snd] in *.
      apply (X1 kp); [exists n0, k0; auto|]. left. right. now apply SK.
  - assert (Pa : P a = false). { destruct (P a) eqn:Pa; [|reflexivity]. rewrite (Ha a n (or_introl eq_refl) Pa) in Pn. discriminate. }
    specialize (IH Ha' _ _ _ (inv_bump _ _ _ _ _ I Es) Gx).
    destruct (k_draws blake cur x args (list_set i (bump s) ss)) as [[ss2 l] r]. cbn zeta in IH |- *.
    destruct IH as (J1 & N1 & D1 & F1 & X1 & O1).
    assert (Es' : seen ([mkDraw n (s_key s) q K] ++ l) = seen l) by (unfold seen; cbn; rewrite Pn; reflexivity).
    assert (Er : forall kp, match (do kvs <- r; Ok ((a, K) :: kvs)) with Ok kvs => rk kvs kp | Err _ => False end ->
                 match r with Ok kvs => rk kvs kp | Err _ => False end).
    { intros kp. destruct r as [kvs|e]; cbn [rbind]; [|tauto]. intros (n0 & k0 & [H|H] & P0 & R0); [injection H as <- <-; congruence|].
      exists n0, k0. auto. }
    rewrite Es'. split; [|split; [|split; [|split; [|split]]]]; auto.
    + eapply inv_weaken; [|exact J1]. intros kp [H|H]; [auto|]. right. specialize (Er kp). destruct r; auto.
    + constructor; [reflexivity|exact F1].
    + intros kp H. specialize (Er kp). specialize (X1 kp). destruct r; auto.
    + destruct r as [kvs|e]; cbn [rbind]; [|exact Logic.I]. constructor; [|exact O1]. apply Forall_forall. intros [n0 k0] _ P1. cbn in P1. congruence.
Qed.

Definition body_ok (cur : trace_state) (b : list context -> list stream -> kres) : Prop :=
  forall env ss good A, inv ss good A -> envok env good -> post good A (b env ss).

Lemma inside_ok t pc env ss good A b :
  inv ss good (fun kp => A kp \/ rl (pc_keys pc) (pc_counts pc) kp) -> (forall kp, rl (pc_keys pc) (pc_counts pc) kp -> A kp -> False) ->
  sep (pc_keys pc) (pc_counts pc) -> envok env good -> body_ok t b -> post good A (k_inside t pc env ss b).
Proof.
  intros I D Sp En Hb. unfold k_inside. destruct (pctx_merge t pc ss) as [[x ss']|e] eqn:E.
  - destruct (merge_inv _ _ _ _ _ _ _ I D Sp E) as (good' & G1 & I' & N & G2).
    eapply post_weaken; [exact G1| |apply Hb; [exact I'|]]; [auto|]. apply envok_snoc; auto. eapply envok_more; eauto.
  - apply post_nil. eapply inv_weaken; [|exact I]. intros kp H; now left.
Qed.

Lemma layers_ok t p n pc env (b : nat -> list context -> list stream -> kres) :
  (forall name, P name = true -> p name = true) -> sep (pc_keys pc) (pc_counts pc) -> (forall i, body_ok t (b i)) ->
  forall is ss good A, NoDup is ->
  inv ss good (fun kp => A kp \/ exists i, In i is /\ rl (pc_keys (step_keys p n pc i)) (pc_counts (step_keys p n pc i)) kp) ->
  (forall kp i, In i is -> rl (pc_keys (step_keys p n pc i)) (pc_counts (step_keys p n pc i)) kp -> A kp -> False) -> envok env good ->
  post good A (k_layers is (fun i ss1 => k_inside t (step_keys p n pc i) env ss1 (b i)) ss).
Proof.
  intros Hp Sp Hb. induction is as [|i is IH]; intros ss good A ND I D En; cbn [k_layers].
  { apply post_nil. eapply inv_weaken; [|exact I]. intros kp H; now left. }
  inversion ND as [|? ? ND1 ND2]; subst.
  set (R := fun kp => exists j, In j is /\ rl (pc_keys (step_keys p n pc j)) (pc_counts (step_keys p n pc j)) kp) in *.
  assert (H1 : post good (fun kp => A kp \/ R kp) (k_inside t (step_keys p n pc i) env ss (b i))).
  { apply inside_ok; auto.
    - eapply inv_weaken; [|exact I]. intros kp [[H|(j & H & Q)]|H]; [auto| |]; right; [exists j|exists i]; split; auto; [now right|now left].
    - intros kp H [Q|(j & Hj & Q)]; [now apply (D kp i (or_introl eq_refl))|].
      assert (N : i <> j) by (intros <-; contradiction). eapply step_apart; eauto.
    - now apply step_sep. }
  destruct (k_inside t (step_keys p n pc i) env ss (b i)) as [[ss1 l1] res] eqn:E1. unfold k_then.
  destruct H1 as (good1 & G1 & I1 & N1 & D1 & F1).
  assert (H2 : post good1 (fun kp => A kp \/ In kp (seen l1)) (match res with Err e => (ss1, [], Err e) | Ok _ => k_layers is (fun i ss1 => k_inside t (step_keys p n pc i) env ss1 (b i)) ss1 end)).
  { destruct res as [[]|e].
    - apply IH; auto.
      + eapply inv_weaken; [|exact I1]. intros kp [[H|H]|H]; auto.
      + intros kp j Hj H [Q|Q]; [now apply (D kp j (or_intror Hj))|]. apply (D1 kp Q). right. exists j. auto.
      + eapply envok_more; eauto.
    - apply post_nil. eapply inv_weaken; [|exact I1]. intros kp [H|H]; auto. }
  eapply post_join; [exact G1|exact N1| |exact F1|exact H2]. intros kp Q H. apply (D1 kp Q). now left.
Qed.

Lemma vmap_ok cur a v num (b : nat -> list context -> list stream -> kres) : (forall i, body_ok cur (b i)) ->
  forall is ss good A, NoDup is ->
  inv ss good (fun kp => A kp \/ exists i, In i is /\ rk [(a, KSplit v num i)] kp) ->
  (forall kp i, In i is -> rk [(a, KSplit v num i)] kp -> A kp -> False) ->
  post good A (k_layers is (fun i ss2 => let '(x', ss3) := k_context cur [(a, KSplit v num i)] ss2 in b i [x'] ss3) ss).
Proof.
  intros Hb. induction is as [|i is IH]; intros ss good A ND I D; cbn [k_layers].
  { apply post_nil. eapply inv_weaken; [|exact I]. intros kp H; now left. }
  inversion ND as [|? ? ND1 ND2]; subst.
  set (R := fun kp => exists j, In j is /\ rk [(a, KSplit v num j)] kp) in *.
  match goal with |- post _ _ (k_then ?r _) => assert (H1 : post good (fun kp => A kp \/ R kp) r) end.
  { pose proof (context_new cur [(a, KSplit v num i)] ss good (fun kp => A kp \/ R kp)) as Cn.
    destruct (k_context cur [(a, KSplit v num i)] ss) as [x' ss3].
    destruct Cn as (good' & G1 & I' & Nx' & Gx').
    - eapply inv_weaken; [|exact I]. intros kp [[H|(j & H & Q)]|H]; [auto| |]; right; [exists j|exists i]; split; auto; [now right|now left].
    - intros kp H [Q|(j & Hj & Q)]; [now apply (D kp i (or_introl eq_refl))|].
      assert (N : i <> j) by (intros <-; contradiction). apply rk_one in H as [_ H], Q as [_ Q]. apply N. eapply reg_split_apart; eauto.
    - repeat constructor.
    - eapply post_weaken; [exact G1| |apply Hb; [exact I'|]]; [auto|]. intros y [<-|[]]. auto. }
  match goal with |- post _ _ (k_then ?r _) => destruct r as [[ss1 l1] res] eqn:E1 end. unfold k_then.
  destruct H1 as (good1 & G1 & I1 & N1 & D1 & F1).
  match goal with |- context [match res with Err e => (ss1, [], Err e) | Ok _ => ?r end] =>
    assert (H2 : post good1 (fun kp => A kp \/ In kp (seen l1)) (match res with Err e => (ss1, [], Err e) | Ok _ => r end)) end.
  { destruct res as [[]|e].
    - apply IH; auto.
      + eapply inv_weaken; [|exact I1]. intros kp [[H|H]|H]; auto.
      + intros kp j Hj H [Q|Q]; [now apply (D kp j (or_intror Hj))|]. apply (D1 kp Q). right. exists j. auto.
    - apply post_nil. eapply inv_weaken; [|exact I1]. intros kp [H|H]; auto. }
  eapply post_join; [exact G1|exact N1| |exact F1|exact H2]. intros kp Q H. apply (D1 kp Q). now left.
Qed.

Definition covered (p : kprog) : Prop := (forall r q, par (KFold r (stable_hash blake q)) (r, q)) \/ no_new p.
Theorem krun_ok : forall p, splits P p -> covered p -> forall cur, body_ok cur (krun blake p cur).
Proof.
  assert (Cv : forall p p', (no_new p -> no_new p') -> covered p -> covered p') by (intros p p' H [Q|Q]; [now left|right; auto]).
  induction p as [res|c name k IH|c k IH|c k IH|c args k IH|c a n num body IHb k IH|t c body IHb k IH|t c split n body IHb k IH]; intros Hs Hcv cur env ss good A I En; cbn [krun]; inversion Hs; subst;
    try (assert (Ck : forall r, covered (k r)) by (intros r; eapply Cv; [|exact Hcv]; intros Hn; inversion Hn; auto));
    try (assert (Ck : covered k) by (eapply Cv; [|exact Hcv]; intros Hn; inversion Hn; auto)).
  - now apply post_nil.
  - destruct (nth_error env c) as [x|] eqn:Ex; [|now apply post_nil]. destruct (En x (nth_error_In _ _ Ex)) as [Nx Gx].
    unfold make_rng. destruct (dget name (x_rngs x)) as [i|] eqn:Di; [|now apply IH].
    destruct (negb (trace_ok cur (x_trace x))); [now apply IH|]. destruct (nth_error ss i) as [s|] eqn:Es; [|now apply IH].
    unfold draw_of. rewrite Di, Es. apply post_then.
    + destruct (P name) eqn:Pn.
      * destruct (inv_take _ _ _ _ _ I (Gx _ _ Pn Di) Es) as [J D]. exists good. split; [auto|]. unfold seen. cbn. rewrite Pn. cbn.
        assert (Sl : slot s (derivation (mkDraw name (s_key s) (s_path s ++ [s_count s]) (KFold (s_key s) (stable_hash blake (s_path s ++ [s_count s])))))).
        { eexists. split; [constructor|]. split; [apply desc_refl|]. exists []. reflexivity. }
        split; [|split; [|split]].
        -- eapply inv_weaken; [|exact J]. intros kp [H|[<-|[]]]; auto.
        -- constructor; [intros []|constructor].
        -- intros kp [<-|[]] H. eauto.
        -- repeat constructor.
      * exists good. split; [auto|]. unfold seen. cbn. rewrite Pn. cbn. split; [|split; [constructor|split; [intros kp []|repeat constructor]]].
        eapply inv_weaken; [|apply inv_bump; eassumption]. intros kp [H|[]]; exact H.
    + cbn [fst snd]. intros good' G' I'. apply IH; auto. eapply envok_more; eauto.
  - destruct (nth_error env c) as [x|] eqn:Ex; [|now apply post_nil]. destruct (En x (nth_error_In _ _ Ex)) as [Nx Gx].
    apply IH; auto. now apply envok_snoc.
  - destruct (nth_error env c) as [x|] eqn:Ex; [|now apply post_nil]. destruct (En x (nth_error_In _ _ Ex)) as [Nx Gx].
    pose proof (partition_inv cur x ss good A I Nx Gx) as Q. destruct (context_partition cur x ss) as [[pc|e] ss']; [|now apply IH].
    destruct Q as (J1 & J2 & J3). apply inside_ok; auto.
  - destruct (nth_error env c) as [x|] eqn:Ex; [|now apply post_nil]. destruct (En x (nth_error_In _ _ Ex)) as [Nx Gx].
    assert (Hpar : forall r q, par (KFold r (stable_hash blake q)) (r, q)) by (destruct Hcv as [Q|Q]; [exact Q|inversion Q]).
    match goal with Q : forall a n, In (a, n) args -> _ |- _ => pose proof (draws_inv cur x Hpar args Q ss good A I Gx) as Dr end.
    destruct (k_draws blake cur x args ss) as [[ss1 l] r]. cbn zeta in Dr. destruct Dr as (J1 & N1 & D1 & F1 & X1 & O1).
    unfold k_then. eapply (post_join good good); [auto|exact N1|exact D1|exact F1|]. destruct r as [kvs|e].
    + pose proof (context_new cur kvs ss1 good _ J1 X1 O1) as Cn. destruct (k_context cur kvs ss1) as [x' ss3].
      destruct Cn as (good' & G1 & I' & Nx' & Gx'). eapply post_weaken; [exact G1| |apply IH; auto; [exact I'|]]; [auto|].
      apply envok_snoc; auto. eapply envok_more; eauto.
    + apply IH; auto. eapply inv_weaken; [|exact J1]. intros kp H; now left.
  - destruct (nth_error env c) as [x|] eqn:Ex; [|now apply post_nil]. destruct (En x (nth_error_In _ _ Ex)) as [Nx Gx].
    assert (Hpar : forall r q, par (KFold r (stable_hash blake q)) (r, q)) by (destruct Hcv as [Q|Q]; [exact Q|inversion Q]).
    pose proof (draws_inv cur x Hpar [(a, n)]) as Dr. specialize (Dr ltac:(intros a0 n0 [H|[]]; injection H as <- <-; assumption) ss good A I Gx).
    cbn [k_draws] in Dr. destruct (make_rng blake cur x n ss) as [[v|e] ss'].
    2:{ apply IH; auto. destruct Dr as (J & _). eapply inv_weaken; [|exact J]. intros kp H. left. now left. }
    rewrite app_nil_r in Dr. cbn [rbind] in Dr. cbn zeta in Dr. destruct Dr as (J1 & N1 & D1 & F1 & X1 & O1).
    unfold k_then at 1. eapply (post_join good good); [auto|exact N1|exact D1|exact F1|]. apply post_then.
    + assert (Sub : forall kp i, rk [(a, KSplit v num i)] kp -> rk [(a, v)] kp).
      { intros kp i H. apply rk_one in H as [Pa H]. exists a, v. split; [now left|]. split; [exact Pa|].
        eapply reg_desc; [|exact H]. apply desc_split, desc_refl. }
      apply (vmap_ok cur a v num (fun i env' ss3 => krun blake (body i) cur env' ss3)).
      * intros i. apply IHb; auto. now left.
      * apply seq_NoDup.
      * eapply inv_weaken; [|exact J1]. intros kp [H|(i & _ & H)]; [auto|]. right. eauto.
      * intros kp i _ H. eauto.
    + intros good' G' I'. apply IH; auto. eapply envok_more; eauto.
  - assert (Cb : covered body) by (eapply Cv; [|exact Hcv]; intros Hn; inversion Hn; auto).
    destruct (nth_error env c) as [x|] eqn:Ex; [|now apply post_nil]. destruct (En x (nth_error_In _ _ Ex)) as [Nx Gx].
    pose proof (partition_inv cur x ss good A I Nx Gx) as Q. destruct (context_partition cur x ss) as [[pc|e] ss']; [|now apply IH].
    destruct Q as (J1 & J2 & J3). apply post_then.
    + apply inside_ok; auto.
    + intros good' G' I'. apply IH; auto. eapply envok_more; eauto.
  - destruct (nth_error env c) as [x|] eqn:Ex; [|now apply post_nil]. destruct (En x (nth_error_In _ _ Ex)) as [Nx Gx].
    assert (Cb : forall i, covered (body i)) by (intros i; eapply Cv; [|exact Hcv]; intros Hn; inversion Hn; auto).
    unfold scan_ctx.
    pose proof (partition_inv cur x ss good A I Nx Gx) as Q. destruct (context_partition cur x ss) as [[pc|e] ss']; [|now apply IH].
    destruct Q as (J1 & J2 & J3). pose proof (rng_filter_spec split) as Fs. unfold rspec in Fs.
    destruct (to_rng_predicate split) as [p|e]; cbn [rbind].
    2:{ apply IH; auto. eapply inv_weaken; [|exact J1]. intros kp H; now left. }
    assert (Hp : forall name, P name = true -> p name = true) by (intros name Hn; apply Fs; auto).
    apply post_then.
    + apply (layers_ok t p n pc env (fun i env' ss2 => krun blake (body i) t env' ss2)); auto.
      * apply seq_NoDup.
      * eapply inv_weaken; [|exact J1]. intros kp [H|(i & _ & H)]; [auto|]. right. eapply step_rl; eauto.
      * intros kp i _ H. apply J2. eapply step_rl; eauto.
    + intros good' G' I'. apply IH; auto. eapply envok_more; eauto.
Qed.
End Names.

(** ** The start *)
Lemma In_dset_weak {A} k (v : A) d kv : In kv (dset k v d) -> kv = (k, v) \/ In kv d.
Proof.
  induction d as [|[k' v'] d IH]; cbn; [intuition congruence|]. destruct (String.eqb_spec k k') as [<-|N]; cbn; intuition congruence.
Qed.
Lemma make_streams_ok : forall l ss ns ss', make_streams l ss = (ns, ss') ->
  (forall n i, In (n, ArgStream i) l -> i < List.length ss) ->
  ss' = ss ++ map root_stream (flat_map (fun na => arg_roots (snd na)) l) /\ Forall (fun ni => snd ni < List.length ss') ns.
Proof.
  induction l as [|[n a] l IH]; intros ss ns ss' E H; cbn [make_streams] in E.
  { injection E as <- <-. cbn. rewrite app_nil_r. auto. }
  assert (Hs : forall s n0 i, In (n0, ArgStream i) l -> i < List.length (ss ++ [s])).
  { intros s n0 i Q. rewrite app_length. specialize (H n0 i (or_intror Q)). lia. }
  destruct a as [z|k|i]; cbn [flat_map arg_roots snd].
  - destruct (make_streams l (ss ++ [mkStream (KSeed z) 0 []])) as [ns1 ss1] eqn:E1. injection E as <- <-.
    destruct (IH _ _ _ E1 (Hs _)) as [-> F]. split; [now rewrite <- app_assoc|]. constructor; [|exact F].
    cbn. rewrite !app_length. cbn. lia.
  - destruct (make_streams l (ss ++ [mkStream k 0 []])) as [ns1 ss1] eqn:E1. injection E as <- <-.
    destruct (IH _ _ _ E1 (Hs _)) as [-> F]. split; [now rewrite <- app_assoc|]. constructor; [|exact F].
    cbn. rewrite !app_length. cbn. lia.
  - destruct (make_streams l ss) as [ns1 ss1] eqn:E1. injection E as <- <-.
    destruct (IH _ _ _ E1 (fun n0 j Q => H n0 j (or_intror Q))) as [-> F]. split; [reflexivity|]. constructor; [|exact F].
    cbn. rewrite app_length. specialize (H n i (or_introl eq_refl)). lia.
Qed.

Section Roots.
Variable okroot : key -> Prop.
Definition rooted (w : cworld) (rest : list cop) : Prop :=
  (exists ks, cw_streams w = map root_stream ks /\ NoDup (map stem (ks ++ root_keys rest)) /\ Forall okroot (ks ++ root_keys rest)) /\
  (forall x, In x (cw_ctxs w) -> NoDup (keys (x_rngs x)) /\ forall n i, dget n (x_rngs x) = Some i -> i < List.length (cw_streams w)).
Lemma NoDup_drop {A} (a b c : list A) : NoDup (a ++ b ++ c) -> NoDup (a ++ c).
Proof.
  intros H. induction b as [|y b IH]; [exact H|]. apply IH. cbn in H. now apply NoDup_remove_1 in H.
Qed.
Lemma rooted_step blake w p f r rest : rooted w (ONew p f r :: rest) -> rooted (fst (crun1 blake w (ONew p f r))) rest.
Proof.
  intros ((ks & E & N & F0) & C). cbn [crun1]. unfold root_keys in N. cbn [flat_map op_roots] in N. rewrite !map_app in N. unfold root_keys in F0. cbn [flat_map op_roots] in F0.
  destruct (args_exist (List.length (cw_streams w)) (match p with Some a => ("params", a) :: r | None => r end)) eqn:Ha.
  2:{ split; [|exact C]. exists ks. split; [exact E|]. rewrite map_app. split; [eapply NoDup_drop; exact N|].
    apply Forall_app in F0 as [F1 F0]. apply Forall_app in F0 as [_ F0]. apply Forall_app. auto. }
  unfold new_context. change (match p with Some p0 => dset "params" p0 r | None => r end) with (call_args p r).
  destruct (make_streams (call_args p r) (cw_streams w)) as [ns ss'] eqn:Em.
  destruct (make_streams_ok _ _ _ _ Em) as [Es F].
  { intros n i Q. unfold args_exist in Ha. rewrite forallb_forall in Ha.
    assert (Q' : In (n, ArgStream i) (match p with Some a => ("params", a) :: r | None => r end)).
    { unfold call_args in Q. destruct p as [a|]; [|exact Q]. apply In_dset_weak in Q. destruct Q as [Q|Q]; [left; congruence|now right]. }
    apply Ha in Q'. cbn in Q'. now apply Nat.ltb_lt in Q'. }
  cbn [fst]. split; cbn [cw_streams cw_ctxs set_streams add_ctx].
  - exists (ks ++ flat_map (fun na => arg_roots (snd na)) (call_args p r)). split; [now rewrite Es, E, map_app|].
    rewrite !map_app, <- !app_assoc. auto.
  - intros x Q. apply in_app_or in Q as [Q|[<-|[]]].
    + destruct (C x Q) as [Nx Hx]. split; [exact Nx|]. intros n i Hd. apply Hx in Hd. rewrite Es, app_length. lia.
    + cbn [x_rngs]. split; [apply NoDup_keys_dict_of|]. intros n i Hd. apply dget_In, dict_of_incl in Hd.
      rewrite Forall_forall in F. exact (F _ Hd).
Qed.
Lemma rooted_run blake : forall ops w, creates ops -> rooted w ops -> rooted (fst (crun blake w ops)) [].
Proof.
  induction ops as [|o ops IH]; intros w Hc R; [exact R|]. inversion Hc as [|? ? (p & f & r & ->) Hc']; subst. cbn [crun].
  apply (rooted_step blake) in R. destruct (crun1 blake w (ONew p f r)) as [w1 out]. cbn [fst] in R. specialize (IH w1 Hc' R).
  destruct (crun blake w1 ops) as [w2 outs]. exact IH.
Qed.
Lemma rooted_inv P w : (forall k b, ~ par k b) \/ (forall k, okroot k -> fdepth k = 0) -> rooted w [] ->
  inv (cw_streams w) (fun i => i < List.length (cw_streams w)) (fun _ => False) /\ envok P (cw_ctxs w) (fun i => i < List.length (cw_streams w)).
Proof.
  intros L ((ks & E & N & F0) & C). cbn in N, F0. rewrite app_nil_r in N, F0. rewrite Forall_forall in F0. split.
  - split; [auto|]. split; [|auto]. rewrite E. intros i j si sj kp _ _ Hij Hi Hj (a & Ua & Ri & _) (b & Ub & Rj & _). apply Hij.
    rewrite nth_error_map in Hi, Hj. destruct (nth_error ks i) as [ki|] eqn:Ki; [|discriminate]. destruct (nth_error ks j) as [kj|] eqn:Kj; [|discriminate].
    injection Hi as <-. injection Hj as <-. cbn in Ri, Rj.
    assert (a = b) as <-.
    { destruct L as [L|L].
      - inversion Ua; subst; [|exfalso; eapply L; eauto]. inversion Ub; subst; [reflexivity|exfalso; eapply L; eauto].
      - apply (same_level _ _ _ Ua Ub). apply desc_fdepth in Ri, Rj.
        rewrite <- Ri, <- Rj, (L ki), (L kj); auto; apply F0; eapply nth_error_In; eauto. }
    apply desc_stem in Ri, Rj.
    rewrite NoDup_nth_error in N. apply N.
    + rewrite map_length. apply nth_error_Some. congruence.
    + rewrite !nth_error_map, Ki, Kj. cbn. congruence.
  - intros x Hx. destruct (C x Hx) as [Nx Hi]. split; [exact Nx|]. intros n i _. apply Hi.
Qed.
End Roots.

Lemma run_fresh_gen P blake t ops p : (forall k b, ~ par k b) \/ no_folds ops -> covered blake p -> creates ops -> fresh_roots ops -> splits P p ->
  NoDup (map derivation (draws P (run_from blake t ops p))) /\
  Forall (fun d => d_key d = KFold (d_root d) (stable_hash blake (d_path d))) (draws P (run_from blake t ops p)).
Proof.
  intros L Cv Hc Hf Hs. unfold run_from. set (w := fst (crun blake (cstart t) ops)).
  set (ok := fun k => In k (root_keys ops)).
  assert (R : rooted ok w []).
  { apply rooted_run; [exact Hc|]. split; [exists []; split; [reflexivity|split; [exact Hf|now apply Forall_forall]]|intros x []]. }
  assert (L' : (forall k b, ~ par k b) \/ (forall k, ok k -> fdepth k = 0)).
  { destruct L as [L|L]; [now left|right]. intros k Hk. rewrite <- fdepth_stem. specialize (L k Hk).
    assert (forall n i k', stem k <> KSplit k' n i) as L2 by (clear; induction k; cbn; congruence).
    destruct (stem k) as [| |k' h|k' n i]; try reflexivity; [exfalso; now apply (L k' h)|exfalso; now apply (L2 n i k')]. }
  destruct (rooted_inv ok P w L' R) as [I En]. pose proof (krun_ok P blake p Hs Cv (cw_trace w) _ _ _ _ I En) as X1.
  destruct (krun blake p (cw_trace w) (cw_ctxs w) (cw_streams w)) as [[ss' l] res]. destruct X1 as (g & _ & _ & N & _ & F).
  split; [exact N|]. unfold draws. cbn [fst snd]. rewrite Forall_forall in *. intros d Hd. apply filter_In in Hd as [Hd _]. auto.
Qed.
End Parents.

(** Without new Contexts no key needs a parent. *)
Theorem run_fresh P blake t ops p : creates ops -> fresh_roots ops -> splits P p -> no_new p ->
  NoDup (map derivation (draws P (run_from blake t ops p))) /\
  Forall (fun d => d_key d = KFold (d_root d) (stable_hash blake (d_path d))) (draws P (run_from blake t ops p)).
Proof.
  intros Hc Hf Hs Hn. apply (run_fresh_gen (fun _ _ => False)); try tauto. now right.
Qed.
(** With new Contexts the parent is read off the fold, as the hash has no collisions. *)
Theorem run_fresh_new P blake t ops p : (forall a b, blake a = blake b -> a = b) -> creates ops -> fresh_roots ops -> no_folds ops -> splits P p ->
  NoDup (map derivation (draws P (run_from blake t ops p))) /\
  Forall (fun d => d_key d = KFold (d_root d) (stable_hash blake (d_path d))) (draws P (run_from blake t ops p)).
Proof.
  intros Hb Hc Hf Hn Hs. apply (run_fresh_gen (fun k b => stem k = KFold (fst b) (stable_hash blake (snd b)))); auto.
  - intros k [r1 p1] [r2 p2] H1 H2. cbn in *. rewrite H1 in H2. injection H2 as -> H2. apply Hb, hash_str_inj in H2. congruence.
  - intros k b H. rewrite <- (fdepth_stem k), H. cbn. lia.
  - left. intros r q. reflexivity.
Qed.
