(** Writers_proofs: threads that write to Modules do not disturb each other. *)
From Coq Require Import Lia.
From Verif Require Import PyBase PyBaseFacts ValuesM ValuesFacts FiltersM StateM ModuleM Spec_Module TransformM WritersM Spec_Writers.
From Verif Require Import Graph_facts Dfs_proofs Bisim_proofs Write_proofs History_proofs Transform_proofs Clone_proofs Snapshot_proofs.
Local Open Scope string_scope.
Local Open Scope nat_scope.
Local Open Scope list_scope.

(** ** owners *)
Definition same_owners (w w' : world) : Prop := w_nodes w' = w_nodes w /\ forall r, option_map m_trace (get_obj w' r) = option_map m_trace (get_obj w r).
Lemma owners_refl w : same_owners w w.
Proof. split; reflexivity. Qed.
Lemma owners_trans w1 w2 w3 : same_owners w1 w2 -> same_owners w2 w3 -> same_owners w1 w3.
Proof. intros [N1 H1] [N2 H2]. split; [congruence|]. intros r. now rewrite H2. Qed.
Lemma owned_keep w w' t r : same_owners w w' -> owned w t r -> owned w' t r.
Proof. intros [_ H] (o & G & E). specialize (H r). rewrite G in H. destruct (get_obj w' r) as [o'|] eqn:G'; [|discriminate]. exists o'. split; [exact G'|]. cbn in H. injection H as H. now rewrite H. Qed.
Lemma owners_sym w w' : same_owners w w' -> same_owners w' w.
Proof. intros [N H]. split; [auto|]. intros r. now rewrite H. Qed.
Lemma own_keep w w' t a : same_owners w w' -> own_value w t a -> own_value w' t a.
Proof. intros S H r E. eapply owned_keep; eauto. Qed.
Lemma wput_owners w q name a : same_owners w (wput w q name a).
Proof.
  unfold wput. destruct (get_obj w q) as [o|] eqn:G; [|apply owners_refl]. split; [reflexivity|]. intros r. destruct (Nat.eq_dec q r) as [<-|N].
  - rewrite (get_put_same _ _ _ _ G), G. reflexivity.
  - now rewrite get_put_other.
Qed.
Lemma delattr_cases w q name w' : delattr w q name = Ok w' -> exists o, get_obj w q = Some o /\ w' = put_obj w q (set_vars o (ddel name (m_vars o))).
Proof. unfold delattr. destruct (get_obj w q) as [o|]; [|discriminate]. destruct (dmem name (m_vars o)); [|discriminate]. intros [= <-]. eauto. Qed.
Lemma put_owners w q o l : get_obj w q = Some o -> same_owners w (put_obj w q (set_vars o l)).
Proof.
  intros G. split; [reflexivity|]. intros r. destruct (Nat.eq_dec q r) as [<-|N].
  - rewrite (get_put_same _ _ _ _ G), G. reflexivity.
  - now rewrite get_put_other.
Qed.
Lemma wput_other w q name a r : r <> q -> get_obj (wput w q name a) r = get_obj w r.
Proof. intros N. unfold wput. destruct (get_obj w q); [|reflexivity]. apply get_put_other. congruence. Qed.

(** ** the values a thread holds are its own *)
Section Held.
Variables (w : world) (t : nat).
Definition own_items (l : list (string * attr)) : Prop := forall p a, In (p, a) l -> own_value w t a.
Definition own_states (us : list state) : Prop := forall u, In u us -> own_items u.
Definition pc_own (pc : wpc) : Prop :=
  match pc with
  | WIdle => True
  | WStore q name a => owned w t q /\ own_value w t a
  | WSnap r fs seen acc us => owned w t r /\ (forall parts l, In (parts, l) fs -> own_items l) /\ own_items acc /\ own_states us
  | WEntries r todo => owned w t r /\ own_items todo
  | WWalk r cur parts v todo => owned w t r /\ owned w t cur /\ own_value w t v /\ own_items todo
  | WPut r q name a todo => owned w t r /\ owned w t q /\ own_value w t a /\ own_items todo
  end.
Definition th_own (th : wth) : Prop := pc_own (wt_pc th) /\ Forall (own_op w t) (wt_todo th).
End Held.
Lemma items_keep w w' t l : same_owners w w' -> own_items w t l -> own_items w' t l.
Proof. intros S H p a I. eapply own_keep; eauto. Qed.
Lemma op_keep w w' t op : same_owners w w' -> own_op w t op -> own_op w' t op.
Proof.
  intros S H. destruct op; cbn in *; auto.
  - destruct H. split; [eapply own_keep; eauto|auto].
  - destruct H as [H1 H2]. split; [eapply owned_keep; eauto|]. intros u p a I J. destruct (H2 u p a I J). split; [eapply own_keep; eauto|auto].
  - eapply owned_keep; eauto.
Qed.
Lemma th_keep w w' t th : same_owners w w' -> th_own w t th -> th_own w' t th.
Proof.
  intros S [H1 H2]. split; [|eapply Forall_impl; [|exact H2]; intros op; now apply op_keep]. destruct (wt_pc th); cbn in *; auto.
  - destruct H1. split; [eapply owned_keep; eauto|eapply own_keep; eauto].
  - destruct H1 as (A & B & C & D). split; [eapply owned_keep; eauto|]. split; [intros parts l I; eapply items_keep; eauto|]. split; [eapply items_keep; eauto|]. intros u I. eapply items_keep; eauto.
  - destruct H1. split; [eapply owned_keep; eauto|eapply items_keep; eauto].
  - destruct H1 as (A & B & C & D). split; [eapply owned_keep; eauto|]. split; [eapply owned_keep; eauto|]. split; [eapply own_keep; eauto|eapply items_keep; eauto].
  - destruct H1 as (A & B & C & D). split; [eapply owned_keep; eauto|]. split; [eapply owned_keep; eauto|]. split; [eapply own_keep; eauto|eapply items_keep; eauto].
Qed.
Lemma own_sort w t l : own_items w t l -> own_items w t (sort_by_key l).
Proof. intros H p a I. apply (H p). eapply Permutation.Permutation_in; [apply sort_perm|exact I]. Qed.
Lemma own_dset w t l k a : own_items w t l -> own_value w t a -> own_items w t (dset k a l).
Proof.
  intros H V p b I. induction l as [|[k' x] l IH]; cbn in I; [destruct I as [I|[]]; now injection I as <- <-|].
  destruct (String.eqb k k'); cbn in I; destruct I as [I|I].
  - injection I as <- <-. exact V.
  - apply (H p). now right.
  - injection I as <- <-. apply (H k'). now left.
  - apply IH; [|exact I]. intros p' a' I'. apply (H p'). now right.
Qed.
Lemma own_update w t l : own_items w t l -> forall d, own_items w t d -> own_items w t (dupdate d l).
Proof.
  induction l as [|[k a] l IH]; intros H d D; [exact D|]. cbn [dupdate fold_left]. apply IH; [intros p b I; apply (H p); now right|]. apply own_dset; [exact D|]. apply (H k). now left.
Qed.
Lemma own_mk_state w t l : own_items w t l -> own_items w t (mk_state l).
Proof. intros H. unfold mk_state, dict_of. apply own_update; [now apply own_sort|]. intros ? ? []. Qed.
Lemma own_merged w t us : own_states w t us -> forall d, own_items w t d -> own_items w t (fold_left (fun acc s => dupdate acc s) us d).
Proof. induction us as [|u us IH]; intros H d D; [exact D|]. cbn. apply IH; [intros v I; apply H; now right|]. apply own_update; [apply H; now left|exact D]. Qed.

Lemma wload_own w t l q name v a : own_value w t v -> wload w (t, l) q name v = Ok a -> owned w t q /\ own_value w t a.
Proof.
  intros V E. unfold wload in E. destruct (get_obj w q) as [o|] eqn:G; [|discriminate]. destruct (trace_valid (set_trace w (t, l)) (m_trace o)) eqn:T; [|discriminate]. cbn [negb] in E.
  destruct (String.eqb name "_module__state"); [discriminate|]. split.
  - exists o. split; [exact G|]. unfold trace_valid in T. cbn in T. apply andb_prop in T as [T _]. now apply Nat.eqb_eq in T.
  - intros r ->. unfold assign_value in E. destruct (dget name (m_vars o)) as [[x|c]|].
    + destruct v as [y|c]; [injection E as ->; now apply V|destruct (container_copy c); discriminate].
    + destruct (container_replace c (Some v) []); discriminate.
    + destruct v as [y|c]; [injection E as ->; now apply V|destruct (container_copy c); discriminate].
Qed.
Lemma apart_wput w t q name a : apart w -> owned w t q -> own_value w t a -> apart (wput w q name a).
Proof.
  intros A (o & G & E) V r o' n b G' I. pose proof (wput_owners w q name a) as SO. destruct (Nat.eq_dec r q) as [->|N].
  - unfold wput in *. rewrite G in *. rewrite (get_put_same _ _ _ _ G) in G'. injection G' as <-. cbn in I |- *. rewrite E.
    eapply own_keep; [exact SO|]. assert (OI : own_items w t (m_vars o)) by (intros p c J; rewrite <- E; eapply A; eauto).
    exact (own_dset w t (m_vars o) name a OI V n b I).
  - rewrite wput_other in G' by exact N. eapply own_keep; [exact SO|]. eapply A; eauto.
Qed.
Lemma ddel_sub {A} k (d : dict A) x : In x (ddel k d) -> In x d.
Proof. induction d as [|[k' v'] d IH]; cbn; [auto|]. destruct (String.eqb k k'); [now right|]. intros [H|H]; auto. Qed.
Lemma apart_del w q o name : apart w -> get_obj w q = Some o -> apart (put_obj w q (set_vars o (ddel name (m_vars o)))).
Proof.
  intros A G r o' n b G' I. eapply own_keep; [now apply put_owners|]. destruct (Nat.eq_dec q r) as [<-|N].
  - rewrite (get_put_same _ _ _ _ G) in G'. injection G' as <-. cbn in *. eapply A; eauto. eapply ddel_sub; eauto.
  - rewrite get_put_other in G' by exact N. eapply A; eauto.
Qed.

(** ** one step: own memory only *)
Record fine (w : world) (t : nat) (th : wth) (w' : world) (th' : wth) : Prop := {
  fi_owners : same_owners w w';
  fi_apart : apart w';
  fi_own : th_own w' t th';
  fi_others : forall r, ~ owned w t r -> get_obj w' r = get_obj w r
}.
Lemma tl_own w t th : Forall (own_op w t) (wt_todo th) -> Forall (own_op w t) (tl (wt_todo th)).
Proof. intros H. destruct (wt_todo th); [exact H|now inversion H]. Qed.
Lemma fine_return w t th out : apart w -> Forall (own_op w t) (wt_todo th) -> fine w t th w (wreturn th out).
Proof. intros A H. split; [apply owners_refl|exact A| |auto]. split; [exact Logic.I|now apply tl_own]. Qed.
Lemma fine_go w t th pc : apart w -> Forall (own_op w t) (wt_todo th) -> pc_own w t pc -> fine w t th w (wgo th pc).
Proof. intros A H P. split; [apply owners_refl|exact A| |auto]. split; [exact P|exact H]. Qed.
Lemma step_fine w t th w' th' : apart w -> th_own w t th -> wstep1 w t th = (w', th') -> fine w t th w' th'.
Proof.
  intros A TO E. pose proof TO as [P F]. unfold wstep1 in E. destruct (wt_pc th) as [|q name a|r fs seen acc us|r todo|r cur parts v todo|r q name a todo] eqn:PC; cbn [pc_own] in P.
  - destruct (wt_todo th) as [|op rest] eqn:TD; [injection E as <- <-; split; [apply owners_refl|exact A|split; [rewrite PC; exact Logic.I|rewrite TD; constructor]|auto]|].
    assert (F' : Forall (own_op w t) (wt_todo th)) by now rewrite TD. inversion F as [|? ? O1 O2]; subst. destruct op as [q name v|r us|q name|n]; cbn [own_op] in O1.
    + destruct (wload w (t, wt_level th) q name v) as [a|e] eqn:L; injection E as <- <-; [|now apply fine_return].
      apply fine_go; auto. cbn. eapply wload_own; [apply O1|exact L].
    + destruct (get_obj w r) as [o|] eqn:G; injection E as <- <-; [|now apply fine_return]. destruct O1 as [OR OU]. apply fine_go; auto. cbn. split; [exact OR|]. split.
      * intros parts l [I|[]]. injection I as <- <-. apply own_sort. intros p a I. destruct OR as (o' & G' & E'). rewrite G in G'. injection G' as <-. rewrite <- E'. eapply A; eauto.
      * split; [intros ? ? []|]. intros u I p a J. now apply (OU u p a).
    + destruct (delattr w q name) as [w1|e] eqn:D; injection E as <- <-; [|now apply fine_return]. apply delattr_cases in D as (o & G & ->).
      assert (SO : same_owners w (put_obj w q (set_vars o (ddel name (m_vars o))))) by now apply put_owners. split; [exact SO|now apply apart_del| |].
      * split; [exact Logic.I|]. eapply Forall_impl; [|apply tl_own; exact F']. intros x. now apply op_keep.
      * intros r N. apply get_put_other. intros ->. contradiction.
    + injection E as <- <-. split; [apply owners_refl|exact A| |auto]. split; [exact Logic.I|exact O2].
  - injection E as <- <-. destruct P as [P1 P2]. pose proof (wput_owners w q name a) as SO. split; [exact SO|eapply apart_wput; eauto| |].
    + split; [exact Logic.I|]. eapply Forall_impl; [|apply tl_own; exact F]. intros x. now apply op_keep.
    + intros r N. apply wput_other. intros ->. contradiction.
  - destruct P as (P1 & P2 & P3 & P4). destruct fs as [|[parts l] fs].
    + injection E as <- <-. apply fine_go; auto. cbn [pc_own]. split; [exact P1|]. cbn [fold_left]. apply own_merged; [exact P4|]. apply own_update; [now apply own_mk_state|intros ? ? []].
    + destruct l as [|[name a] l].
      * injection E as <- <-. apply fine_go; auto. cbn. repeat split; auto. intros p l I. apply (P2 p). now right.
      * assert (Pt : forall p l', In (p, l') ((parts, l) :: fs) -> own_items w t l').
        { intros p l' [I|I]; [|apply (P2 p); now right]. injection I as <- <-. intros n b J. apply (P2 parts ((name, a) :: l) (or_introl eq_refl) n). now right. }
        assert (Va : own_value w t a) by (apply (P2 parts ((name, a) :: l) (or_introl eq_refl) name); now left).
        destruct (mod_or_not a) as [[q ->]|Na].
        -- destruct (Va q eq_refl) as (o & G & Eo). rewrite G in E. destruct (nmem (m_id o) seen); injection E as <- <-; apply fine_go; auto; cbn [pc_own]; repeat split; auto.
           intros p l' [I|I]; [|now apply (Pt p)]. injection I as <- <-. apply own_sort. intros n b J. rewrite <- Eo. eapply A; eauto.
        -- assert (E' : (w, wgo th (WSnap r ((parts, l) :: fs) seen (if is_node (w_nodes w) a then acc ++ [(join_path (parts ++ [name]), a)] else acc) us)) = (w', th')).
           { destruct a as [x|c]; [|exact E]. destruct x; try exact E. exfalso. eapply Na. reflexivity. }
           injection E' as <- <-. apply fine_go; auto. cbn [pc_own]. repeat split; auto. destruct (is_node (w_nodes w) a); [|exact P3].
           intros p b I. apply in_app_or in I as [I|[I|[]]]; [now apply (P3 p)|]. injection I as <- <-. exact Va.
  - destruct P as [P1 P2]. destruct todo as [|[p v] todo]; injection E as <- <-; [now apply fine_return|]. apply fine_go; auto. cbn. repeat split; auto.
    + apply (P2 p). now left.
    + intros n b I. apply (P2 n). now right.
  - destruct P as (P1 & P2 & P3 & P4). destruct parts as [|name [|name2 rest]].
    + injection E as <- <-. now apply fine_return.
    + destruct (wload w (t, wt_level th) cur name v) as [a|e] eqn:L; injection E as <- <-; [|now apply fine_return].
      destruct (wload_own _ _ _ _ _ _ _ P3 L). apply fine_go; auto. cbn. auto.
    + destruct (get_obj w cur) as [o|] eqn:G; [|injection E as <- <-; now apply fine_return].
      destruct (dget name (m_vars o)) as [b|] eqn:D; [|injection E as <- <-; now apply fine_return].
      assert (Vb : own_value w t b). { destruct P2 as (o' & G' & Eo). rewrite G in G'. injection G' as <-. rewrite <- Eo. eapply A; [exact G|]. eapply dget_In; exact D. }
      destruct (mod_or_not b) as [[q ->]|Nb].
      * injection E as <- <-. apply fine_go; auto. cbn. repeat split; auto.
      * assert (E' : (w, wreturn th (Err OutOfModel)) = (w', th')) by (destruct b as [x|c]; [|exact E]; destruct x; try exact E; exfalso; eapply Nb; reflexivity).
        injection E' as <- <-. now apply fine_return.
  - destruct P as (P1 & P2 & P3 & P4). injection E as <- <-. pose proof (wput_owners w q name a) as SO. split; [exact SO|eapply apart_wput; eauto| |].
    + apply (th_keep w); [exact SO|]. split; [cbn; auto|exact F].
    + intros r' N. apply wput_other. intros ->. contradiction.
Qed.

(** ** one step depends on own memory only *)
Definition agree (t : nat) (w w' : world) : Prop := same_owners w w' /\ forall r, owned w t r -> get_obj w' r = get_obj w r.
Lemma agree_refl t w : agree t w w.
Proof. split; [apply owners_refl|auto]. Qed.
Lemma load_agree t l w w' q name v : agree t w w' -> wload w' (t, l) q name v = wload w (t, l) q name v.
Proof.
  intros [[N S] H]. unfold wload. specialize (S q). destruct (get_obj w q) as [o|] eqn:G, (get_obj w' q) as [o'|] eqn:G'; try discriminate; [|reflexivity].
  cbn in S. injection S as S. rewrite S. change (trace_valid (set_trace w' (t, l)) (m_trace o)) with (trace_valid (set_trace w (t, l)) (m_trace o)).
  destruct (trace_valid (set_trace w (t, l)) (m_trace o)) eqn:T; [|reflexivity]. cbn [negb].
  assert (O : owned w t q). { exists o. split; [exact G|]. unfold trace_valid in T. cbn in T. apply andb_prop in T as [T _]. now apply Nat.eqb_eq in T. }
  specialize (H q O). rewrite G, G' in H. injection H as ->. reflexivity.
Qed.
Lemma put_agree t w w' q name a : agree t w w' -> owned w t q -> agree t (wput w q name a) (wput w' q name a).
Proof.
  intros [S H] O. split.
  - eapply owners_trans; [apply owners_sym, wput_owners|]. eapply owners_trans; [exact S|]. apply wput_owners.
  - intros r R. assert (R' : owned w t r) by (eapply owned_keep; [apply owners_sym, wput_owners|exact R]). destruct (Nat.eq_dec r q) as [->|N].
    + pose proof (H q O) as Hq. destruct O as (o & G & _). unfold wput. rewrite Hq, G. rewrite G in Hq. rewrite (get_put_same _ _ _ _ G). now rewrite (get_put_same _ _ _ _ Hq).
    + rewrite !wput_other by exact N. now apply H.
Qed.
Lemma step_agree t w w' th w1 th1 : agree t w w' -> apart w -> th_own w t th -> wstep1 w t th = (w1, th1) -> exists w1', wstep1 w' t th = (w1', th1) /\ agree t w1 w1'.
Proof.
  intros AG A TO E. pose proof AG as [[N SO] HO]. pose proof TO as [P F]. unfold wstep1 in *.
  destruct (wt_pc th) as [|q name a|r fs seen acc us|r todo|r cur parts v todo|r q name a todo] eqn:PC; cbn [pc_own] in P.
  - destruct (wt_todo th) as [|op rest] eqn:TD; [injection E as <- <-; eauto|]. inversion F as [|? ? O1 O2]; subst. destruct op as [q name v|r us|q name|n]; cbn [own_op] in O1.
    + rewrite (load_agree t _ w w') by exact AG. destruct (wload w (t, wt_level th) q name v) as [a|e]; injection E as <- <-; eauto.
    + destruct O1 as [OR _]. rewrite (HO r OR). destruct (get_obj w r) as [o|]; injection E as <- <-; eauto.
    + unfold delattr in *. rewrite (HO q O1). destruct (get_obj w q) as [o|] eqn:G; [|injection E as <- <-; eauto].
      destruct (dmem name (m_vars o)); injection E as <- <-; [|eauto]. eexists. split; [reflexivity|]. pose proof (HO q O1) as G'. rewrite G in G'. split.
      * eapply owners_trans; [apply owners_sym, put_owners; exact G|]. eapply owners_trans; [split; eauto|]. now apply put_owners.
      * intros r R. assert (R' : owned w t r) by (eapply owned_keep; [apply owners_sym, put_owners; exact G|exact R]). destruct (Nat.eq_dec q r) as [<-|Nr].
        -- now rewrite (get_put_same _ _ _ _ G), (get_put_same _ _ _ _ G').
        -- rewrite !get_put_other by exact Nr. now apply HO.
    + injection E as <- <-. eauto.
  - injection E as <- <-. destruct P as [P1 P2]. eexists. split; [reflexivity|]. now apply put_agree.
  - destruct fs as [|[parts l] fs]; [injection E as <- <-; eauto|]. destruct l as [|[name a] l]; [injection E as <- <-; eauto|]. destruct P as (P1 & P2 & P3 & P4).
    assert (Va : own_value w t a) by (apply (P2 parts ((name, a) :: l) (or_introl eq_refl) name); now left). rewrite N.
    destruct (mod_or_not a) as [[q ->]|Na].
    + rewrite (HO q (Va q eq_refl)). destruct (get_obj w q) as [o|]; [|injection E as <- <-; eauto]. destruct (nmem (m_id o) seen); injection E as <- <-; eauto.
    + destruct a as [x|c]; [|injection E as <- <-; eauto]. destruct x; try (injection E as <- <-; eauto; fail). exfalso. eapply Na. reflexivity.
  - destruct todo as [|[p v] todo]; injection E as <- <-; eauto.
  - destruct P as (P1 & P2 & P3 & P4). destruct parts as [|name [|name2 rest]]; [injection E as <- <-; eauto| |].
    + rewrite (load_agree t _ w w') by exact AG. destruct (wload w (t, wt_level th) cur name v) as [a|e]; injection E as <- <-; eauto.
    + rewrite (HO cur P2). destruct (get_obj w cur) as [o|]; [|injection E as <- <-; eauto]. destruct (dget name (m_vars o)) as [b|]; [|injection E as <- <-; eauto].
      destruct b as [x|c]; [|injection E as <- <-; eauto]. destruct x; injection E as <- <-; eauto.
  - injection E as <- <-. destruct P as (P1 & P2 & P3 & P4). eexists. split; [reflexivity|]. now apply put_agree.
Qed.

(** ** a schedule *)
Fixpoint solo (t k : nat) (x : world * wth) : world * wth := match k with 0 => x | S k => solo t k (wstep1 (fst x) t (snd x)) end.
Lemma solo_app t j : forall k x, solo t (j + k) x = solo t k (solo t j x).
Proof. induction j as [|j IH]; intros k x; [reflexivity|]. cbn. apply IH. Qed.
Definition all_own (s : wsys) : Prop := apart (ws_world s) /\ forall t th, nth_error (ws_threads s) t = Some th -> th_own (ws_world s) t th.
Lemma nth_list_set_other {A} i j (x : A) l : i <> j -> nth_error (list_set i x l) j = nth_error l j.
Proof. revert j l. induction i as [|i IH]; intros [|j] [|y l] H; cbn; try reflexivity; [exfalso; now apply H|]. apply IH. congruence. Qed.
Lemma wstep_own s t : all_own s -> all_own (wstep s t) /\ same_owners (ws_world s) (ws_world (wstep s t)) /\ forall r, ~ owned (ws_world s) t r -> get_obj (ws_world (wstep s t)) r = get_obj (ws_world s) r.
Proof.
  intros [A T]. unfold wstep. destruct (nth_error (ws_threads s) t) as [th|] eqn:G; [|split; [split; auto|split; [apply owners_refl|auto]]].
  destruct (wstep1 (ws_world s) t th) as [w' th'] eqn:E. destruct (step_fine _ _ _ _ _ A (T _ _ G) E) as [F1 F2 F3 F4]. cbn [ws_world]. split; [|auto].
  split; [exact F2|]. cbn [ws_threads ws_world]. intros t' x H. destruct (Nat.eq_dec t t') as [<-|N].
  - rewrite nth_list_set_same in H by (apply nth_error_Some; congruence). injection H as <-. exact F3.
  - rewrite nth_list_set_other in H by exact N. eapply th_keep; [exact F1|auto].
Qed.
Lemma turns_cons t x sch : turns t (x :: sch) = (if Nat.eq_dec x t then 1 else 0) + turns t sch.
Proof. unfold turns. cbn. destruct (Nat.eq_dec x t); reflexivity. Qed.
Theorem undisturbed sch : forall s t th w, all_own s -> nth_error (ws_threads s) t = Some th -> agree t (ws_world s) w ->
  nth_error (ws_threads (wruns s sch)) t = Some (snd (solo t (turns t sch) (w, th))) /\
  agree t (ws_world (wruns s sch)) (fst (solo t (turns t sch) (w, th))).
Proof.
  induction sch as [|x sch IH]; intros s t th w AO G AG; [split; auto|]. cbn [wruns fold_left]. fold (wruns (wstep s x) sch). rewrite turns_cons.
  destruct (wstep_own s x AO) as (AO' & SO & FR). destruct (Nat.eq_dec x t) as [->|N].
  - cbn [Nat.add solo fst snd]. destruct (wstep1 (ws_world s) t th) as [w1 th1] eqn:E.
    destruct (step_agree t _ w th w1 th1 AG (proj1 AO) (proj2 AO _ _ G) E) as (w1' & E' & AG'). rewrite E'.
    assert (Es : wstep s t = mkWsys w1 (list_set t th1 (ws_threads s))) by (unfold wstep; rewrite G, E; reflexivity).
    apply IH; [exact AO'| |].
    + rewrite Es. cbn. apply nth_list_set_same. apply nth_error_Some. congruence.
    + rewrite Es. exact AG'.
  - cbn [Nat.add]. apply IH; [exact AO'| |].
    + unfold wstep. destruct (nth_error (ws_threads s) x) as [thx|]; [|exact G]. destruct (wstep1 (ws_world s) x thx). cbn. now rewrite nth_list_set_other.
    + destruct AG as [S H]. split; [eapply owners_trans; [apply owners_sym; exact SO|exact S]|]. intros r R.
      assert (R0 : owned (ws_world s) t r) by (eapply owned_keep; [apply owners_sym; exact SO|exact R]). rewrite (H r R0). symmetry. apply FR.
      intros (o & Go & Eo). destruct R0 as (o' & Go' & Eo'). congruence.
Qed.

(** ** alone: the sequential model *)
Lemma load_put w tr q name v : setattr (set_trace w tr) q name v = match wload w tr q name v with Ok a => Ok (set_trace (wput w q name a) tr) | Err e => Err e end.
Proof.
  unfold setattr, wload, wput. change (get_obj (set_trace w tr) q) with (get_obj w q). destruct (get_obj w q) as [o|]; [|reflexivity].
  destruct (trace_valid (set_trace w tr) (m_trace o)); [|reflexivity]. cbn [negb]. destruct (String.eqb name "_module__state"); [reflexivity|].
  destruct (assign_value (dget name (m_vars o)) v); reflexivity.
Qed.
Definition reach (t : nat) (x y : world * wth) : Prop := exists k, solo t k x = y.
Lemma reach_refl t x : reach t x x.
Proof. exists 0. reflexivity. Qed.
Lemma reach_trans t x y z : reach t x y -> reach t y z -> reach t x z.
Proof. intros [j J] [k K]. exists (j + k). now rewrite solo_app, J. Qed.
Lemma reach_step t w th y : reach t (wstep1 w t th) y -> reach t (w, th) y.
Proof. intros [k K]. exists (S k). exact K. Qed.
Section Alone.
Variable t : nat.
Lemma snap_fields w th r us fuel :
  forall l seen parts xs seen' fs acc, iter_fields (iter_state_rec fuel w) (w_nodes w) l seen parts = Ok (xs, seen') ->
  reach t (w, wgo th (WSnap r ((parts, l) :: fs) seen acc us)) (w, wgo th (WSnap r fs seen' (acc ++ xs) us)).
Proof.
  induction fuel as [|fuel IH].
  - (* no submodule at all *)
    induction l as [|[name a] l IHl]; intros seen parts xs seen' fs acc E.
    + injection E as <- <-. rewrite app_nil_r. apply reach_step, reach_refl.
    + destruct (mod_or_not a) as [[q ->]|Na]; [discriminate|]. rewrite iter_fields_leaf in E by exact Na. apply reach_step.
      replace (wstep1 w t (wgo th (WSnap r ((parts, (name, a) :: l) :: fs) seen acc us))) with
        (w, wgo th (WSnap r ((parts, l) :: fs) seen (if is_node (w_nodes w) a then acc ++ [(join_path (parts ++ [name]), a)] else acc) us))
        by (destruct a as [x|c]; [destruct x; try reflexivity; exfalso; eapply Na; reflexivity|reflexivity]).
      destruct (iter_fields (iter_state_rec 0 w) (w_nodes w) l seen parts) as [[ys sb]|] eqn:R; [|discriminate]. cbn [rbind] in E.
      destruct (is_node (w_nodes w) a); injection E as <- <-; [|now apply IHl]. replace (acc ++ (join_path (parts ++ [name]), a) :: ys) with ((acc ++ [(join_path (parts ++ [name]), a)]) ++ ys) by now rewrite <- app_assoc. now apply IHl.
  - induction l as [|[name a] l IHl]; intros seen parts xs seen' fs acc E.
    + injection E as <- <-. rewrite app_nil_r. apply reach_step, reach_refl.
    + apply reach_step. destruct (mod_or_not a) as [[q ->]|Na].
      * cbn [iter_fields] in E. unfold rbind in E at 1. destruct (iter_state_rec (S fuel) w q seen (parts ++ [name])) as [[ys sb]|] eqn:R; [|discriminate].
        unfold rbind in E. destruct (iter_fields (iter_state_rec (S fuel) w) (w_nodes w) l sb parts) as [[zs sc]|] eqn:R2; [|discriminate]. injection E as <- <-.
        cbn [iter_state_rec] in R. cbn [wstep1 wgo wt_pc]. destruct (get_obj w q) as [o|]; [|discriminate]. destruct (nmem (m_id o) seen).
        -- injection R as <- <-. change (wgo (wgo th ?p)) with (wgo th). cbn [app]. now apply IHl.
        -- eapply reach_trans; [apply (IH _ _ _ _ _ _ acc R)|]. rewrite app_assoc. now apply IHl.
      * rewrite iter_fields_leaf in E by exact Na.
        replace (wstep1 w t (wgo th (WSnap r ((parts, (name, a) :: l) :: fs) seen acc us))) with
          (w, wgo th (WSnap r ((parts, l) :: fs) seen (if is_node (w_nodes w) a then acc ++ [(join_path (parts ++ [name]), a)] else acc) us))
          by (destruct a as [x|c]; [destruct x; try reflexivity; exfalso; eapply Na; reflexivity|reflexivity]).
        destruct (iter_fields (iter_state_rec (S fuel) w) (w_nodes w) l seen parts) as [[ys sb]|] eqn:R; [|discriminate]. cbn [rbind] in E.
        destruct (is_node (w_nodes w) a); injection E as <- <-; [|now apply IHl]. replace (acc ++ (join_path (parts ++ [name]), a) :: ys) with ((acc ++ [(join_path (parts ++ [name]), a)]) ++ ys) by now rewrite <- app_assoc. now apply IHl.
Qed.
Lemma walk_steps th w r v todo : forall parts cur, let tr := (t, wt_level th) in
  match set_path (set_trace w tr) cur parts v with
  | Ok w2 => exists w1, reach t (w, wgo th (WWalk r cur parts v todo)) (w1, wgo th (WEntries r todo)) /\ w2 = set_trace w1 tr /\ w_trace w1 = w_trace w
  | Err e => reach t (w, wgo th (WWalk r cur parts v todo)) (w, wreturn th (Err e))
  end.
Proof.
  induction parts as [|name parts IH]; intros cur tr; [apply reach_step, reach_refl|]. destruct parts as [|name2 rest].
  - cbn [set_path]. rewrite load_put. destruct (wload w tr cur name v) as [a|e] eqn:L.
    + exists (wput w cur name a). split; [|split; [reflexivity|]].
      * apply reach_step. cbn [wstep1 wgo wt_pc wt_level]. fold tr. rewrite L. apply reach_step. cbn [wstep1 wgo wt_pc]. apply reach_refl.
      * unfold wput. destruct (get_obj w cur); reflexivity.
    + apply reach_step. cbn [wstep1 wgo wt_pc wt_level]. fold tr. rewrite L. apply reach_refl.
  - cbn [set_path]. change (get_obj (set_trace w tr) cur) with (get_obj w cur). specialize (IH). destruct (get_obj w cur) as [o|] eqn:G.
    2: { apply reach_step. cbn [wstep1 wgo wt_pc]. rewrite G. apply reach_refl. }
    destruct (dget name (m_vars o)) as [b|] eqn:D.
    2: { assert (RR : reach t (w, wgo th (WWalk r cur (name :: name2 :: rest) v todo)) (w, wreturn th (Err (if String.eqb name "_module__state" then OutOfModel else KeyError)))).
         { apply reach_step. cbn [wstep1 wgo wt_pc]. rewrite G, D. apply reach_refl. }
         destruct (String.eqb name "_module__state"); exact RR. }
    destruct (mod_or_not b) as [[q ->]|Nb].
    + assert (S1 : wstep1 w t (wgo th (WWalk r cur (name :: name2 :: rest) v todo)) = (w, wgo th (WWalk r q (name2 :: rest) v todo))) by (cbn [wstep1 wgo wt_pc]; rewrite G, D; reflexivity).
      specialize (IH q). cbn zeta in IH. fold tr in IH. change (match rest with [] => setattr (set_trace w tr) q name2 v | _ :: _ => _ end) with (set_path (set_trace w tr) q (name2 :: rest) v).
      destruct (set_path (set_trace w tr) q (name2 :: rest) v) as [w2|e].
      * destruct IH as (w1 & R & E & T). exists w1. split; [apply reach_step; rewrite S1; exact R|auto].
      * apply reach_step. rewrite S1. exact IH.
    + assert (S1 : wstep1 w t (wgo th (WWalk r cur (name :: name2 :: rest) v todo)) = (w, wreturn th (Err OutOfModel))).
      { cbn [wstep1 wgo wt_pc]. rewrite G, D. destruct b as [x|c]; [destruct x; try reflexivity; exfalso; eapply Nb; reflexivity|reflexivity]. }
      destruct b as [x|c]; [destruct x; try (apply reach_step; rewrite S1; apply reach_refl); exfalso; eapply Nb; reflexivity|apply reach_step; rewrite S1; apply reach_refl].
Qed.
Lemma loop_steps th r todo : forall w, let tr := (t, wt_level th) in
  exists w1, reach t (w, wgo th (WEntries r todo)) (w1, wreturn th (snd (update_loop (set_trace w tr) r todo))) /\ fst (update_loop (set_trace w tr) r todo) = set_trace w1 tr /\ w_trace w1 = w_trace w.
Proof.
  induction todo as [|[p v] todo IH]; intros w tr.
  - exists w. split; [apply reach_step, reach_refl|auto].
  - cbn [update_loop]. pose proof (walk_steps th w r v todo (split_slash p) r) as H. cbn zeta in H. fold tr in H. destruct (set_path (set_trace w tr) r (split_slash p) v) as [w2|e].
    + destruct H as (w1 & R & -> & T). destruct (IH w1) as (w3 & R3 & E3 & T3). exists w3. split; [|split; [exact E3|congruence]]. apply reach_step. cbn [wstep1 wgo wt_pc].
      eapply reach_trans; [exact R|exact R3].
    + exists w. split; [|auto]. apply reach_step. cbn [wstep1 wgo wt_pc]. exact H.
Qed.
Lemma restore w tr : set_trace (set_trace w tr) (w_trace w) = w.
Proof. now destruct w. Qed.
Lemma same_world w w1 tr : set_trace w1 tr = set_trace w tr -> w_trace w1 = w_trace w -> w1 = w.
Proof. intros E T. rewrite <- (restore w1 tr), E, T. apply restore. Qed.
End Alone.
Lemma solo_fine t k : forall w th w' th', apart w -> th_own w t th -> solo t k (w, th) = (w', th') -> same_owners w w' /\ apart w' /\ th_own w' t th'.
Proof.
  induction k as [|k IH]; intros w th w' th' A TO E; [injection E as <- <-; split; [apply owners_refl|auto]|]. cbn [solo fst snd] in E.
  destruct (wstep1 w t th) as [w1 th1] eqn:E1. destruct (step_fine _ _ _ _ _ A TO E1) as [F1 F2 F3 F4]. destruct (IH _ _ _ _ F2 F3 E) as (S & A' & T'). split; [eapply owners_trans; eauto|auto].
Qed.
Lemma loop_wf items : forall w r, wf_world w -> Forall (fun ka => attr_ok w (snd ka)) items -> wf_world (fst (update_loop w r items)).
Proof.
  induction items as [|[k a] items IH]; intros w r W F; [exact W|]. cbn [update_loop]. inversion F as [|? ? Ha F']; subst. destruct (set_path w r (split_slash k) a) as [w1|e] eqn:E; [|exact W].
  apply set_path_inv in E as (q & n & x & _ & _ & Hset). apply IH; [eapply setattr_wf; eauto|]. eapply Forall_impl; [|exact F']. intros [k' b] [B1 B2]. split; [exact B1|]. intros y Ey. specialize (B2 y Ey).
  destruct (setattr_shape _ _ _ _ _ Hset) as (S1 & _). cbn in *. assert (L : List.length (w_heap w1) = List.length (w_heap w)); [|now rewrite L].
  apply setattr_inv in Hset as (o1 & a' & G1 & _ & _ & _ & ->). cbn. apply list_set_length.
Qed.
Lemma ok_update w l : Forall (fun ka => attr_ok w (snd ka)) l -> forall d : dict attr, Forall (fun ka => attr_ok w (snd ka)) d -> Forall (fun ka => attr_ok w (snd ka)) (dupdate d l).
Proof. intros H d D. apply Forall_forall. intros [k a] I. apply In_dupdate in I as [I|I]; [exact (proj1 (Forall_forall _ _) D _ I)|exact (proj1 (Forall_forall _ _) H _ I)]. Qed.
Lemma ok_fold w us : Forall (fun u : state => Forall (fun ka => attr_ok w (snd ka)) u) us -> forall d : state, Forall (fun ka => attr_ok w (snd ka)) d ->
  Forall (fun ka => attr_ok w (snd ka)) (fold_left (fun acc s => dupdate acc s) us d).
Proof. induction us as [|u us IH]; intros H d D; [exact D|]. inversion H; subst. cbn. apply IH; auto. now apply ok_update. Qed.
Lemma owned_valid w t r : owned w t r -> r < List.length (w_heap w).
Proof. intros (o & G & _). eapply get_obj_lt; eauto. Qed.
Lemma own_ok w t a : own_value w t a -> wf_attr a -> attr_ok w a.
Proof. intros O W. split; [exact W|]. intros x E. eapply owned_valid. apply O. exact E. Qed.
Lemma set_trace_twice w a b : set_trace (set_trace w a) b = set_trace w b.
Proof. reflexivity. Qed.
Lemma alone t ops : forall lvl outs w tau, wf_world w -> apart w -> Forall (own_op w t) ops ->
  exists w1 lvl' tau', reach t (w, mkWth lvl WIdle ops outs) (w1, mkWth lvl' WIdle [] (outs ++ snd (in_turn (t, lvl) ops (set_trace w tau)))) /\
    fst (in_turn (t, lvl) ops (set_trace w tau)) = set_trace w1 tau'.
Proof.
  induction ops as [|op ops IH]; intros lvl outs w tau W A F.
  { exists w, lvl, tau. split; [|reflexivity]. cbn. rewrite app_nil_r. apply reach_refl. }
  pose proof F as F0. inversion F as [|? ? O1 O2]; subst.
  assert (NEXT : forall w1 lvl1 tau1 out, reach t (w, mkWth lvl WIdle (op :: ops) outs) (w1, mkWth lvl1 WIdle ops (outs ++ [out])) -> wf_world w1 ->
    in_turn (t, lvl) (op :: ops) (set_trace w tau) = (fst (in_turn (t, lvl1) ops (set_trace w1 tau1)), out :: snd (in_turn (t, lvl1) ops (set_trace w1 tau1))) ->
    exists w2 lvl' tau', reach t (w, mkWth lvl WIdle (op :: ops) outs) (w2, mkWth lvl' WIdle [] (outs ++ snd (in_turn (t, lvl) (op :: ops) (set_trace w tau)))) /\
      fst (in_turn (t, lvl) (op :: ops) (set_trace w tau)) = set_trace w2 tau').
  { intros w1 lvl1 tau1 out [k K] W1 E. destruct (solo_fine t k _ _ _ _ A (conj Logic.I F0 : th_own w t (mkWth lvl WIdle (op :: ops) outs)) K) as (SO & A1 & [_ T1]). cbn in T1.
    destruct (IH lvl1 (outs ++ [out]) w1 tau1 W1 A1 T1) as (w2 & lvl' & tau' & R & E2). exists w2, lvl', tau'. rewrite E. cbn [fst snd]. split; [|exact E2].
    eapply reach_trans; [exists k; exact K|]. now rewrite <- app_assoc in R. }
  set (tr := (t, lvl)) in *. destruct op as [q name v|r us|q name|n].
  - destruct O1 as [OV WV]. destruct (wload w tr q name v) as [a|e] eqn:L.
    + pose proof (load_put w tr q name v) as LP. rewrite L in LP. apply (NEXT (wput w q name a) lvl tr (Ok tt)).
      * apply reach_step. unfold wstep1. cbn [wt_pc wt_todo wt_level]. fold tr. rewrite L. apply reach_step. cbn. apply reach_refl.
      * assert (Wt : wf_world (set_trace (wput w q name a) tr)) by (eapply setattr_wf; [apply (set_trace_wf w tr W)|exact (own_ok w t v OV WV)|exact LP]).
        apply (set_trace_wf _ (w_trace (wput w q name a))) in Wt. rewrite restore in Wt. exact Wt.
      * cbn [in_turn]. rewrite set_trace_twice, LP. fold tr; destruct (in_turn tr ops _); reflexivity.
    + pose proof (load_put w tr q name v) as LP. rewrite L in LP. apply (NEXT w lvl tau (Err e)); [|exact W|].
      * apply reach_step. unfold wstep1. cbn [wt_pc wt_todo wt_level]. fold tr. rewrite L. apply reach_refl.
      * cbn [in_turn]. rewrite set_trace_twice, LP. fold tr; destruct (in_turn tr ops _); reflexivity.
  - destruct O1 as [OR OU]. pose proof (owned_valid _ _ _ OR) as V. destruct (get_state_total w r W V) as (s & GS & _). pose proof (set_trace_state w tr r W V) as GT. rewrite GS in GT.
    pose proof (get_state_plain _ _ _ W GS) as PS. unfold get_state in GS. destruct (iter_state w r) as [xs|] eqn:IS; [|discriminate]. injection GS as <-.
    unfold iter_state in IS. destruct (iter_state_rec (dfs_fuel w) w r [] []) as [[xs' seen']|] eqn:IR; [|discriminate]. injection IS as ->.
    set (items := fold_left (fun acc s => dupdate acc s) (mk_state xs :: us) []) in *.
    set (th := mkWth lvl WIdle (WUpdate r us :: ops) outs).
    destruct (loop_steps t th r items w) as (w1 & R & E & _). change (t, wt_level th) with tr in R, E.
    apply (NEXT w1 lvl tr (snd (update_loop (set_trace w tr) r items))).
    + apply reach_step. unfold wstep1. cbn [wt_pc wt_todo wt_level]. destruct OR as (o & G & _). rewrite G. unfold dfs_fuel in IR. cbn [iter_state_rec] in IR. rewrite G in IR. cbn [nmem existsb] in IR.
      eapply reach_trans; [eapply (snap_fields t w th r us _ _ _ _ _ _ []); exact IR|]. apply reach_step. exact R.
    + assert (Wt : wf_world (set_trace w1 tr)).
      { rewrite <- E. apply loop_wf; [now apply set_trace_wf|]. apply ok_fold; [|constructor]. constructor.
        - apply Forall_forall. intros [k a] I. destruct (PS k a I) as [P1 P2]. split; [exact P1|]. intros x Ex. cbn in Ex. subst a. discriminate.
        - apply Forall_forall. intros u Iu. apply Forall_forall. intros [k a] I. destruct (OU u k a Iu I) as [P1 P2]. exact (own_ok w t a P1 P2). }
      apply (set_trace_wf _ (w_trace w1)) in Wt. rewrite restore in Wt. exact Wt.
    + cbn [in_turn]. rewrite set_trace_twice. unfold update_state. rewrite GT. cbn [sts_list]. unfold update_module. fold items. destruct (update_loop (set_trace w tr) r items) as [w2 out]. cbn [fst snd] in *. rewrite E.
      fold tr; destruct (in_turn tr ops _); reflexivity.
  - assert (D : delattr (set_trace w tau) q name = match delattr w q name with Ok w' => Ok (set_trace w' tau) | Err e => Err e end).
    { unfold delattr. change (get_obj (set_trace w tau) q) with (get_obj w q). destruct (get_obj w q) as [o|]; [|reflexivity]. now destruct (dmem name (m_vars o)). }
    destruct (delattr w q name) as [w'|e] eqn:DE.
    + apply (NEXT w' lvl tau (Ok tt)).
      * apply reach_step. unfold wstep1. cbn [wt_pc wt_todo wt_level]. rewrite DE. apply reach_refl.
      * eapply delattr_wf; eauto.
      * cbn [in_turn]. rewrite D. fold tr; destruct (in_turn tr ops _); reflexivity.
    + apply (NEXT w lvl tau (Err e)); [|exact W|].
      * apply reach_step. unfold wstep1. cbn [wt_pc wt_todo wt_level]. rewrite DE. apply reach_refl.
      * cbn [in_turn]. rewrite D. fold tr; destruct (in_turn tr ops _); reflexivity.
  - apply (NEXT w n tau (Ok tt)); [|exact W|].
    + apply reach_step. cbn. apply reach_refl.
    + cbn [in_turn]. change (fst tr) with t. now destruct (in_turn (t, n) ops _).
Qed.
Lemma solo_done t k : forall w lvl outs, solo t k (w, mkWth lvl WIdle [] outs) = (w, mkWth lvl WIdle [] outs).
Proof. induction k as [|k IH]; intros; [reflexivity|]. cbn. apply IH. Qed.

(** ** together *)
Theorem together w threads t level ops : wf_world w -> apart w ->
  (forall t' lv os, nth_error threads t' = Some (lv, os) -> Forall (own_op w t') os) ->
  nth_error threads t = Some (level, ops) ->
  exists k, forall sch, k <= turns t sch ->
    let s := wruns (begin w threads) sch in
    exists th, nth_error (ws_threads s) t = Some th /\ wt_todo th = [] /\ wt_pc th = WIdle /\
      wt_outs th = snd (in_turn (t, level) ops w) /\
      forall r, owned w t r -> get_obj (ws_world s) r = get_obj (fst (in_turn (t, level) ops w)) r.
Proof.
  intros W A OO N. destruct (alone t ops level [] w (w_trace w) W A (OO _ _ _ N)) as (w1 & lvl' & tau & [k K] & E).
  assert (ST : set_trace w (w_trace w) = w) by now destruct w. rewrite ST in *. exists k. intros sch LE s.
  set (s0 := begin w threads) in *.
  assert (AO : all_own s0).
  { split; [exact A|]. intros t' th G. cbn in G. rewrite nth_error_map in G. destruct (nth_error threads t') as [[lv os]|] eqn:G'; [|discriminate]. injection G as <-. split; [exact Logic.I|]. cbn. eapply OO; eauto. }
  assert (G0 : nth_error (ws_threads s0) t = Some (start level ops)) by (cbn; rewrite nth_error_map, N; reflexivity).
  destruct (undisturbed sch s0 t (start level ops) w AO G0 (agree_refl t w)) as [H1 H2]. fold s in H1, H2.
  replace (turns t sch) with (k + (turns t sch - k)) in H1, H2 by lia. rewrite solo_app in H1, H2. unfold start in H1, H2. rewrite K, solo_done in H1, H2. cbn [fst snd] in H1, H2.
  eexists. split; [exact H1|]. cbn. split; [reflexivity|]. split; [reflexivity|]. split; [reflexivity|]. intros r R. rewrite E. change (get_obj (set_trace w1 tau) r) with (get_obj w1 r). symmetry. apply (proj2 H2).
  destruct (solo_fine t k _ _ _ _ A (conj Logic.I (OO _ _ _ N) : th_own w t (start level ops)) K) as (SO & _ & _).
  eapply owned_keep; [|eapply owned_keep; [exact SO|exact R]]. apply owners_sym. apply (proj1 H2).
Qed.

(** ** whatever the Modules hold: the guard *)
Definition checked (w : world) (t : nat) (pc : wpc) : Prop := match pc with WStore q _ _ => owned w t q | WPut _ q _ _ _ => owned w t q | _ => True end.
Lemma load_owned w t l q name v a : wload w (t, l) q name v = Ok a -> owned w t q.
Proof.
  unfold wload. destruct (get_obj w q) as [o|] eqn:G; [|discriminate]. destruct (trace_valid (set_trace w (t, l)) (m_trace o)) eqn:T; [|discriminate]. intros _. exists o. split; [exact G|].
  unfold trace_valid in T. cbn in T. apply andb_prop in T as [T _]. now apply Nat.eqb_eq in T.
Qed.
Lemma checked_keep w w' t pc : same_owners w w' -> checked w t pc -> checked w' t pc.
Proof. intros SO H. destruct pc; cbn in *; auto; eapply owned_keep; eauto. Qed.
Lemma step_guard w t th w' th' : checked w t (wt_pc th) -> Forall no_delete (wt_todo th) -> wstep1 w t th = (w', th') ->
  same_owners w w' /\ checked w' t (wt_pc th') /\ Forall no_delete (wt_todo th') /\ forall r, ~ owned w t r -> get_obj w' r = get_obj w r.
Proof.
  intros C ND E.
  assert (ND' : Forall no_delete (tl (wt_todo th))) by (destruct (wt_todo th); [constructor|now inversion ND]).
  assert (PUT : forall q name a pc todo, owned w t q -> w' = wput w q name a -> th' = mkWth (wt_level th) pc todo (wt_outs th') -> checked w t pc -> Forall no_delete todo ->
    same_owners w w' /\ checked w' t (wt_pc th') /\ Forall no_delete (wt_todo th') /\ forall r, ~ owned w t r -> get_obj w' r = get_obj w r).
  { intros q name a pc todo O -> -> Cp T. pose proof (wput_owners w q name a) as SO. split; [exact SO|]. cbn. split; [eapply checked_keep; eauto|]. split; [exact T|]. intros r R. apply wput_other. intros ->. contradiction. }
  assert (KEEP : w' = w -> checked w t (wt_pc th') -> Forall no_delete (wt_todo th') ->
    same_owners w w' /\ checked w' t (wt_pc th') /\ Forall no_delete (wt_todo th') /\ forall r, ~ owned w t r -> get_obj w' r = get_obj w r).
  { intros -> H1 H2. split; [apply owners_refl|auto]. }
  unfold wstep1 in E. destruct (wt_pc th) as [|q name a|r fs seen acc us|r todo|r cur parts v todo|r q name a todo] eqn:PC; cbn [checked] in C.
  - destruct (wt_todo th) as [|op rest] eqn:TD; [injection E as <- <-; apply KEEP; [auto|now rewrite PC|now rewrite TD]|]. cbn [tl] in ND'. inversion ND as [|? ? D1 _]; subst. destruct op as [q name v|r us|q name|n].
    + destruct (wload w (t, wt_level th) q name v) as [a|e] eqn:L; injection E as <- <-; apply KEEP; cbn; auto; [eapply load_owned; eauto|now rewrite TD|now rewrite TD].
    + destruct (get_obj w r); injection E as <- <-; apply KEEP; cbn; auto; now rewrite TD.
    + destruct D1.
    + injection E as <- <-. apply KEEP; cbn; auto.
  - injection E as <- <-. eapply PUT; [exact C|reflexivity|reflexivity|exact Logic.I|exact ND'].
  - destruct fs as [|[parts l] fs]; [injection E as <- <-; apply KEEP; cbn; auto|]. destruct l as [|[name a] l]; [injection E as <- <-; apply KEEP; cbn; auto|].
    destruct a as [x|c]; [|injection E as <- <-; apply KEEP; cbn; auto]. destruct x as [| | | | |q|]; try (injection E as <- <-; apply KEEP; cbn; auto; fail).
    destruct (get_obj w q) as [o|]; [|injection E as <- <-; apply KEEP; cbn; auto]. destruct (nmem (m_id o) seen); injection E as <- <-; apply KEEP; cbn; auto.
  - destruct todo as [|[p v] todo]; injection E as <- <-; apply KEEP; cbn; auto.
  - destruct parts as [|name [|name2 rest]]; [injection E as <- <-; apply KEEP; cbn; auto| |].
    + destruct (wload w (t, wt_level th) cur name v) as [a|e] eqn:L; injection E as <- <-; apply KEEP; cbn; auto. eapply load_owned; eauto.
    + destruct (get_obj w cur) as [o|]; [|injection E as <- <-; apply KEEP; cbn; auto]. destruct (dget name (m_vars o)) as [b|]; [|injection E as <- <-; apply KEEP; cbn; auto].
      destruct b as [x|c]; [|injection E as <- <-; apply KEEP; cbn; auto]. destruct x; injection E as <- <-; apply KEEP; cbn; auto.
  - injection E as <- <-. eapply PUT; [exact C|reflexivity|reflexivity|exact Logic.I|exact ND].
Qed.
Definition guarded (s : wsys) : Prop := forall t th, nth_error (ws_threads s) t = Some th -> checked (ws_world s) t (wt_pc th) /\ Forall no_delete (wt_todo th).
Lemma wstep_guarded s t : guarded s -> guarded (wstep s t) /\ same_owners (ws_world s) (ws_world (wstep s t)) /\ forall r, ~ owned (ws_world s) t r -> get_obj (ws_world (wstep s t)) r = get_obj (ws_world s) r.
Proof.
  intros T. unfold wstep. destruct (nth_error (ws_threads s) t) as [th|] eqn:G; [|split; [auto|split; [apply owners_refl|auto]]].
  destruct (wstep1 (ws_world s) t th) as [w' th'] eqn:E. destruct (T _ _ G) as [C ND]. destruct (step_guard _ _ _ _ _ C ND E) as (F1 & F2 & F3 & F4). cbn [ws_world]. split; [|auto].
  intros t' x H. cbn [ws_threads ws_world] in *. destruct (Nat.eq_dec t t') as [<-|N].
  - rewrite nth_list_set_same in H by (apply nth_error_Some; congruence). injection H as <-. auto.
  - rewrite nth_list_set_other in H by exact N. destruct (T _ _ H). split; [eapply checked_keep; eauto|auto].
Qed.
Theorem kept_out sch : forall s r o, guarded s -> get_obj (ws_world s) r = Some o -> ~ In (fst (m_trace o)) sch -> get_obj (ws_world (wruns s sch)) r = Some o.
Proof.
  induction sch as [|t sch IH]; intros s r o G H N; [exact H|]. cbn. destruct (wstep_guarded s t G) as (G' & _ & F). apply IH; [exact G'| |intros I; apply N; now right].
  rewrite F; [exact H|]. intros (o' & H' & E). apply N. left. congruence.
Qed.
Lemma start_guarded w threads : (forall t' lv os, nth_error threads t' = Some (lv, os) -> Forall no_delete os) -> guarded (begin w threads).
Proof.
  intros H t th G. cbn in G. rewrite nth_error_map in G. destruct (nth_error threads t) as [[lv os]|] eqn:G'; [|discriminate]. injection G as <-. split; [exact Logic.I|]. cbn. eapply H; eauto.
Qed.
(** Modules keep the trace they were made in, whatever anybody does *)
Lemma step_owners w t th : same_owners w (fst (wstep1 w t th)).
Proof.
  unfold wstep1. destruct (wt_pc th) as [|q name a|r fs seen acc us|r todo|r cur parts v todo|r q name a todo]; cbn [fst]; try apply wput_owners.
  - destruct (wt_todo th) as [|op rest]; [apply owners_refl|]. destruct op as [q name v|r us|q name|n].
    + destruct (wload w (t, wt_level th) q name v); apply owners_refl.
    + destruct (get_obj w r); apply owners_refl.
    + destruct (delattr w q name) as [w'|] eqn:D; [|apply owners_refl]. destruct (delattr_cases _ _ _ _ D) as (o & G & ->). now apply put_owners.
    + apply owners_refl.
  - destruct fs as [|[parts l] fs]; [apply owners_refl|]. destruct l as [|[name a] l]; [apply owners_refl|]. destruct a as [x|c]; [|apply owners_refl]. destruct x; try apply owners_refl.
    destruct (get_obj w r0) as [o|]; [|apply owners_refl]. destruct (nmem (m_id o) seen); apply owners_refl.
  - destruct todo as [|[p v] todo]; apply owners_refl.
  - destruct parts as [|name [|name2 rest]]; [apply owners_refl| |].
    + destruct (wload w (t, wt_level th) cur name v); apply owners_refl.
    + destruct (get_obj w cur) as [o|]; [|apply owners_refl]. destruct (dget name (m_vars o)) as [b|]; [|apply owners_refl]. destruct b as [x|c]; [|apply owners_refl]. destruct x; apply owners_refl.
Qed.
Lemma not_here_keep w w' t level op : same_owners w w' -> not_here w t level op -> not_here w' t level op.
Proof.
  intros [_ SO] (q & name & v & o & -> & G & N). specialize (SO q). rewrite G in SO. destruct (get_obj w' q) as [o'|] eqn:G'; [|discriminate]. cbn in SO. injection SO as SO.
  exists q, name, v, o'. split; [reflexivity|]. split; [exact G'|]. now rewrite SO.
Qed.
Lemma load_refused w t level q name v o : get_obj w q = Some o -> m_trace o <> (t, level) -> wload w (t, level) q name v = Err TraceContextError.
Proof.
  intros G N. unfold wload. rewrite G. destruct (trace_valid (set_trace w (t, level)) (m_trace o)) eqn:T; [|reflexivity]. exfalso. apply N. unfold trace_valid in T. cbn in T.
  apply andb_prop in T as [T1 T2]. apply Nat.eqb_eq in T1, T2. destruct (m_trace o). cbn in *. congruence.
Qed.
Theorem refused sch : forall s t level ops outs, nth_error (ws_threads s) t = Some (mkWth level WIdle ops outs) -> Forall (not_here (ws_world s) t level) ops ->
  let n := Nat.min (turns t sch) (List.length ops) in
  nth_error (ws_threads (wruns s sch)) t = Some (mkWth level WIdle (skipn n ops) (outs ++ repeat (Err TraceContextError) n)).
Proof.
  induction sch as [|x sch IH]; intros s t level ops outs G F n.
  { subst n. cbn. now rewrite app_nil_r. }
  subst n. rewrite turns_cons. cbn [wruns fold_left]. fold (wruns (wstep s x) sch). destruct (Nat.eq_dec x t) as [->|N].
  - destruct ops as [|op ops].
    + assert (Es : wstep s t = mkWsys (ws_world s) (list_set t (mkWth level WIdle [] outs) (ws_threads s))) by (unfold wstep; rewrite G; reflexivity). rewrite Es.
      rewrite Nat.min_0_r. specialize (IH (mkWsys (ws_world s) (list_set t (mkWth level WIdle [] outs) (ws_threads s))) t level [] outs). cbn [ws_threads ws_world] in IH. cbn zeta in IH. rewrite Nat.min_0_r in IH.
      apply IH; [|constructor]. apply nth_list_set_same. apply nth_error_Some. congruence.
    + inversion F as [|? ? (q & name & v & o & -> & Gq & Nq) F']; subst.
      assert (Es : wstep s t = mkWsys (ws_world s) (list_set t (mkWth level WIdle ops (outs ++ [Err TraceContextError])) (ws_threads s))).
      { unfold wstep. rewrite G. unfold wstep1. cbn [wt_pc wt_todo wt_level]. now rewrite (load_refused _ _ _ _ _ _ _ Gq Nq). }
      rewrite Es. specialize (IH (mkWsys (ws_world s) (list_set t (mkWth level WIdle ops (outs ++ [Err TraceContextError])) (ws_threads s))) t level ops (outs ++ [Err TraceContextError])). cbn [ws_threads ws_world] in IH.
      cbn [Nat.add List.length Nat.min]. cbn [skipn repeat]. rewrite IH; [|apply nth_list_set_same; apply nth_error_Some; congruence|exact F']. now rewrite <- app_assoc.
  - cbn [Nat.add]. apply IH.
    + unfold wstep. destruct (nth_error (ws_threads s) x) as [thx|]; [|exact G]. destruct (wstep1 (ws_world s) x thx). cbn. now rewrite nth_list_set_other.
    + eapply Forall_impl; [|exact F]. intros op. apply not_here_keep. unfold wstep. destruct (nth_error (ws_threads s) x) as [thx|]; [|apply owners_refl].
      pose proof (step_owners (ws_world s) x thx) as SO. now destruct (wstep1 (ws_world s) x thx).
Qed.
