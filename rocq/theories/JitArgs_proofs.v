(** Arguments of jitted functions. *)
From Coq Require Import ZArith Lia.
From Verif Require Import PyBase PyBaseFacts ValuesM Spec_Eq ValuesFacts FiltersM StateM ModuleM ContextM TransformM JitArgsM Spec_State State_proofs Spec_Module Spec_Prog Spec_JitArgs.
From Verif Require Import Graph_facts Dfs_proofs Bisim_proofs Laws_proofs Clone_proofs Transform_proofs Context_proofs.
Local Open Scope string_scope.
Local Open Scope list_scope.

(** ** leaves *)
Section ArgInd.
Variable P : arg -> Prop.
Hypothesis Hv : forall v, P (GVal v).
Hypothesis Hk : forall k, P (GKey k).
Hypothesis Hc : forall x, P (GCtx x).
Hypothesis Hp : forall p, P (GPure p).
Hypothesis Ht : forall l, Forall P l -> P (GTuple l).
Hypothesis Hl : forall l, Forall P l -> P (GList l).
Hypothesis Hd : forall d, Forall (fun na => P (snd na)) d -> P (GDict d).
Fixpoint arg_ind' (a : arg) : P a :=
  match a with
  | GVal v => Hv v | GKey k => Hk k | GCtx x => Hc x | GPure p => Hp p
  | GTuple l => Ht l ((fix go (l : list arg) : Forall P l := match l with [] => Forall_nil _ | x :: t => Forall_cons _ (arg_ind' x) (go t) end) l)
  | GList l => Hl l ((fix go (l : list arg) : Forall P l := match l with [] => Forall_nil _ | x :: t => Forall_cons _ (arg_ind' x) (go t) end) l)
  | GDict d => Hd d ((fix go (d : list (string * arg)) : Forall (fun na => P (snd na)) d :=
                        match d with [] => Forall_nil _ | x :: t => Forall_cons _ (arg_ind' (snd x)) (go t) end) d)
  end.
End ArgInd.

Lemma val_leaves_spec v : forall x, In x (val_leaves v) <-> val_leaf v x.
Proof.
  induction v as [|b|z|s|l IH|r|c i] using pyval_ind'; intros x; cbn [val_leaves In].
  - split; [contradiction|]. intros H. inversion H; subst; congruence.
  - split; [intros [<-|[]]; constructor; congruence|intros H; inversion H; auto].
  - split; [intros [<-|[]]; constructor; congruence|intros H; inversion H; auto].
  - split; [intros [<-|[]]; constructor; congruence|intros H; inversion H; auto].
  - rewrite in_flat_map. rewrite Forall_forall in IH. split.
    + intros (v & Hv & Hx). eapply vl_tuple; [exact Hv|]. now apply IH.
    + intros H. inversion H as [l' v x' Hv Hx|? _ N]; subst; [exists v; split; [exact Hv|now apply IH]|]. now destruct (N l).
  - split; [intros [<-|[]]; constructor; congruence|intros H; inversion H; auto].
  - split; [intros [<-|[]]; constructor; congruence|intros H; inversion H; auto].
Qed.

Lemma arg_leaves_spec a : forall x, In x (arg_leaves a) <-> arg_leaf a x.
Proof.
  induction a as [v|k|c|p|l IH|l IH|d IH] using arg_ind'; intros x; cbn [arg_leaves].
  - rewrite in_map_iff. split; [intros (y & <- & H); constructor; now apply val_leaves_spec|intros H; inversion H; subst; eexists; split; [reflexivity|now apply val_leaves_spec]].
  - split; [intros [<-|[]]; constructor|intros H; inversion H; now left].
  - split; [intros [<-|[]]; constructor|intros H; inversion H; now left].
  - rewrite in_app_iff, in_map_iff. split.
    + intros [([n k] & <- & H)|[<-|[]]]; [eapply al_pure_key; exact H|constructor].
    + intros H. inversion H; subst; [left; eexists; split; [|eassumption]; reflexivity|right; now left].
  - rewrite Forall_forall in IH. rewrite in_flat_map. split.
    + intros (a & Ha & Hx). eapply al_tuple; [exact Ha|]. now apply IH.
    + intros H. inversion H; subst. eexists. split; [eassumption|]. now apply IH.
  - rewrite Forall_forall in IH. rewrite in_flat_map. split.
    + intros (a & Ha & Hx). eapply al_list; [exact Ha|]. now apply IH.
    + intros H. inversion H; subst. eexists. split; [eassumption|]. now apply IH.
  - rewrite Forall_forall in IH. rewrite in_flat_map. split.
    + intros ([n a] & Ha & Hx). eapply al_dict; [exact Ha|]. now apply (IH (n, a)).
    + intros H. inversion H as [| | | | | | |d' n a x' Ha Hx]; subst. exists (n, a). split; [exact Ha|]. now apply (IH (n, a)).
Qed.

Lemma leaf_ok_spec l : leaf_ok l = true <-> jax_leaf l.
Proof.
  destruct l as [[]| | |]; cbn [leaf_ok jax_leaf]; try (split; [discriminate|contradiction]); try tauto.
  rewrite existsb_exists. unfold array_classes. cbn [In]. split.
  - intros (n & [<-|[<-|[<-|[<-|[<-|[]]]]]] & H); apply smem_In in H; tauto.
  - intros [H|[H|[H|[H|H]]]]; apply smem_In in H; eexists; (split; [|exact H]); tauto.
Qed.
Lemma leaves_ok_spec l : forallb leaf_ok l = true <-> forall x, In x l -> jax_leaf x.
Proof. rewrite forallb_forall. split; intros H x Hx; apply leaf_ok_spec; auto. Qed.

Lemma val_hashable_spec v : val_hashable v = true <-> has_hash_val v.
Proof.
  induction v as [|b|z|s|l IH|r|c i] using pyval_ind'; cbn [val_hashable]; try (split; [intros _; constructor|reflexivity]).
  - rewrite forallb_forall. rewrite Forall_forall in IH. split.
    + intros H. constructor. apply Forall_forall. intros x Hx. apply IH; auto.
    + intros H. inversion H as [| | | | | |? F]; subst. rewrite Forall_forall in F. intros x Hx. apply IH; auto.
  - rewrite negb_true_iff. split.
    + intros H. constructor. intros n Hn Hc. apply Bool.not_true_iff_false in H. apply H. apply existsb_exists. exists n. split; [exact Hn|now apply smem_In].
    + intros H. inversion H as [| | | | |? ? F|]; subst. apply Bool.not_true_iff_false. intros E. apply existsb_exists in E as (n & Hn & Hc).
      apply (F n Hn). now apply smem_In.
Qed.
Lemma hashable_spec a : hashable a = true <-> has_hash a.
Proof.
  induction a as [v|k|c|p|l IH|l IH|d IH] using arg_ind'; cbn [hashable]; try (split; [discriminate|intros H; inversion H]).
  - rewrite val_hashable_spec. split; [now constructor|intros H; now inversion H].
  - split; [constructor|reflexivity].
  - rewrite forallb_forall. rewrite Forall_forall in IH. split.
    + intros H. constructor. apply Forall_forall. intros x Hx. apply IH; auto.
    + intros H. inversion H as [| |? F]; subst. rewrite Forall_forall in F. intros x Hx. apply IH; auto.
Qed.

(** ** states *)
Lemma state_leaves_In s x : NoDup (keys s) -> In x (state_leaves s) <-> exists k a v, dget k s = Some a /\ val_leaf (match a with ARaw v => v | ACont c => c_val c end) v /\ x = LVal v.
Proof.
  intros N. unfold state_leaves. rewrite in_flat_map. split.
  - intros ([k a] & H & Hx). apply in_map_iff in Hx as (v & <- & Hv). exists k, a, v. split; [now apply In_dget|]. split; [now apply val_leaves_spec|reflexivity].
  - intros (k & a & v & H & Hv & ->). exists (k, a). split; [now apply dget_In|]. apply in_map_iff. exists v. split; [reflexivity|now apply val_leaves_spec].
Qed.
Lemma state_ok_iff w r s : wf_world w -> valid w r -> names_ok w r -> get_state w r = Ok s ->
  (forallb leaf_ok (state_leaves s) = true <-> jax_module w r).
Proof.
  intros W V N S. destruct (get_state_entries w r W V N) as (s' & path & S' & K & _ & P & _). assert (s' = s) by congruence. subst s'.
  assert (ND : NoDup (keys s)). { destruct (get_state_total w r W V) as (s2 & E & Ws). assert (s2 = s) by congruence. subst. now apply wf_NoDup. }
  rewrite leaves_ok_spec. split.
  - intros H x n a v l Hx Ha -> Hl. apply H. apply state_leaves_In; [exact ND|]. exists (join_path (path x n ++ [n])), a, l. split; [|auto]. apply P. eauto.
  - intros H x Hx. apply state_leaves_In in Hx as (k & a & v & D & Hv & ->); [|exact ND]. apply P in D as (y & n & Hy & Ha & _). eapply H; eauto.
Qed.

(** ** forking *)
Lemma fork_all_counts items : forall ss fs ss', fork_all items ss = (Ok fs, ss') ->
  List.length ss' = List.length ss /\ forall i s, nth_error ss i = Some s ->
    nth_error ss' i = Some (mkStream (s_key s) (s_count s + count_occ Nat.eq_dec (map snd items) i) (s_path s)).
Proof.
  induction items as [|[n i] items IH]; intros ss fs ss' H; cbn [fork_all] in H.
  - injection H as <- <-. split; [reflexivity|]. intros i s E. rewrite E. cbn. rewrite Nat.add_0_r. destruct s; reflexivity.
  - destruct (nth_error ss i) as [s0|] eqn:E0; [|discriminate].
    destruct (fork_all items (list_set i (bump s0) ss)) as [[fs1|e] ss1] eqn:F; [|discriminate]. cbn in H. injection H as <- <-.
    apply IH in F as [L G]. rewrite list_set_length in L. split; [exact L|]. intros j s E. cbn [map snd count_occ].
    destruct (Nat.eq_dec i j) as [<-|Hne].
    + assert (s = s0) by congruence. subst s0.
      rewrite (G i (bump s)); [cbn; do 2 f_equal; lia|]. apply nth_list_set_same. apply nth_error_Some. congruence.
    + apply G. rewrite nth_list_set_other by congruence. exact E.
Qed.
Lemma partition_forked cur x ss pc ss' : context_partition cur x ss = (Ok pc, ss') -> forked x ss ss'.
Proof.
  unfold context_partition. destruct (negb (trace_ok cur (x_trace x))); [discriminate|].
  destruct (fork_all (x_rngs x) ss) as [[fs|e] ss1] eqn:F; [|discriminate]. cbn. intros [= _ <-]. now apply fork_all_counts in F.
Qed.

(** ** the checks *)
Lemma static_check static (kwargs : dict arg) :
  existsb (fun ka => smem (fst ka) static && negb (hashable (snd ka))) kwargs = false <->
  forall n a, In (n, a) kwargs -> In n static -> has_hash a.
Proof.
  rewrite <- Bool.not_true_iff_false, existsb_exists. split.
  - intros H n a Hi Hs. apply hashable_spec. destruct (hashable a) eqn:E; [reflexivity|]. exfalso. apply H. exists (n, a). split; [exact Hi|].
    cbn. rewrite E. cbn. rewrite Bool.andb_true_r. now apply smem_In.
  - intros H ([n a] & Hi & E). cbn in E. apply andb_prop in E as [E1 E2]. apply smem_In in E1. apply negb_true_iff in E2.
    specialize (H n a Hi E1). apply hashable_spec in H. congruence.
Qed.
Definition given_leaves (static : list string) (p : pure) (args : list arg) (kwargs : dict arg) : list leaf :=
  flat_map state_leaves (sts_list (p_states p)) ++ flat_map arg_leaves args ++
  flat_map (fun ka => if smem (fst ka) static then [] else arg_leaves (snd ka)) kwargs.
Lemma given_check static p args kwargs w r s : wf_world w -> valid w r -> names_ok w r -> get_state w r = Ok s -> p_states p = One s ->
  (forallb leaf_ok (given_leaves static p args kwargs) = true <->
   jax_module w r /\ Forall jax_arg args /\ forall n a, In (n, a) kwargs -> ~ In n static -> jax_arg a).
Proof.
  intros W V N S P. unfold given_leaves. rewrite !forallb_app, !Bool.andb_true_iff, P. cbn [sts_list flat_map]. rewrite app_nil_r, (state_ok_iff w r s W V N S), !leaves_ok_spec.
  split; intros (H1 & H2 & H3); (split; [exact H1|split]).
  - apply Forall_forall. intros a Ha l Hl. apply H2. apply in_flat_map. exists a. split; [exact Ha|now apply arg_leaves_spec].
  - intros n a Ha Hs l Hl. apply H3. apply in_flat_map. exists (n, a). split; [exact Ha|]. cbn. apply smem_false in Hs. rewrite Hs. now apply arg_leaves_spec.
  - intros l Hl. apply in_flat_map in Hl as (a & Ha & Hl). rewrite Forall_forall in H2. apply (H2 a Ha). now apply arg_leaves_spec.
  - intros l Hl. apply in_flat_map in Hl as ([n a] & Ha & Hl). cbn in Hl. destruct (smem n static) eqn:E; [contradiction|]. apply smem_false in E.
    apply (H3 n a Ha E). now apply arg_leaves_spec.
Qed.

Lemma partition_one w r : wf_world w -> valid w r -> exists s d, get_state w r = Ok s /\ get_module_def w r = Ok d /\ module_partition w r [] = Ok (mkPure (One s) d).
Proof.
  intros Hw Hr. destruct (partition_ok_iff_state w r [] Hw Hr) as (d & s & D & S & _ & H). cbn in H. eauto.
Qed.

Lemma call_plain static stateful t fn w r args kwargs ss p : no_context kwargs -> module_partition w r [] = Ok p ->
  jit_call_args static stateful t fn w (ARaw (PyMod r)) args kwargs ss =
  match jit_run static stateful t fn w p args kwargs with
  | (w1, Err e) => (w1, ss, Err e)
  | (w1, Ok (None, out)) => (w1, ss, Ok out)
  | (w1, Ok (Some updates, out)) =>
      match update_state w1 r (UStates (One updates)) with
      | (w2, Ok _) => (w2, ss, Ok out)
      | (w2, Err e) => (w2, ss, Err e)
      end
  end.
Proof.
  intros H P. unfold jit_call_args. destruct (dget "ctx" kwargs) as [[]|] eqn:E; try (rewrite P; reflexivity). now apply H in E.
Qed.

Lemma refused_plain static stateful t fn w r args kwargs ss : wf_world w -> valid w r -> names_ok w r -> no_context kwargs -> hashed static kwargs ->
  ~ (jax_module w r /\ Forall jax_arg args /\ (forall n a, In (n, a) kwargs -> ~ In n static -> jax_arg a)) ->
  jit_call_args static stateful t fn w (ARaw (PyMod r)) args kwargs ss = (w, ss, Err TypeError).
Proof.
  intros W V N C H B. destruct (partition_one w r W V) as (s & d & S & _ & P). rewrite (call_plain _ _ _ _ _ _ _ _ _ _ C P). unfold jit_run.
  apply static_check in H. rewrite H. fold (given_leaves static (mkPure (One s) d) args kwargs).
  pose proof (given_check static (mkPure (One s) d) args kwargs w r s W V N S eq_refl) as G.
  destruct (forallb leaf_ok (given_leaves static (mkPure (One s) d) args kwargs)); [|reflexivity]. exfalso. apply B, G. reflexivity.
Qed.

Lemma refused_hash static stateful t fn w r args kwargs ss n a : wf_world w -> valid w r -> no_context kwargs -> In (n, a) kwargs -> In n static -> ~ has_hash a ->
  jit_call_args static stateful t fn w (ARaw (PyMod r)) args kwargs ss = (w, ss, Err ValueError).
Proof.
  intros W V C Hi Hs Hh. destruct (partition_one w r W V) as (s & d & S & _ & P). rewrite (call_plain _ _ _ _ _ _ _ _ _ _ C P). unfold jit_run.
  destruct (existsb _ kwargs) eqn:E; [reflexivity|]. pose proof (proj1 (static_check _ _) E n a Hi Hs). contradiction.
Qed.

Lemma pure_not_jax pc : ~ jax_arg (GPure pc).
Proof. intros H. exact (H _ (al_pure_def pc)). Qed.
Lemma pure_no_hash pc : ~ has_hash (GPure pc).
Proof. intros H. inversion H. Qed.

Lemma dset_In_new {A} k (v : A) d : In (k, v) (dset k v d).
Proof. apply dget_In, dget_dset_same. Qed.
Lemma dset_In_inv {A} k (v : A) d n a : In (n, a) (dset k v d) -> n = k /\ a = v \/ In (n, a) d.
Proof.
  induction d as [|[k' v'] d IH]; cbn; [intros [[= <- <-]|[]]; auto|]. destruct (String.eqb_spec k k') as [<-|Hn]; cbn.
  - intros [[= <- <-]|H]; auto.
  - intros [H|H]; [right; now left|]. destruct (IH H); auto.
Qed.

Lemma refused_context static stateful t fn w r args kwargs x ss pc ss' : wf_world w -> valid w r -> dget "ctx" kwargs = Some (GCtx x) ->
  context_partition (w_trace w) x ss = (Ok pc, ss') -> (forall n a, In (n, a) kwargs -> n <> "ctx" -> In n static -> has_hash a) ->
  jit_call_args static stateful t fn w (ARaw (PyMod r)) args kwargs ss =
    (w, ss', Err (if in_dec string_dec "ctx" static then ValueError else TypeError)).
Proof.
  intros W V C X H. destruct (partition_one w r W V) as (s & d & S & _ & P). unfold jit_call_args. rewrite C, X, P. unfold jit_run.
  destruct (in_dec string_dec "ctx" static) as [Hs|Hs].
  - destruct (existsb _ (dset "ctx" (GPure pc) kwargs)) eqn:E; [reflexivity|]. exfalso.
    apply (pure_no_hash pc). exact (proj1 (static_check _ _) E "ctx" _ (dset_In_new _ _ _) Hs).
  - assert (E : existsb (fun ka => smem (fst ka) static && negb (hashable (snd ka))) (dset "ctx" (GPure pc) kwargs) = false).
    { apply static_check. intros n a Hi Hn. destruct (dset_In_inv _ _ _ _ _ Hi) as [[-> _]|Hi2]; [contradiction|].
      apply (H n a Hi2); [|exact Hn]. intros ->. contradiction. }
    rewrite E. fold (given_leaves static (mkPure (One s) d) args (dset "ctx" (GPure pc) kwargs)).
    destruct (forallb leaf_ok (given_leaves _ _ _ _)) eqn:F; [|reflexivity]. exfalso.
    unfold given_leaves in F. rewrite !forallb_app, !Bool.andb_true_iff in F. destruct F as (_ & _ & F). rewrite leaves_ok_spec in F.
    refine (F (LDef (pc_counts pc) (pc_flags pc)) _). apply in_flat_map. exists ("ctx", GPure pc). split; [apply dset_In_new|]. cbn [fst snd].
    apply smem_false in Hs. rewrite Hs. apply arg_leaves_spec. constructor.
Qed.

Lemma partition_total x ss cur : x_trace x = cur -> (forall n i, In (n, i) (x_rngs x) -> i < List.length ss) ->
  exists pc ss', context_partition cur x ss = (Ok pc, ss').
Proof.
  intros T H. destruct (fork_all_ok (x_rngs x) ss) as (fs & ss' & F). { intros i Hi. apply in_map_iff in Hi as ([n j] & <- & Hi). eapply H; exact Hi. }
  unfold context_partition, trace_ok. rewrite T, !Nat.eqb_refl, F. cbn. eauto.
Qed.

(** ** calls that go through *)
Section Through.
Variables (static : list string) (stateful : bool) (t : trace_state) (f : list arg -> dict arg -> prog arg).
Variables (w : world) (r : nat) (args : list arg) (kwargs : dict arg) (ss : list stream).
Hypothesis Hf : ok_prog (f args kwargs).
Hypothesis W : wf_world w.
Hypothesis V : valid w r.
Hypothesis N : names_ok w r.
Hypothesis L : live w r.
Hypothesis C : no_context kwargs.
Hypothesis H : hashed static kwargs.
Hypothesis G : jax_module w r /\ Forall jax_arg args /\ (forall n a, In (n, a) kwargs -> ~ In n static -> jax_arg a).
Let call := jit_call_args static stateful t (fun a k => user_fun (f a k)) w (ARaw (PyMod r)) args kwargs ss.

Lemma through : exists m w2 wd res, wf_world w2 /\ w_nodes w2 = w_nodes w /\ user_fun (f args kwargs) w r = (wd, res) /\ wf_world wd /\ valid wd r /\ w_nodes wd = w_nodes w /\
  all_unchanged w (set_trace w2 (w_trace w)) /\ get_state (set_trace w2 (w_trace w)) m = get_state wd r /\
  call = match res with
         | Err e => (set_trace w2 (w_trace w), ss, Err e)
         | Ok out => match (if stateful then rmap Some (get_state wd r) else Ok None) with
                     | Err e => (set_trace w2 (w_trace w), ss, Err e)
                     | Ok u => if forallb leaf_ok (match u with Some s => state_leaves s | None => [] end ++ arg_leaves out) then
                                 match u with
                                 | None => (set_trace w2 (w_trace w), ss, Ok out)
                                 | Some u => let (w3, res) := update_state (set_trace w2 (w_trace w)) r (UStates (One u)) in (w3, ss, rmap (fun _ => out) res)
                                 end
                               else (set_trace w2 (w_trace w), ss, Err TypeError)
                     end
         end /\
  jit_call stateful t (user_fun (f args kwargs)) w r =
         match res with
         | Err e => (set_trace w2 (w_trace w), Err e)
         | Ok out => match (if stateful then rmap Some (get_state wd r) else Ok None) with
                     | Err e => (set_trace w2 (w_trace w), Err e)
                     | Ok None => (set_trace w2 (w_trace w), Ok out)
                     | Ok (Some u) => let (w3, res) := update_state (set_trace w2 (w_trace w)) r (UStates (One u)) in (w3, rmap (fun _ => out) res)
                     end
         end.
Proof.
  destruct (partition_one w r W V) as (s & d & S & _ & P).
  destruct (inner_run (f args kwargs) w r [] (mkPure (One s) d) t [s] Hf W V N L P) as (m & w1 & wd & w2 & res & Hm & E1 & E2 & W1 & W2 & V2 & Vd & N1 & N2 & Hun & Hst).
  { reflexivity. }
  exists m, w2, wd, res. repeat (split; [assumption|]). unfold call. rewrite (call_plain _ _ _ _ _ _ _ _ _ _ C P). unfold jit_run.
  pose proof H as H'. apply static_check in H'. rewrite H'. fold (given_leaves static (mkPure (One s) d) args kwargs).
  pose proof (proj2 (given_check static (mkPure (One s) d) args kwargs w r s W V N S eq_refl) G) as K. rewrite K. cbn [negb].
  unfold jit_call. rewrite P. unfold jitted_fn, pure_merge. cbn [p_states p_def sts_list] in Hm |- *. rewrite Hm, E2, Hst.
  destruct res as [out|e]; [|split; reflexivity]. destruct stateful; cbn [rmap].
  - destruct (get_state wd r) as [u|e]; cbn [rmap rbind]; [|split; reflexivity]. split.
    + destruct (forallb leaf_ok (state_leaves u ++ arg_leaves out)); [|reflexivity].
      destruct (update_state _ r _) as [w3 [[]|e]]; reflexivity.
    + destruct (update_state _ r _) as [w3 [[]|e]]; reflexivity.
  - split; [|reflexivity]. destruct (forallb leaf_ok ([] ++ arg_leaves out)); reflexivity.
Qed.

(** results made of arrays: as without the checks *)
Lemma through_ok wd out : user_fun (f args kwargs) w r = (wd, Ok out) -> (stateful = true -> names_ok wd r) ->
  jax_arg out -> (stateful = true -> jax_module wd r) ->
  call = let (w', res) := jit_call stateful t (user_fun (f args kwargs)) w r in (w', ss, res).
Proof.
  intros Hrun Nd Ho Hs. destruct through as (m & w2 & wd' & res & W2 & N2 & E & Wd & Vd & _ & _ & _ & E1 & E2). rewrite Hrun in E. injection E as <- <-. rewrite E1, E2.
  assert (Lo : forallb leaf_ok (arg_leaves out) = true). { apply leaves_ok_spec. intros l Hl. apply Ho. now apply arg_leaves_spec. }
  destruct stateful.
  - destruct (get_state_total wd r Wd Vd) as (u & U & _). rewrite U. cbn [rmap rbind]. rewrite forallb_app, Lo.
    rewrite (proj2 (state_ok_iff wd r u Wd Vd (Nd eq_refl) U) (Hs eq_refl)). cbn [andb].
    destruct (update_state _ r _) as [w3 [[]|e]]; reflexivity.
  - cbn [app]. rewrite Lo. reflexivity.
Qed.
(** other results *)
Lemma through_bad wd out : user_fun (f args kwargs) w r = (wd, Ok out) -> (stateful = true -> names_ok wd r) ->
  ~ (jax_arg out /\ (stateful = true -> jax_module wd r)) ->
  exists w', call = (w', ss, Err TypeError) /\ all_unchanged w w' /\ w_trace w' = w_trace w.
Proof.
  intros Hrun Nd B. destruct through as (m & w2 & wd' & res & W2 & N2 & E & Wd & Vd & _ & Un & _ & E1 & _). rewrite Hrun in E. injection E as <- <-.
  exists (set_trace w2 (w_trace w)). split; [|split; [exact Un|reflexivity]]. rewrite E1.
  assert (Lo : forallb leaf_ok (arg_leaves out) = true -> jax_arg out). { intros F l Hl. rewrite leaves_ok_spec in F. apply F. now apply arg_leaves_spec. }
  destruct stateful.
  - destruct (get_state_total wd r Wd Vd) as (u & U & _). rewrite U. cbn [rmap rbind]. rewrite forallb_app.
    pose proof (proj1 (state_ok_iff wd r u Wd Vd (Nd eq_refl) U)) as Ms.
    destruct (forallb leaf_ok (state_leaves u)), (forallb leaf_ok (arg_leaves out)); cbn [andb]; try reflexivity. exfalso. apply B. split; auto.
  - cbn [app]. destruct (forallb leaf_ok (arg_leaves out)); [|reflexivity]. exfalso. apply B. split; [auto|discriminate].
Qed.
Lemma through_raises wd e : user_fun (f args kwargs) w r = (wd, Err e) ->
  exists w', call = (w', ss, Err e) /\ all_unchanged w w' /\ w_trace w' = w_trace w.
Proof.
  intros Hrun. destruct through as (m & w2 & wd' & res & W2 & N2 & E & Wd & Vd & _ & Un & _ & E1 & _). rewrite Hrun in E. injection E as <- <-.
  exists (set_trace w2 (w_trace w)). split; [exact E1|]. split; [exact Un|reflexivity].
Qed.
Lemma through_undone wd res : user_fun (f args kwargs) w r = (wd, res) -> (stateful = false \/ exists e, res = Err e) ->
  (forall out, res = Ok out -> jax_arg out) ->
  exists w', call = (w', ss, res) /\ all_unchanged w w' /\ w_trace w' = w_trace w /\ wf_world w' /\ w_nodes w' = w_nodes w.
Proof.
  intros Hrun Hs Ho. destruct through as (m & w2 & wd' & res' & W2 & N2 & E & Wd & Vd & _ & Un & _ & E1 & _). rewrite Hrun in E. injection E as <- <-.
  exists (set_trace w2 (w_trace w)). split; [|auto using set_trace_wf]. rewrite E1. destruct res as [out|e]; [|reflexivity].
  destruct Hs as [->|[e ?]]; [|discriminate]. cbn [app].
  assert (Lo : forallb leaf_ok (arg_leaves out) = true). { apply leaves_ok_spec. intros l Hl. apply (Ho out eq_refl). now apply arg_leaves_spec. }
  now rewrite Lo.
Qed.
End Through.
