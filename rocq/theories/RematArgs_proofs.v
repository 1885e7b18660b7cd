(** Arguments of rematerialised functions. *)
From Coq Require Import ZArith Lia.
From Verif Require Import PyBase PyBaseFacts ValuesM Spec_Eq FiltersM StateM ModuleM ContextM TransformM JitArgsM SpmdM ScanM RematArgsM Spec_State Spec_Module Spec_Prog Spec_JitArgs Spec_RematArgs.
From Verif Require Import Graph_facts Dfs_proofs Clone_proofs Laws_proofs Transform_proofs Context_proofs Scan_proofs JitArgs_proofs.
Local Open Scope string_scope.
Local Open Scope list_scope.

(** ** positions *)
Lemma In_options a d : In d (remat_options a) <-> exists z, given_num a z /\ d = (if (0 <=? z)%Z then (z + 2)%Z else z).
Proof.
  unfold remat_options. rewrite in_map_iff. destruct a as [x|l]; cbn [given_num In]; split.
  - intros (z & <- & [<-|[]]). exists x. auto.
  - intros (z & -> & ->). exists x. auto.
  - intros (z & <- & H). eauto.
  - intros (z & H & ->). eauto.
Qed.

Lemma range_ok a n : (forall z, given_num a z -> (- (Z.of_nat n + 2) <= z < Z.of_nat n)%Z) -> forallb (in_range (S (S n))) (remat_options a) = true.
Proof.
  intros H. apply forallb_forall. intros d Hd. apply In_options in Hd as (z & Hz & ->). specialize (H z Hz). unfold in_range.
  apply Bool.andb_true_iff. rewrite Z.leb_le, Z.ltb_lt. destruct (Z.leb_spec 0 z); lia.
Qed.
Lemma range_bad a n z : given_num a z -> ~ (- (Z.of_nat n + 2) <= z < Z.of_nat n)%Z -> forallb (in_range (S (S n))) (remat_options a) = false.
Proof.
  intros Hz H. apply Bool.not_true_iff_false. rewrite forallb_forall. intros F. specialize (F (if (0 <=? z)%Z then (z + 2)%Z else z)).
  unfold in_range in F. rewrite Bool.andb_true_iff, Z.leb_le, Z.ltb_lt in F. apply H.
  assert (In (if (0 <=? z)%Z then (z + 2)%Z else z) (remat_options a)) as G by (apply In_options; eauto). specialize (F G). destruct (Z.leb_spec 0 z); lia.
Qed.

Lemma mod_neg z m : (- m <= z < 0)%Z -> (z mod m = z + m)%Z.
Proof. intros H. rewrite <- (Z.mod_add z 1 m) by lia. rewrite Z.mul_1_l. apply Z.mod_small. lia. Qed.

Lemma static_iff a n i : i < n -> (forall z, given_num a z -> (- (Z.of_nat n + 2) <= z < Z.of_nat n)%Z) ->
  static_at (remat_options a) (S (S n)) (S (S i)) = true <-> static_arg a n i.
Proof.
  intros Hi H. unfold static_at. rewrite existsb_exists. split.
  - intros (d & Hd & E). apply Z.eqb_eq in E. apply In_options in Hd as (z & Hz & ->). split; [exact Hi|]. exists z. split; [exact Hz|]. specialize (H z Hz).
    destruct (Z.leb_spec 0 z).
    + rewrite Z.mod_small in E by lia. left. lia.
    + rewrite mod_neg in E by lia. right. lia.
  - intros (_ & z & Hz & E). exists (if (0 <=? z)%Z then (z + 2)%Z else z). split; [apply In_options; eauto|]. apply Z.eqb_eq. specialize (H z Hz).
    destruct (Z.leb_spec 0 z); [rewrite Z.mod_small by lia; lia|rewrite mod_neg by lia; lia].
Qed.
Lemma state_not_static a n : nums_ok a n -> static_at (remat_options a) (S (S n)) 0 = false.
Proof.
  intros H. apply Bool.not_true_iff_false. unfold static_at. rewrite existsb_exists. intros (d & Hd & E). apply Z.eqb_eq in E.
  apply In_options in Hd as (z & Hz & ->). destruct (H z Hz) as (i & Hi & K).
  destruct (Z.leb_spec 0 z); [rewrite Z.mod_small in E by lia; lia|rewrite mod_neg in E by lia; lia].
Qed.
Lemma nums_in a n : nums_ok a n -> forall z, given_num a z -> (- (Z.of_nat n + 2) <= z < Z.of_nat n)%Z.
Proof. intros H z Hz. destruct (H z Hz) as (i & Hi & K). lia. Qed.

Lemma dyn_check nums n ls : forall i, forallb leaf_ok (dyn_leaves nums n i ls) = true <->
  forall j l, nth_error ls j = Some l -> static_at nums n (i + j) = false -> forallb leaf_ok l = true.
Proof.
  induction ls as [|l ls IH]; intros i; cbn [dyn_leaves].
  - split; [intros _ [|j] l; discriminate|reflexivity].
  - rewrite forallb_app, Bool.andb_true_iff, IH. split.
    + intros [A B] [|j] l' E St.
      * injection E as <-. rewrite Nat.add_0_r in St. now rewrite St in A.
      * apply (B j l' E). now rewrite Nat.add_succ_comm.
    + intros H. split.
      * destruct (static_at nums n i) eqn:E; [reflexivity|]. apply (H 0 l); [reflexivity|now rewrite Nat.add_0_r].
      * intros j l' E St. apply (H (S j) l' E). now rewrite <- Nat.add_succ_comm.
Qed.
Lemma keys_fine pc : forallb leaf_ok (remat_keys pc) = true.
Proof. destruct pc as [pc|]; [|reflexivity]. cbn. apply forallb_forall. intros l Hl. apply in_map_iff in Hl as (x & <- & _). reflexivity. Qed.

Definition rgiven (s : state) (pc : option pctx) (args : list arg) : list (list leaf) :=
  flat_map state_leaves [s] :: remat_keys pc :: map arg_leaves args.
Lemma rgiven_length s pc args : List.length (rgiven s pc args) = S (S (List.length args)).
Proof. unfold rgiven. cbn [List.length]. now rewrite map_length. Qed.

Lemma jax_arg_iff x : forallb leaf_ok (arg_leaves x) = true <-> jax_arg x.
Proof. rewrite leaves_ok_spec. unfold jax_arg. split; intros H l Hl; apply H; now apply arg_leaves_spec. Qed.

Lemma rgiven_args a s pc args n : n = List.length args -> (forall z, given_num a z -> (- (Z.of_nat n + 2) <= z < Z.of_nat n)%Z) ->
  forallb leaf_ok (dyn_leaves (remat_options a) (S (S n)) 0 (rgiven s pc args)) = true <->
  (static_at (remat_options a) (S (S n)) 0 = false -> forallb leaf_ok (state_leaves s) = true) /\
  (forall i x, nth_error args i = Some x -> ~ static_arg a n i -> jax_arg x).
Proof.
  intros En R. rewrite dyn_check. unfold rgiven. cbn [flat_map]. rewrite app_nil_r. split.
  - intros H. split; [intros S0; exact (H 0 _ eq_refl S0)|]. intros i x Hx Hs. apply jax_arg_iff. apply (H (S (S i))).
    + cbn [nth_error]. rewrite nth_error_map, Hx. reflexivity.
    + apply Bool.not_true_iff_false. cbn [Nat.add]. rewrite static_iff; [exact Hs| |exact R]. subst n. apply nth_error_Some. congruence.
  - intros [H1 H2] [|[|j]] l E S0; cbn [nth_error Nat.add] in *.
    + injection E as <-. auto.
    + injection E as <-. apply keys_fine.
    + rewrite nth_error_map in E. destruct (nth_error args j) as [x|] eqn:Ex; [|discriminate]. injection E as <-. apply jax_arg_iff. apply (H2 j x Ex).
      intros Hs. apply (static_iff a n j) in Hs; [congruence| |exact R]. subst n. apply nth_error_Some. congruence.
Qed.

Lemma ctx_given_is cur ctx ss pc ss' : ctx_given cur ctx ss pc ss' ->
  (match ctx with
   | None => (Ok None, ss)
   | Some x => match context_partition cur x ss with
               | (Err e, ss') => (Err e, ss')
               | (Ok pc, ss') => (Ok (Some pc), ss')
               end
   end) = (Ok pc, ss').
Proof. destruct ctx as [x|]; cbn; [intros (q & -> & ->); reflexivity|intros [-> ->]; reflexivity]. Qed.

Lemma remat_unfold a t fn w r args ctx ss pc ss' : wf_world w -> valid w r -> ctx_given (w_trace w) ctx ss pc ss' ->
  exists s d, get_state w r = Ok s /\ get_module_def w r = Ok d /\ module_partition w r [] = Ok (mkPure (One s) d) /\
  remat_args (remat_options a) t fn w r args ctx ss =
    if negb (forallb (in_range (S (S (List.length args)))) (remat_options a)) then (w, ss', Err ValueError)
    else if negb (forallb leaf_ok (dyn_leaves (remat_options a) (S (S (List.length args))) 0 (rgiven s pc args))) then (w, ss', Err TypeError)
    else match pure_merge (set_trace w t) (mkPure (One s) d) with
         | Err e => (w, ss', Err e)
         | Ok (m, w1) =>
             match fn args pc w1 m with
             | (w2, Err e) => (set_trace w2 (w_trace w), ss', Err e)
             | (w2, Ok out) =>
                 match module_partition w2 m [] with
                 | Err e => (set_trace w2 (w_trace w), ss', Err e)
                 | Ok q =>
                     if negb (forallb leaf_ok (flat_map state_leaves (sts_list (p_states q)) ++ arg_leaves out))
                     then (set_trace w2 (w_trace w), ss', Err TypeError)
                     else match update_state (set_trace w2 (w_trace w)) r (UStates (p_states q)) with
                          | (w3, Err e) => (w3, ss', Err e)
                          | (w3, Ok _) => (w3, ss', Ok out)
                          end
                 end
             end
         end.
Proof.
  intros W V C. destruct (partition_one w r W V) as (s & d & S & D & P). exists s, d. do 3 (split; [assumption|]).
  unfold remat_args. rewrite P, (ctx_given_is _ _ _ _ _ C). cbn [p_states sts_list]. cbv zeta. fold (rgiven s pc args). rewrite rgiven_length. reflexivity.
Qed.

(** ** refused calls *)
Lemma remat_range a t fn w r args ctx ss pc ss' z : wf_world w -> valid w r -> ctx_given (w_trace w) ctx ss pc ss' ->
  given_num a z -> ~ (- (Z.of_nat (List.length args) + 2) <= z < Z.of_nat (List.length args))%Z ->
  remat_args (remat_options a) t fn w r args ctx ss = (w, ss', Err ValueError).
Proof.
  intros W V C Hz R. destruct (remat_unfold a t fn w r args ctx ss pc ss' W V C) as (s & d & _ & _ & _ & ->).
  rewrite (range_bad a _ z Hz R). reflexivity.
Qed.
Lemma remat_not_arrays a t fn w r args ctx ss pc ss' : wf_world w -> valid w r -> names_ok w r -> ctx_given (w_trace w) ctx ss pc ss' ->
  nums_ok a (List.length args) -> ~ remat_args_ok w r a args ->
  remat_args (remat_options a) t fn w r args ctx ss = (w, ss', Err TypeError).
Proof.
  intros W V N C Hn B. destruct (remat_unfold a t fn w r args ctx ss pc ss' W V C) as (s & d & S & _ & _ & ->).
  rewrite (range_ok a _ (nums_in _ _ Hn)). cbn [negb].
  destruct (forallb leaf_ok (dyn_leaves _ _ _ _)) eqn:F; [|reflexivity]. exfalso. apply B. apply rgiven_args in F as [F1 F2]; [|reflexivity|exact (nums_in _ _ Hn)].
  split; [|exact F2]. apply (state_ok_iff w r s W V N S). apply F1. now apply state_not_static.
Qed.

(** ** calls that go through *)
Section Through.
Variables (a : argnums) (t : trace_state) (f : list arg -> option pctx -> prog arg).
Variables (w : world) (r : nat) (args : list arg) (ctx : option context) (ss : list stream) (pc : option pctx) (ss' : list stream).
Hypothesis Hf : ok_prog (f args pc).
Hypothesis W : wf_world w.
Hypothesis V : valid w r.
Hypothesis N : names_ok w r.
Hypothesis L : live w r.
Hypothesis C : ctx_given (w_trace w) ctx ss pc ss'.
Hypothesis R : forall z, given_num a z -> (- (Z.of_nat (List.length args) + 2) <= z < Z.of_nat (List.length args))%Z.
Hypothesis G : remat_args_ok w r a args.
Let call := remat_args (remat_options a) t (fun x c => user_fun (f x c)) w r args ctx ss.

Lemma rthrough : exists m w2 wd res, wf_world w2 /\ w_nodes w2 = w_nodes w /\ user_fun (f args pc) w r = (wd, res) /\ wf_world wd /\ valid wd r /\
  all_unchanged w (set_trace w2 (w_trace w)) /\ get_state (set_trace w2 (w_trace w)) m = get_state wd r /\
  call = match res with
         | Err e => (set_trace w2 (w_trace w), ss', Err e)
         | Ok out => match get_state wd r with
                     | Err e => (set_trace w2 (w_trace w), ss', Err e)
                     | Ok u => if forallb leaf_ok (state_leaves u ++ arg_leaves out)
                               then let (w3, res) := update_state (set_trace w2 (w_trace w)) r (UStates (One u)) in (w3, ss', rmap (fun _ => out) res)
                               else (set_trace w2 (w_trace w), ss', Err TypeError)
                     end
         end /\
  jit_call true t (user_fun (f args pc)) w r =
         match res with
         | Err e => (set_trace w2 (w_trace w), Err e)
         | Ok out => match get_state wd r with
                     | Err e => (set_trace w2 (w_trace w), Err e)
                     | Ok u => let (w3, res) := update_state (set_trace w2 (w_trace w)) r (UStates (One u)) in (w3, rmap (fun _ => out) res)
                     end
         end.
Proof.
  destruct (remat_unfold a t (fun x c => user_fun (f x c)) w r args ctx ss pc ss' W V C) as (s & d & S & D & P & E).
  destruct (inner_run (f args pc) w r [] (mkPure (One s) d) t [s] Hf W V N L P) as (m & w1 & wd & w2 & res & Hm & E1 & E2 & W1 & W2 & V2 & Vd & N1 & N2 & Hun & Hst).
  { reflexivity. }
  exists m, w2, wd, res. repeat (split; [assumption|]). unfold call. rewrite E. rewrite (range_ok a _ R). cbn [negb].
  destruct G as [G1 G2].
  assert (K : forallb leaf_ok (dyn_leaves (remat_options a) (Datatypes.S (Datatypes.S (List.length args))) 0 (rgiven s pc args)) = true).
  { apply rgiven_args; [reflexivity|exact R|]. split; [|exact G2]. intros _. now apply (state_ok_iff w r s W V N S). }
  rewrite K. cbn [negb]. unfold jit_call. rewrite P. unfold jitted_fn, pure_merge. cbn [p_states p_def sts_list] in Hm |- *. rewrite Hm, E2, Hst.
  destruct res as [out|e]; [|split; reflexivity]. destruct (get_state_total wd r W1 Vd) as (u & U & _). rewrite U. cbn [rmap rbind].
  assert (Pq : exists dq, module_partition w2 m [] = Ok (mkPure (One u) dq)).
  { destruct (partition_one w2 m W2 V2) as (u' & dq & U' & _ & Q). exists dq. rewrite Q. rewrite set_trace_state in Hst by assumption. congruence. }
  destruct Pq as (dq & ->). cbn [p_states sts_list flat_map]. rewrite app_nil_r.
  split.
  - destruct (forallb leaf_ok (state_leaves u ++ arg_leaves out)); [|reflexivity].
    cbn [negb]. destruct (update_state _ r _) as [w3 [[]|e]]; reflexivity.
  - destruct (update_state _ r _) as [w3 [[]|e]]; reflexivity.
Qed.

Lemma rthrough_ok wd out : user_fun (f args pc) w r = (wd, Ok out) -> names_ok wd r -> jax_arg out -> jax_module wd r ->
  call = let (w', res) := jit_call true t (user_fun (f args pc)) w r in (w', ss', res).
Proof.
  intros Hrun Nd Ho Hs. destruct rthrough as (m & w2 & wd' & res & W2 & N2 & E & Wd & Vd & _ & _ & E1 & E2). rewrite Hrun in E. injection E as <- <-. rewrite E1, E2.
  destruct (get_state_total wd r Wd Vd) as (u & U & _). rewrite U, forallb_app, (proj2 (jax_arg_iff out) Ho), (proj2 (state_ok_iff wd r u Wd Vd Nd U) Hs). cbn [andb].
  destruct (update_state _ r _) as [w3 [[]|e]]; reflexivity.
Qed.
Lemma rthrough_bad wd out : user_fun (f args pc) w r = (wd, Ok out) -> names_ok wd r -> ~ (jax_arg out /\ jax_module wd r) ->
  exists w', call = (w', ss', Err TypeError) /\ all_unchanged w w' /\ w_trace w' = w_trace w.
Proof.
  intros Hrun Nd B. destruct rthrough as (m & w2 & wd' & res & W2 & N2 & E & Wd & Vd & Un & _ & E1 & _). rewrite Hrun in E. injection E as <- <-.
  exists (set_trace w2 (w_trace w)). split; [|split; [exact Un|reflexivity]]. rewrite E1.
  destruct (get_state_total wd r Wd Vd) as (u & U & _). rewrite U, forallb_app.
  destruct (forallb leaf_ok (state_leaves u)) eqn:F1; [|reflexivity]. destruct (forallb leaf_ok (arg_leaves out)) eqn:F2; [|reflexivity].
  exfalso. apply B. split; [now apply jax_arg_iff|]. now apply (state_ok_iff wd r u Wd Vd Nd U).
Qed.
Lemma rthrough_raises wd e : user_fun (f args pc) w r = (wd, Err e) ->
  exists w', call = (w', ss', Err e) /\ all_unchanged w w' /\ w_trace w' = w_trace w.
Proof.
  intros Hrun. destruct rthrough as (m & w2 & wd' & res & W2 & N2 & E & Wd & Vd & Un & _ & E1 & _). rewrite Hrun in E. injection E as <- <-.
  exists (set_trace w2 (w_trace w)). split; [exact E1|]. split; [exact Un|reflexivity].
Qed.
Lemma rthrough_undone wd e : user_fun (f args pc) w r = (wd, Err e) ->
  exists w', call = (w', ss', Err e) /\ all_unchanged w w' /\ w_trace w' = w_trace w /\ wf_world w' /\ w_nodes w' = w_nodes w.
Proof.
  intros Hrun. destruct rthrough as (m & w2 & wd' & res & W2 & N2 & E & Wd & Vd & Un & _ & E1 & _). rewrite Hrun in E. injection E as <- <-.
  exists (set_trace w2 (w_trace w)). split; [exact E1|]. auto using set_trace_wf.
Qed.
End Through.

(** ** the class *)
Lemma remat_start w cv ov : exists w1, (do w1 <- setattr (snd (new_module w Remat_cls)) (List.length (w_heap w)) "options" (ARaw ov);
    setattr w1 (List.length (w_heap w)) "module_constructor" (ARaw cv)) = Ok w1 /\
  get_obj w1 (List.length (w_heap w)) = Some (mkMobj Remat_cls (S (w_uuid w)) false (w_trace w) [("options", ARaw ov); ("module_constructor", ARaw cv)]) /\
  w_trace w1 = w_trace w /\ w_nodes w1 = w_nodes w /\ (forall x ob, get_obj w x = Some ob -> get_obj w1 x = Some ob).
Proof.
  cbn [new_module snd]. set (r := List.length (w_heap w)). set (o := mkMobj _ _ _ _ []). set (w1 := mkWorld _ _ _ _).
  assert (G1 : get_obj w1 r = Some o) by (unfold get_obj; cbn; rewrite nth_error_app2 by (unfold r; lia); unfold r; now rewrite Nat.sub_diag).
  rewrite (setattr_ok w1 r "options" (ARaw ov) o (ARaw ov) G1) by (reflexivity || discriminate). cbn [rbind].
  set (w2 := put_obj w1 r _). set (o2 := set_vars o (dset "options" (ARaw ov) (m_vars o))).
  assert (G2 : get_obj w2 r = Some o2) by (eapply get_put_same; eauto).
  rewrite (setattr_ok w2 r "module_constructor" (ARaw cv) o2 (ARaw cv) G2) by (reflexivity || discriminate). cbn [rbind].
  eexists. split; [reflexivity|]. split; [rewrite (get_put_same _ _ _ _ G2); reflexivity|]. split; [reflexivity|]. split; [reflexivity|].
  intros x ob H. assert (x < r) by (apply get_obj_lt in H; exact H). unfold w2. rewrite !get_put_other by lia. unfold get_obj in *. cbn. rewrite nth_error_app1; auto.
Qed.
