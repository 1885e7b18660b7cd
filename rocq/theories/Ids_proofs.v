(** Proofs about the id counter. *)
From Verif Require Import PyBase PyBaseFacts IdsM.
Local Open Scope list_scope.

Definition pc_ok (id n : nat) (pc : id_pc) : Prop :=
  match pc with
  | PIdle => False
  | PLocked => id = n
  | PLoaded v => v = n /\ id = n
  | PStored => id = S n
  | PGot v => v = S n /\ id = S n
  end.
Record id_inv (s : id_state) : Prop := mkIdInv {
  ii_ret : returned_ids s = seq 1 (List.length (i_ret s));
  ii_free : i_lock s = None -> i_id s = List.length (i_ret s);
  ii_held : forall t, i_lock s = Some t -> exists th, nth_error (i_threads s) t = Some th /\
              pc_ok (i_id s) (List.length (i_ret s)) (t_pc th) /\ t_todo th <> [];
  ii_out : forall t th, nth_error (i_threads s) t = Some th -> i_lock s <> Some t -> t_pc th = PIdle }.

Lemma id_step_inv s t : id_inv s -> id_inv (id_step s t).
Proof.
  intros [R F H O]. unfold id_step. destruct (nth_error (i_threads s) t) as [th|] eqn:T; [|now constructor].
  destruct (t_todo th) as [|call rest]; [now constructor|].
  assert (LT : t < List.length (i_threads s)) by (apply nth_error_Some; congruence).
  assert (HELD : t_pc th <> PIdle -> i_lock s = Some t /\ pc_ok (i_id s) (List.length (i_ret s)) (t_pc th)).
  { intros NI. destruct (i_lock s) as [t'|] eqn:L.
    - destruct (Nat.eq_dec t' t) as [->|NE].
      + destruct (H t eq_refl) as (th' & T' & P & _). rewrite T in T'. inversion T'; subst. auto.
      + exfalso. apply NI. apply (O t th T). congruence.
    - exfalso. apply NI. apply (O t th T). congruence. }
  assert (OUT : forall th' lk, (lk = Some t \/ t_pc th' = PIdle) ->
            (lk = i_lock s \/ i_lock s = None \/ i_lock s = Some t) ->
            forall u tu, nth_error (list_set t th' (i_threads s)) u = Some tu -> lk <> Some u -> t_pc tu = PIdle).
  { intros th' lk A B u tu U NL. destruct (Nat.eq_dec t u) as [<-|NE].
    - rewrite nth_list_set_same in U by exact LT. inversion U; subst. destruct A as [A|A]; [congruence|exact A].
    - rewrite nth_list_set_other in U by exact NE. apply (O u tu U).
      destruct B as [<-|[B|B]]; congruence. }
  destruct (t_pc th) as [| |v| |v] eqn:PC.
  - destruct (i_lock s) as [t'|] eqn:L; [now constructor; rewrite ?L|].
    constructor; [exact R|cbn; discriminate| |].
    + cbn. intros u [= <-]. exists (mkThread PLocked (call :: rest)). rewrite nth_list_set_same by exact LT. split; [reflexivity|].
      cbn. split; [auto|discriminate].
    + cbn. intros u tu U NL. exact (OUT _ (Some t) (or_introl eq_refl) (or_intror (or_introl eq_refl)) u tu U NL).
  - destruct HELD as [L P]; [discriminate|]. cbn in P. constructor; [exact R|cbn; congruence| |].
    + cbn. intros u U. rewrite L in U. inversion U; subst u. eexists. rewrite nth_list_set_same by exact LT. split; [reflexivity|].
      cbn. split; [auto|discriminate].
    + cbn. intros u tu U NL. exact (OUT _ (i_lock s) (or_introl L) (or_introl eq_refl) u tu U NL).
  - destruct HELD as [L P]; [discriminate|]. cbn in P. destruct P as [-> P]. constructor; [exact R|cbn; congruence| |].
    + cbn. intros u U. rewrite L in U. inversion U; subst u. eexists. rewrite nth_list_set_same by exact LT. split; [reflexivity|].
      cbn. split; [auto|discriminate].
    + cbn. intros u tu U NL. exact (OUT _ (i_lock s) (or_introl L) (or_introl eq_refl) u tu U NL).
  - destruct HELD as [L P]; [discriminate|]. cbn in P. constructor; [exact R|cbn; congruence| |].
    + cbn. intros u U. rewrite L in U. inversion U; subst u. eexists. rewrite nth_list_set_same by exact LT. split; [reflexivity|].
      cbn. split; [auto|discriminate].
    + cbn. intros u tu U NL. exact (OUT _ (i_lock s) (or_introl L) (or_introl eq_refl) u tu U NL).
  - destruct HELD as [L P]; [discriminate|]. cbn in P. destruct P as [-> P]. constructor; cbn.
    + unfold returned_ids in *. cbn. rewrite map_app, app_length, R. cbn. rewrite Nat.add_1_r.
      rewrite seq_S. reflexivity.
    + intros _. rewrite app_length. cbn. lia.
    + discriminate.
    + intros u tu U NL. exact (OUT (mkThread PIdle rest) None (or_intror eq_refl) (or_intror (or_intror L)) u tu U NL).
Qed.
Lemma id_run_inv sched : forall s, id_inv s -> id_inv (id_run s sched).
Proof. induction sched as [|t l IH]; intros s H; [exact H|]. cbn. apply IH. now apply id_step_inv. Qed.
Lemma id_start_inv progs : id_inv (id_start progs).
Proof.
  constructor; cbn; auto; [discriminate|].
  intros t th H _. rewrite nth_error_map in H. destruct (nth_error progs t); inversion H. reflexivity.
Qed.
Theorem ids_sequential progs sched :
  let s := id_run (id_start progs) sched in returned_ids s = seq 1 (List.length (i_ret s)).
Proof. apply ii_ret. apply id_run_inv, id_start_inv. Qed.

(** nobody loses a call: each thread's returned calls followed by what it still has
    to do is its program *)
Definition done_by (t : nat) (s : id_state) : list id_call :=
  map (fun r => snd (fst r)) (filter (fun r => Nat.eqb t (fst (fst r))) (i_ret s)).
Definition todo_of (t : nat) (s : id_state) : list id_call :=
  match nth_error (i_threads s) t with Some th => t_todo th | None => [] end.
Lemma id_step_work s u t : done_by t (id_step s u) ++ todo_of t (id_step s u) = done_by t s ++ todo_of t s.
Proof.
  unfold id_step. destruct (nth_error (i_threads s) u) as [th|] eqn:T; [|reflexivity].
  destruct (t_todo th) as [|call rest] eqn:TD; [reflexivity|].
  assert (LT : u < List.length (i_threads s)) by (apply nth_error_Some; congruence).
  assert (SAME : forall th' lk i, t_todo th' = call :: rest ->
     done_by t (set_thread (mkIds lk i (i_threads s) (i_ret s)) u th') ++
     todo_of t (set_thread (mkIds lk i (i_threads s) (i_ret s)) u th') = done_by t s ++ todo_of t s).
  { intros th' lk i E. unfold done_by, todo_of. cbn. f_equal. destruct (Nat.eq_dec u t) as [<-|NE].
    - rewrite nth_list_set_same by exact LT. rewrite T. congruence.
    - now rewrite nth_list_set_other by exact NE. }
  destruct (t_pc th) as [| |v| |v].
  - destruct (i_lock s); [reflexivity|apply SAME; reflexivity].
  - exact (SAME (mkThread (PLoaded (i_id s)) (call :: rest)) (i_lock s) (i_id s) eq_refl).
  - apply SAME. reflexivity.
  - exact (SAME (mkThread (PGot (i_id s)) (call :: rest)) (i_lock s) (i_id s) eq_refl).
  - unfold done_by, todo_of. cbn. rewrite filter_app, map_app. cbn. destruct (Nat.eqb_spec t u) as [->|NE].
    + rewrite nth_list_set_same by exact LT. rewrite T, TD. cbn. now rewrite <- app_assoc.
    + rewrite nth_list_set_other by congruence. cbn. now rewrite app_nil_r.
Qed.
Theorem ids_work progs sched t :
  let s := id_run (id_start progs) sched in
  done_by t s ++ todo_of t s = match nth_error progs t with Some p => p | None => [] end.
Proof.
  cbv zeta. unfold id_run. revert progs.
  assert (G : forall s, done_by t (fold_left id_step sched s) ++ todo_of t (fold_left id_step sched s) = done_by t s ++ todo_of t s).
  { induction sched as [|u l IH]; intros s; [reflexivity|]. cbn. rewrite IH. apply id_step_work. }
  intros progs. rewrite G. unfold done_by, todo_of. cbn. rewrite nth_error_map. destruct (nth_error progs t); reflexivity.
Qed.

(** no deadlock: while a thread still has a call to make, some thread can move *)
Theorem ids_progress progs sched t :
  let s := id_run (id_start progs) sched in
  todo_of t s <> [] -> exists u, id_step s u <> s.
Proof.
  cbv zeta. set (s := id_run (id_start progs) sched). intros TD.
  assert (I : id_inv s) by (apply id_run_inv, id_start_inv). destruct I as [R F H O].
  unfold todo_of in TD. destruct (nth_error (i_threads s) t) as [th|] eqn:T; [|contradiction].
  assert (MOVE : forall u thu, nth_error (i_threads s) u = Some thu -> t_todo thu <> [] ->
            (t_pc thu <> PIdle \/ i_lock s = None) -> id_step s u <> s).
  { intros u thu U ND C E. unfold id_step in E. rewrite U in E.
    destruct (t_todo thu) as [|call rest] eqn:TU; [contradiction|].
    assert (LU : u < List.length (i_threads s)) by (apply nth_error_Some; congruence).
    assert (G : forall x th', nth_error (i_threads (set_thread x u th')) u = nth_error (i_threads s) u ->
               i_threads x = i_threads s -> th' = thu).
    { intros x th' A B. cbn in A. rewrite B, nth_list_set_same, U in A by exact LU. congruence. }
    destruct (t_pc thu) as [| |v| |v] eqn:PC.
    - destruct (i_lock s) eqn:L; [destruct C as [C|C]; congruence|].
      assert (X := f_equal (fun z => nth_error (i_threads z) u) E). apply G in X; [|reflexivity]. subst thu. discriminate.
    - assert (X := f_equal (fun z => nth_error (i_threads z) u) E). apply G in X; [|reflexivity]. subst thu. discriminate.
    - assert (X := f_equal (fun z => nth_error (i_threads z) u) E). apply G in X; [|reflexivity]. subst thu. discriminate.
    - assert (X := f_equal (fun z => nth_error (i_threads z) u) E). apply G in X; [|reflexivity]. subst thu. discriminate.
    - assert (X := f_equal (fun z => nth_error (i_threads z) u) E). apply G in X; [|reflexivity]. subst thu. discriminate. }
  destruct (i_lock s) as [u|] eqn:L.
  - destruct (H u eq_refl) as (thu & U & P & ND). exists u. apply (MOVE u thu U ND). left.
    intros E. rewrite E in P. exact P.
  - exists t. apply (MOVE t th T TD). now right.
Qed.
