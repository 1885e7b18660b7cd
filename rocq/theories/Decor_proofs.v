(** Stacks of decorators. *)
From Verif Require Import PyBase DecorM Spec_Decor.
Local Open Scope list_scope.

Section Proofs.
Context {F JO GO RO SO : Type} (B : behaviours F JO GO RO SO).
Notation deco := (@decorator JO GO RO SO).
Notation dec := (decorated B).

Lemma dec_app ds1 ds2 p : dec (ds1 ++ ds2) p = dec ds1 (dec ds2 p).
Proof. unfold decorated. apply fold_right_app. Qed.

(** entries travel upwards *)
Lemma stateful_up d p b : v_stateful (vars_of p) = Some b -> v_stateful (vars_of (decorate B d p)) = Some b.
Proof. intros H. destruct d; cbn; rewrite H; reflexivity. Qed.
Lemma jitted_up d p x : v_jitted (vars_of p) = Some x -> v_jitted (vars_of (decorate B d p)) = Some x.
Proof. intros H. destruct d; cbn; rewrite H; reflexivity. Qed.
Lemma grad_up d p x : v_grad_fn (vars_of p) = Some x -> v_grad_fn (vars_of (decorate B d p)) = Some x.
Proof. intros H. destruct d; cbn; rewrite H; reflexivity. Qed.
Lemma stateful_ups ds p b : v_stateful (vars_of p) = Some b -> v_stateful (vars_of (dec ds p)) = Some b.
Proof. intros H. induction ds as [|d ds IH]; [exact H|]. cbn. now apply stateful_up. Qed.
Lemma jitted_ups ds p x : v_jitted (vars_of p) = Some x -> v_jitted (vars_of (dec ds p)) = Some x.
Proof. intros H. induction ds as [|d ds IH]; [exact H|]. cbn. now apply jitted_up. Qed.
Lemma grad_ups ds p x : v_grad_fn (vars_of p) = Some x -> v_grad_fn (vars_of (dec ds p)) = Some x.
Proof. intros H. induction ds as [|d ds IH]; [exact H|]. cbn. now apply grad_up. Qed.

Lemma jit_vars o st p : exists x b, v_jitted (vars_of (nnx_jit B o st p)) = Some x /\ v_stateful (vars_of (nnx_jit B o st p)) = Some b /\
  call_of (nnx_jit B o st p) = (let '(o', g, i) := x in b_jit B o' i b g).
Proof.
  cbn. destruct (v_jitted (vars_of p)) as [[[o' g] i]|], (v_stateful (vars_of p)) as [b|]; cbn; eexists _, _; (split; [reflexivity|split; reflexivity]).
Qed.
Lemma grad_vars o st p : exists x b, v_grad_fn (vars_of (nnx_grad B o st p)) = Some x /\ v_stateful (vars_of (nnx_grad B o st p)) = Some b /\
  call_of (nnx_grad B o st p) = (let '(o', g, i) := x in b_grad B o' i b g).
Proof.
  cbn. destruct (v_grad_fn (vars_of p)) as [[[o' g] i]|], (v_stateful (vars_of p)) as [b|]; cbn; eexists _, _; (split; [reflexivity|split; reflexivity]).
Qed.
Lemma jit_call_vars o st p x b : v_jitted (vars_of p) = Some x -> v_stateful (vars_of p) = Some b ->
  call_of (nnx_jit B o st p) = (let '(o', g, i) := x in b_jit B o' i b g).
Proof. intros H1 H2. cbn. rewrite H1, H2. cbn. destruct x as [[o' g] i]. reflexivity. Qed.
Lemma grad_call_vars o st p x b : v_grad_fn (vars_of p) = Some x -> v_stateful (vars_of p) = Some b ->
  call_of (nnx_grad B o st p) = (let '(o', g, i) := x in b_grad B o' i b g).
Proof. intros H1 H2. cbn. rewrite H1, H2. cbn. destruct x as [[o' g] i]. reflexivity. Qed.

Lemma jit_jit o st ds1 o' st' p : call_of (nnx_jit B o st (dec ds1 (nnx_jit B o' st' p))) = call_of (nnx_jit B o' st' p).
Proof.
  destruct (jit_vars o' st' p) as (x & b & H1 & H2 & H3). rewrite H3. apply jit_call_vars; [now apply jitted_ups|now apply stateful_ups].
Qed.
Lemma grad_grad o st ds1 o' st' p : call_of (nnx_grad B o st (dec ds1 (nnx_grad B o' st' p))) = call_of (nnx_grad B o' st' p).
Proof.
  destruct (grad_vars o' st' p) as (x & b & H1 & H2 & H3). rewrite H3. apply grad_call_vars; [now apply grad_ups|now apply stateful_ups].
Qed.

(** ** composition *)
(** the entries are those of the innermost decorators *)
Definition fits (ds : list deco) (p : @pyfun F JO GO) : Prop :=
  (forall b, v_stateful (vars_of p) = Some b -> exists d, In d ds /\ flag d = Some b) /\
  (v_jitted (vars_of p) <> None -> exists d, In d ds /\ is_jit d) /\
  (v_grad_fn (vars_of p) <> None -> exists d, In d ds /\ is_grad d).
Lemma fits_dec ds f : fits ds (dec ds (plain_fun None f)).
Proof.
  induction ds as [|d ds (H1 & H2 & H3)]; [repeat split; cbn; [discriminate|contradiction|contradiction]|]. cbn [decorated fold_right]. fold (dec ds (plain_fun None f)).
  set (p := dec ds (plain_fun None f)) in *.
  assert (A1 : forall b, v_stateful (vars_of p) = Some b -> exists d', In d' (d :: ds) /\ flag d' = Some b) by (intros b Hb; destruct (H1 b Hb) as (d' & Hd & E); exists d'; split; [now right|exact E]).
  assert (A2 : v_jitted (vars_of p) <> None -> exists d', In d' (d :: ds) /\ is_jit d') by (intros Hb; destruct (H2 Hb) as (d' & Hd & E); exists d'; split; [now right|exact E]).
  assert (A3 : v_grad_fn (vars_of p) <> None -> exists d', In d' (d :: ds) /\ is_grad d') by (intros Hb; destruct (H3 Hb) as (d' & Hd & E); exists d'; split; [now right|exact E]).
  destruct d as [o st|o st|o|o]; unfold fits; cbn [decorate nnx_jit nnx_grad nnx_remat nnx_scan vars_of vars_update v_stateful v_jitted v_grad_fn over];
  (split; [intros b; destruct (v_stateful (vars_of p)) as [b'|] eqn:E; [intros [= <-]; now apply A1|try discriminate]|split; [destruct (v_jitted (vars_of p)) eqn:E; [intros _; apply A2; discriminate|]|destruct (v_grad_fn (vars_of p)) eqn:E; [intros _; apply A3; discriminate|]]]); try (now intros []).
  - intros [= <-]. exists (DJit o st). split; [now left|reflexivity].
  - intros _. exists (DJit o st). split; [now left|exact Logic.I].
  - intros [= <-]. exists (DGrad o st). split; [now left|reflexivity].
  - intros _. exists (DGrad o st). split; [now left|exact Logic.I].
Qed.

Lemma at_most_tl P d (ds : list deco) : at_most_one P (d :: ds) -> at_most_one P ds.
Proof. intros H l1 x l2 y l3 ->. apply (H (d :: l1) x l2 y l3). reflexivity. Qed.
Lemma at_most_hd (P : deco -> Prop) d ds : at_most_one P (d :: ds) -> P d -> forall d', In d' ds -> ~ P d'.
Proof. intros H Hd d' Hi Hp. apply in_split in Hi as (l & l' & ->). exact (H [] d l d' l' eq_refl Hd Hp). Qed.
Lemma flags_tl d (ds : list deco) : flags_equal (d :: ds) -> flags_equal ds.
Proof. intros H x y b b' Hx Hy. apply H; now right. Qed.

Lemma composes ds : forall f, at_most_one is_jit ds -> at_most_one is_grad ds -> flags_equal ds ->
  call_of (dec ds (plain_fun None f)) = meaning B ds f.
Proof.
  induction ds as [|d ds IH]; intros f HJ HG HF; [reflexivity|].
  specialize (IH f (at_most_tl _ _ _ HJ) (at_most_tl _ _ _ HG) (flags_tl _ _ HF)). destruct (fits_dec ds f) as (H1 & H2 & H3).
  cbn [decorated fold_right]. fold (dec ds (plain_fun None f)). set (p := dec ds (plain_fun None f)) in *.
  destruct d as [o st|o st|o|o]; cbn [decorate nnx_jit nnx_grad nnx_remat nnx_scan call_of meaning vars_update v_stateful v_jitted v_grad_fn].
  - destruct (v_jitted (vars_of p)) as [x|].
    { destruct H2 as (d' & Hd & E); [discriminate|]. exfalso. exact (at_most_hd _ _ _ HJ Logic.I d' Hd E). }
    cbn [over]. rewrite IH. destruct (v_stateful (vars_of p)) as [b|] eqn:E; [|reflexivity]. cbn [over].
    destruct (H1 b eq_refl) as (d' & Hd & K). assert (b = st) by (eapply (HF d' (DJit o st)); [now right|now left|exact K|reflexivity]). now subst b.
  - destruct (v_grad_fn (vars_of p)) as [x|].
    { destruct H3 as (d' & Hd & E); [discriminate|]. exfalso. exact (at_most_hd _ _ _ HG Logic.I d' Hd E). }
    cbn [over]. rewrite IH. destruct (v_stateful (vars_of p)) as [b|] eqn:E; [|reflexivity]. cbn [over].
    destruct (H1 b eq_refl) as (d' & Hd & K). assert (b = st) by (eapply (HF d' (DGrad o st)); [now right|now left|exact K|reflexivity]). now subst b.
  - now rewrite IH.
  - now rewrite IH.
Qed.

(** ** the flag *)
(** with a flag below, the flags above do not matter *)
Lemma flags_ignored ds ds' (p : @pyfun F JO GO) b : Forall2 same_options ds ds' -> v_stateful (vars_of p) = Some b -> dec ds p = dec ds' p.
Proof.
  intros H Hb. induction H as [|d d' ds ds' Hd H IH]; [reflexivity|]. cbn [decorated fold_right]. fold (dec ds p) (dec ds' p). rewrite IH.
  pose proof (stateful_ups ds' p b Hb) as S1. set (q := dec ds' p) in *. clearbody q.
  destruct d, d'; cbn [same_options] in Hd; try contradiction; subst; try reflexivity;
    cbn [decorate]; unfold nnx_jit, nnx_grad; rewrite S1; unfold vars_update; cbn [v_stateful v_jitted v_grad_fn]; rewrite S1; reflexivity.
Qed.
End Proofs.
