(** Proofs about dynamic contexts and repr. *)
From Verif Require Import PyBase PyBaseFacts SpmdM TlsM Spec_Tls.
Local Open Scope string_scope.
Local Open Scope list_scope.

Lemma top_snoc {A} (l : list A) x : top (l ++ [x]) = Ok x.
Proof. unfold top. now rewrite rev_app_distr. Qed.
Lemma pop_snoc {A} (l : list A) x : pop (l ++ [x]) = Ok l.
Proof. unfold pop. destruct (l ++ [x]) eqn:E; [destruct l; discriminate|]. rewrite <- E. now rewrite removelast_last. Qed.
Lemma top_inv {A} (l : list A) x : top l = Ok x -> exists m, l = m ++ [x].
Proof.
  destruct l as [|a l] using rev_ind; [discriminate|]. rewrite top_snoc. intros [= ->]. eauto.
Qed.

(** ** exec is lexical scoping *)
Theorem exec_scoped p : forall ts t r is i,
  exec p (mkTls (ts ++ [t]) r (is ++ [i])) =
  let '(r', o, res) := scoped p t i r in (mkTls (ts ++ [t]) r' (is ++ [i]), o, res).
Proof.
  induction p as [|e|p IHp q IHq|p IHp h IHh|p IHp q IHq|b p IH|r0| |n p IH]; intros ts t r is i; cbn [exec scoped].
  - reflexivity.
  - reflexivity.
  - rewrite IHp. destruct (scoped p t i r) as [[r1 o1] [[]|e]]; cbn; [|reflexivity].
    rewrite IHq. destruct (scoped q t i r1) as [[r2 o2] res]. reflexivity.
  - rewrite IHp. destruct (scoped p t i r) as [[r1 o1] [[]|e]]; cbn; [reflexivity|].
    rewrite IHh. destruct (scoped h t i r1) as [[r2 o2] res]. reflexivity.
  - rewrite IHp. destruct (scoped p t i r) as [[r1 o1] res].
    rewrite IHq. destruct (scoped q t i r1) as [[r2 o2] [[]|e]]; reflexivity.
  - destruct b as [t'|r'|s]; cbn [enter leave l_traces l_rules l_indent].
    + rewrite IH. destruct (scoped p t' i r) as [[r1 o1] res]. cbn [l_traces l_rules l_indent]. rewrite pop_snoc. reflexivity.
    + rewrite IH. destruct (scoped p t i r') as [[r1 o1] res]. reflexivity.
    + rewrite top_snoc. cbn [rbind]. rewrite IH. destruct (scoped p t (i ++ s)%string r) as [[r1 o1] res].
      cbn [l_traces l_rules l_indent]. rewrite pop_snoc. reflexivity.
  - reflexivity.
  - unfold observe. cbn [l_traces l_rules l_indent]. rewrite !top_snoc. reflexivity.
  - revert r. induction n as [|n IHn]; intros r; [reflexivity|]. cbn [repeat_run sloop].
    rewrite IH. destruct (scoped p t i r) as [[r1 o1] [[]|e]]; cbn [then_ sthen]; [|reflexivity].
    rewrite IHn. destruct (sloop n (scoped p t i) r1) as [[r2 o2] res]. reflexivity.
Qed.
Lemma scoped_rules p : no_bare_set p = true -> forall t i r, fst (fst (scoped p t i r)) = r.
Proof.
  induction p as [|e|p IHp q IHq|p IHp h IHh|p IHp q IHq|b p IH|r0| |n p IH]; intros H t i r; cbn [scoped no_bare_set] in *; auto.
  - apply andb_prop in H as [H1 H2]. specialize (IHp H1 t i r). destruct (scoped p t i r) as [[r1 o1] [[]|e]]; cbn in *; auto.
    specialize (IHq H2 t i r1). destruct (scoped q t i r1) as [[r2 o2] res]. cbn in *. congruence.
  - apply andb_prop in H as [H1 H2]. specialize (IHp H1 t i r). destruct (scoped p t i r) as [[r1 o1] [[]|e]]; cbn in *; auto.
    specialize (IHh H2 t i r1). destruct (scoped h t i r1) as [[r2 o2] res]. cbn in *. congruence.
  - apply andb_prop in H as [H1 H2]. specialize (IHp H1 t i r). destruct (scoped p t i r) as [[r1 o1] res]; cbn in *.
    specialize (IHq H2 t i r1). destruct (scoped q t i r1) as [[r2 o2] [[]|e]]; cbn in *; congruence.
  - destruct b as [t'|r'|s]; auto. destruct (scoped p t i r') as [[r1 o1] res]. reflexivity.
  - discriminate.
  - revert r. induction n as [|n IHn]; intros r; [reflexivity|]. cbn [sloop].
    specialize (IH H t i r). destruct (scoped p t i r) as [[r1 o1] [[]|e]]; cbn in *; auto.
    specialize (IHn r1). destruct (sloop n (scoped p t i) r1) as [[r2 o2] res]. cbn in *. congruence.
Qed.
Theorem exec_restores p l t i : top (l_traces l) = Ok t -> top (l_indent l) = Ok i -> no_bare_set p = true ->
  forall l' o res, exec p l = (l', o, res) -> l' = l.
Proof.
  destruct l as [tr r ind]. cbn. intros T I NB l' o res E. apply top_inv in T as [ts ->]. apply top_inv in I as [is ->].
  rewrite exec_scoped in E. pose proof (scoped_rules p NB t i r) as R. destruct (scoped p t i r) as [[r1 o1] res1].
  cbn in R. congruence.
Qed.
Theorem exec_stacks p l t i : top (l_traces l) = Ok t -> top (l_indent l) = Ok i ->
  forall l' o res, exec p l = (l', o, res) -> l_traces l' = l_traces l /\ l_indent l' = l_indent l.
Proof.
  destruct l as [tr r ind]. cbn. intros T I l' o res E. apply top_inv in T as [ts ->]. apply top_inv in I as [is ->].
  rewrite exec_scoped in E. destruct (scoped p t i r) as [[r1 o1] res1]. inversion E. subst. auto.
Qed.

(** ** get_repr is render *)
Lemma replace_nl_none i s : has_nl s = false -> replace_nl i s = s.
Proof.
  unfold has_nl. induction s as [|c s IH]; [reflexivity|]. cbn [has_char replace_nl]. intros H.
  apply Bool.orb_false_iff in H as [H1 H2]. rewrite Ascii.eqb_sym in H1. rewrite H1. now rewrite IH.
Qed.
Lemma if_has_nl i s : (if has_nl s then replace_nl i s else s) = replace_nl i s.
Proof. destruct (has_nl s) eqn:H; [reflexivity|]. symmetry. now apply replace_nl_none. Qed.

Fixpoint get_repr_render (o : robj) : forall st i, get_repr o (st ++ [i]) = (render i o, st ++ [i])
with repr_item_render (it : ritem) : forall sep st i, repr_item sep it (st ++ [i]) = (render_item i sep it, st ++ [i])
with repr_val_render (v : rval) : forall st i, repr_val v (st ++ [i]) = (render_val i v, st ++ [i])
with repr_piece_render (p : rpiece) : forall st i, repr_piece p (st ++ [i]) = (render_piece i p, st ++ [i]).
Proof.
  - destruct o as [c items| |e]; intros st i; [|reflexivity|reflexivity]. cbn [get_repr render]. rewrite top_snoc.
    match goal with |- context [?f items ((st ++ [i]) ++ [(i ++ g_indent c)%string])] => set (go := f) end.
    match goal with |- context [rbind (?f items) _] => set (ren := f) end.
    assert (G : forall l st, go l (st ++ [(i ++ g_indent c)%string]) = (ren l, st ++ [(i ++ g_indent c)%string])).
    { induction l as [|it l IH]; intros st0; [reflexivity|]. unfold go, ren; fold go; fold ren. rewrite repr_item_render.
      destruct (render_item (i ++ g_indent c) (g_sep c) it) as [x|e]; [|reflexivity]. cbn [rbind].
      rewrite IH. destruct (ren l); reflexivity. }
    rewrite G. rewrite pop_snoc. destruct (ren items) as [es|e]; [|reflexivity]. cbn [rbind].
    destruct (String.eqb_spec (join (String "," (String newline "")) es) "") as [->|NE]; [reflexivity|].
    destruct (join (String "," (String newline "")) es) as [|a s]; [contradiction|]. now rewrite top_snoc.
  - destruct it as [key start end_ v| |e]; intros sep st i; [|reflexivity|reflexivity]. cbn [repr_item render_item].
    rewrite repr_val_render. destruct (render_val i v) as [x|e]; [|reflexivity]. cbn [rbind]. now rewrite top_snoc.
  - destruct v as [s|o|ps]; intros st i; cbn [repr_val render_val].
    + rewrite top_snoc. now rewrite if_has_nl.
    + apply get_repr_render.
    + match goal with |- context [?f ps (st ++ [i])] => set (go := f) end.
      match goal with |- context [rbind (?f ps) _] => set (ren := f) end.
      assert (G : forall l, go l (st ++ [i]) = (ren l, st ++ [i])).
      { induction l as [|p l IH]; [reflexivity|]. unfold go, ren; fold go; fold ren. rewrite repr_piece_render.
        destruct (render_piece i p) as [x|e]; [|reflexivity]. cbn [rbind]. rewrite IH. destruct (ren l); reflexivity. }
      rewrite G. destruct (ren ps) as [s|e]; [|reflexivity]. cbn [rbind]. rewrite top_snoc. now rewrite if_has_nl.
  - destruct p as [s|o|e]; intros st i; cbn [repr_piece render_piece]; [reflexivity| |reflexivity]. apply get_repr_render.
Qed.

(** ** nesting only adds indentation *)
Lemma sapp_assoc (a b c : string) : ((a ++ b) ++ c = a ++ b ++ c)%string.
Proof. induction a as [|x a IH]; [reflexivity|]. cbn. now rewrite IH. Qed.
Lemma sapp_nil (a : string) : (a ++ "" = a)%string.
Proof. induction a as [|x a IH]; [reflexivity|]. cbn. now rewrite IH. Qed.
Lemma replace_app i s t : replace_nl i (s ++ t)%string = (replace_nl i s ++ replace_nl i t)%string.
Proof.
  induction s as [|c s IH]; [reflexivity|]. cbn [append replace_nl].
  destruct (Ascii.eqb c newline); cbn [append]; rewrite IH; [|reflexivity].
  now rewrite sapp_assoc.
Qed.
Lemma replace_twice i d s : has_nl d = false -> replace_nl i (replace_nl d s) = replace_nl (i ++ d) s.
Proof.
  intros D. induction s as [|c s IH]; [reflexivity|]. cbn [replace_nl]. destruct (Ascii.eqb c newline) eqn:E.
  - cbn [replace_nl]. rewrite Ascii.eqb_refl. rewrite replace_app, (replace_nl_none i d D), IH. now rewrite sapp_assoc.
  - cbn [replace_nl]. rewrite E. now rewrite IH.
Qed.
Lemma replace_join i l : replace_nl i (join (String "," (String newline "")) l) =
  join (String "," (String newline i)) (map (replace_nl i) l).
Proof.
  induction l as [|x l IH]; [reflexivity|]. cbn [join map]. destruct l as [|y l]; [reflexivity|].
  cbn [map]. cbn [map] in IH. rewrite !replace_app. rewrite IH. f_equal. f_equal.
  cbn [replace_nl]. rewrite Ascii.eqb_refl. change (Ascii.eqb "," newline) with false. cbn [append]. now rewrite sapp_nil.
Qed.
(** elements come indented: the separator's indentation is theirs *)
Lemma join_indent i l : (i ++ join (String "," (String newline i)) l)%string =
  match l with [] => i | _ => join (String "," (String newline "")) (map (fun x => i ++ x)%string l) end.
Proof.
  induction l as [|x l IH]; [apply sapp_nil|]. cbn [join map]. destruct l as [|y l]; [reflexivity|].
  cbn [map]. cbn [map] in IH. rewrite <- IH. rewrite !sapp_assoc. reflexivity.
Qed.

Lemma replace_one i s t : has_nl s = false -> replace_nl i (s ++ t)%string = (s ++ replace_nl i t)%string.
Proof. intros H. now rewrite replace_app, replace_nl_none. Qed.
Lemma has_nl_app s t : has_nl (s ++ t)%string = has_nl s || has_nl t.
Proof. unfold has_nl. induction s as [|c s IH]; [reflexivity|]. cbn [append has_char]. rewrite IH. now rewrite Bool.orb_assoc. Qed.
Lemma sapp_empty (a b : string) : (a ++ b)%string = "" -> a = "" /\ b = "".
Proof. destruct a; [cbn; auto|discriminate]. Qed.
Lemma join_nonempty sep l : l <> [] -> (forall x, In x l -> x <> "") -> join sep l <> "".
Proof.
  destruct l as [|x [|y l]]; intros H N E; [contradiction| |].
  - apply (N x); [now left|exact E].
  - cbn [join] in E. apply sapp_empty in E as [E _]. apply (N x); [now left|exact E].
Qed.

Definition ind_obj o := forall i d, has_nl d = false -> labels_ok o -> render (i ++ d) o = rmap (replace_nl i) (render d o).
Definition ind_val v := forall i d, has_nl d = false -> val_ok v -> render_val (i ++ d) v = rmap (replace_nl i) (render_val d v).
Definition ind_item it := forall i d sep, has_nl d = false -> has_nl sep = false -> item_ok it ->
  render_item (i ++ d) sep it = rmap (fun x => i ++ replace_nl i x)%string (render_item d sep it).
Lemma item_nonempty it d sep x : item_ok it -> render_item d sep it = Ok x -> x <> "".
Proof.
  destruct it as [key start end_ v| |e]; try discriminate. cbn [item_ok render_item]. intros (N & _) H E.
  destruct (render_val d v) as [y|e]; [|discriminate]. cbn [rbind] in H. injection H as <-.
  apply sapp_empty in E as [_ E]. apply sapp_empty in E as [_ E]. now apply sapp_empty in E as [E _].
Qed.
Lemma render_pieces i d ps : Forall piece_ok ps ->
  (fix pieces (l : list rpiece) : result string :=
     match l with
     | [] => Ok ""
     | p :: t => do x <- render_piece (i ++ d) p; do y <- pieces t; Ok (x ++ y)%string
     end) ps =
  (fix pieces (l : list rpiece) : result string :=
     match l with
     | [] => Ok ""
     | p :: t => do x <- render_piece d p; do y <- pieces t; Ok (x ++ y)%string
     end) ps.
Proof.
  induction 1 as [|p ps P _ IH]; [reflexivity|]. rewrite IH. destruct p; [reflexivity|destruct P|reflexivity].
Qed.
Fixpoint render_shift_obj (o : robj) : ind_obj o
with render_shift_item (it : ritem) : ind_item it
with render_shift_val (v : rval) : ind_val v.
Proof.
  - destruct o as [c items| |e]; intros i d D L; [|reflexivity|reflexivity]. cbn [render]. cbn [labels_ok] in L.
    destruct L as (L1 & L2 & L3 & L4 & L5 & L6 & LI). unfold one_line in *.
    match goal with |- context [rbind (?f items) _] => set (ren1 := f) end.
    match goal with |- context [rmap _ (rbind (?f items) _)] => set (ren2 := f) end.
    match type of LI with ?f items => set (all := f) in LI end.
    assert (G : forall l, all l -> ren1 l = rmap (map (fun x => i ++ replace_nl i x)%string) (ren2 l)).
    { induction l as [|it l IH]; intros A; [reflexivity|]. destruct A as [A1 A2].
      unfold ren1, ren2; fold ren1; fold ren2.
      rewrite sapp_assoc. rewrite (render_shift_item it i (d ++ g_indent c)%string (g_sep c)); auto.
      2:{ rewrite has_nl_app, D, L5. reflexivity. }
      destruct (render_item (d ++ g_indent c) (g_sep c) it) as [x|e]; [|reflexivity]. cbn [rbind rmap].
      rewrite (IH A2). destruct (ren2 l); reflexivity. }
    rewrite (G items LI).
    assert (NE : forall l es, all l -> ren2 l = Ok es -> forall x, In x es -> x <> "").
    { induction l as [|it l IH]; intros es A E; [inversion E; intros x []|]. destruct A as [A1 A2].
      unfold ren2 in E; fold ren2 in E.
      destruct (render_item (d ++ g_indent c) (g_sep c) it) as [x|e] eqn:RI; [|discriminate]. cbn [rbind] in E.
      destruct (ren2 l) as [xs|e]; [|discriminate]. cbn [rbind] in E. inversion E; subst es. intros y [->|Y].
      - eapply item_nonempty; eauto.
      - eapply IH; eauto. }
    specialize (NE items). destruct (ren2 items) as [es|e]; [|reflexivity]. specialize (NE es LI eq_refl). cbn [rbind rmap]. f_equal.
    destruct es as [|e0 es].
    + cbn [map join]. cbn [String.eqb]. rewrite !replace_one by assumption. now rewrite replace_nl_none.
    + set (l := e0 :: es) in *.
      assert (N1 : join (String "," (String newline "")) l <> "") by (apply join_nonempty; [discriminate|exact NE]).
      assert (N2 : join (String "," (String newline "")) (map (fun x => i ++ replace_nl i x)%string l) <> "").
      { apply join_nonempty; [discriminate|]. intros x X E. apply in_map_iff in X as (y & <- & Y).
        apply sapp_empty in E as [_ E]. specialize (NE y Y). destruct y as [|ch y]; [contradiction|].
        cbn [replace_nl] in E. destruct (Ascii.eqb ch newline); discriminate. }
      apply String.eqb_neq in N1, N2. rewrite N1, N2.
      rewrite !replace_one by assumption. cbn [append]. cbn [replace_nl]. rewrite Ascii.eqb_refl.
      rewrite replace_app. cbn [append]. rewrite replace_app. cbn [replace_nl]. rewrite Ascii.eqb_refl.
      rewrite (replace_nl_none i d D), (replace_nl_none i (g_end c) L3). rewrite replace_join. 
      do 3 f_equal. rewrite <- !sapp_assoc. f_equal. rewrite join_indent. unfold l. cbn [map]. rewrite map_map.
      cbn [append].
      reflexivity.
  - destruct it as [key start end_ v| |e]; intros i d sep D S L; [|reflexivity|reflexivity]. cbn [render_item]. cbn [item_ok] in L.
    destruct L as (_ & L1 & L2 & L3 & LV). rewrite (render_shift_val v i d D LV).
    destruct (render_val d v) as [x|e]; [|reflexivity]. cbn [rbind rmap]. f_equal. rewrite sapp_assoc. f_equal.
    rewrite !replace_one by assumption. rewrite replace_app. now rewrite (replace_nl_none i end_ L3).
  - destruct v as [s|o|ps]; intros i d D L; cbn [render_val].
    + cbn. now rewrite replace_twice.
    + apply render_shift_obj; assumption.
    + cbn [val_ok] in L. rewrite (render_pieces i d ps L).
      match goal with |- context [rbind ?x _] => destruct x as [s|e] end; [|reflexivity]. cbn. now rewrite replace_twice.
Qed.
Theorem render_nested o i : labels_ok o -> render i o = rmap (replace_nl i) (render "" o).
Proof. intros L. rewrite <- (sapp_nil i) at 1. now apply render_shift_obj. Qed.
