(** StateRepr_proofs: the text of a State and what it determines. *)
From Coq Require Import Lia.
From Verif Require Import PyBase PyBaseFacts ValuesM FiltersM StateM ModuleM TlsM Spec_Tls Tls_proofs DefReprM Spec_DefRepr DefRepr_proofs StateReprM Spec_StateRepr.
Local Open Scope list_scope.
Local Open Scope string_scope.

(** ** The text *)
Lemma entry_of rp i ka : plain_entry rp ka -> render_item (i ++ "  ") ": " (RiAttr (quoted (fst ka)) "" "" (entry_val rp (snd ka))) = Ok (entry_text rp i ka).
Proof.
  destruct ka as [k a]. intros (_ & _ & H). unfold entry_text. cbn [fst snd render_item] in *.
  assert (E : render_val (i ++ "  ") (entry_val rp a) = Ok (match a with ARaw v => bare rp v | ACont c => own_name (c_cls c) ++ "(" ++ nl ++ listing (map (field_text rp (i ++ "  ")) (c_meta c ++ [("value", c_val c)])%list) ++ nl ++ i ++ "  )" end)).
  { destruct a as [v|c]; cbn [entry_val].
    - destruct v; cbn [bare] in *; cbn [render_val render_piece rbind]; rewrite ?sapp_nil, (replace_nl_none _ _ H); reflexivity.
    - destruct H as (_ & _ & H). change (cls_name (c_cls c)) with (own_name (c_cls c)). cbn [render_val render g_indent g_sep g_type g_start g_end g_empty].
      rewrite (elems_map ((i ++ "  ") ++ "  ") "=" _ (field_text rp (i ++ "  "))).
      + cbn [rbind]. match goal with |- Ok (if ?x then _ else _) = _ => destruct x eqn:Z0 end.
        * exfalso. apply String.eqb_eq in Z0. destruct (c_meta c) as [|m l]; cbn [app map] in Z0.
          -- cbn [join] in Z0. unfold field_text in Z0. apply sapp_empty in Z0 as [_ Z0]. discriminate.
          -- destruct (map (field_text rp (i ++ "  ")) (l ++ [("value", c_val c)])%list); cbn [join] in Z0; [|apply sapp_empty in Z0 as [Z0 _]]; unfold field_text in Z0; apply sapp_empty in Z0 as [_ Z0]; discriminate.
        * f_equal. unfold listing, nl. cbn [append]. repeat (rewrite sapp_assoc; cbn [append]). reflexivity.
      + rewrite Forall_forall in *. intros nv Hnv. destruct (H nv Hnv) as (_ & _ & H3). cbn [render_item render_val rbind]. rewrite (replace_nl_none _ _ H3). f_equal. unfold field_text.
        repeat (rewrite sapp_assoc; cbn [append]). rewrite ?sapp_nil. reflexivity. }
  rewrite E. cbn [rbind]. f_equal. unfold quoted. repeat (rewrite sapp_assoc; cbn [append]). rewrite ?sapp_nil. reflexivity.
Qed.
Lemma state_of rp s i : Forall (plain_entry rp) s -> render i (state_obj rp s) = Ok (state_text rp i s).
Proof.
  intros H. unfold state_obj. cbn [render g_indent g_sep g_type g_start g_end g_empty].
  rewrite (elems_map (i ++ "  ") ": " _ (entry_text rp i)).
  - cbn [rbind]. f_equal. unfold state_text. destruct s as [|x s]; [reflexivity|].
    match goal with |- (if ?x then _ else _) = _ => destruct x eqn:Z0 end.
    + exfalso. apply String.eqb_eq in Z0. cbn [map] in Z0. destruct (map (entry_text rp i) s); cbn [join] in Z0; [|apply sapp_empty in Z0 as [Z0 _]]; unfold entry_text in Z0; apply sapp_empty in Z0 as [_ Z0]; discriminate.
    + unfold listing, nl. cbn [append]. repeat (rewrite sapp_assoc; cbn [append]). reflexivity.
  - eapply Forall_impl; [|exact H]. intros ka Hka. now apply entry_of.
Qed.

(** ** What it determines *)
Lemma has_app c a b : has_char c (a ++ b) = has_char c a || has_char c b.
Proof. induction a as [|x a IH]; [reflexivity|]. cbn. rewrite IH. apply Bool.orb_assoc. Qed.
Lemma len_app a b : String.length (a ++ b) = String.length a + String.length b.
Proof. induction a as [|x a IH]; [reflexivity|]. cbn. now rewrite IH. Qed.
Lemma cancel_r a b c : a ++ c = b ++ c -> a = b.
Proof.
  revert b. induction a as [|x a IH]; intros [|y b] H; cbn in H; [reflexivity| | |].
  - exfalso. apply (f_equal String.length) in H. cbn in H. rewrite len_app in H. lia.
  - exfalso. apply (f_equal String.length) in H. cbn in H. rewrite len_app in H. lia.
  - injection H as -> H. f_equal. now apply IH.
Qed.
Definition line_field (rp : pyval -> string) (nv : string * pyval) : Prop := has_char "="%char (fst nv) = false /\ has_nl (fst nv) = false /\ has_nl (rp (snd nv)) = false.
Lemma fields_coded rp j l : Forall (line_field rp) l -> forall l' r r', Forall (line_field rp) l' -> l <> [] -> l' <> [] -> 
  listing (map (field_text rp j) l) ++ String newline (j ++ String ")" r) = listing (map (field_text rp j) l') ++ String newline (j ++ String ")" r') ->
  Forall2 (fun n m => fst n = fst m /\ rp (snd n) = rp (snd m)) l l' /\ r = r'.
Proof.
  induction 1 as [|[n v] l (A1 & A2 & A3) Hl IH]; intros [|[n' v'] l'] r r' H' Ne Ne' E; try contradiction. clear Ne Ne'.
  inversion H' as [|? ? (B1 & B2 & B3) Hl']; subst. cbn [fst snd] in *. unfold has_nl in *.
  assert (G : forall z z' u u', has_char newline u = false -> has_char newline u' = false -> field_text rp j (n, v) ++ u ++ String newline z = field_text rp j (n', v') ++ u' ++ String newline z' ->
     n = n' /\ rp v ++ u = rp v' ++ u' /\ z = z').
  { intros z z' u u' U U' Hz. unfold field_text in Hz. cbn [fst snd] in Hz. repeat (rewrite sapp_assoc in Hz; cbn [append] in Hz). apply cancel in Hz. injection Hz as Hz.
    apply upto in Hz as [-> Hz]; [|assumption..]. rewrite <- !sapp_assoc in Hz. apply upto in Hz as [K1 K2]; [auto|rewrite has_app, A3, U; reflexivity|rewrite has_app, B3, U'; reflexivity]. }
  destruct l as [|x l], l' as [|x' l']; cbn [map] in E; rewrite ?listing_cons in E; unfold listing in E; cbn [join] in E; repeat (rewrite sapp_assoc in E; cbn [append] in E).
  - apply (G _ _ "" "") in E as (-> & K1 & K2); [|reflexivity..]. rewrite !sapp_nil in K1. apply cancel in K2. injection K2 as ->. split; [|reflexivity]. constructor; [auto|constructor].
  - exfalso. apply (G _ _ "" ",") in E as (_ & _ & K2); [|reflexivity..]. destruct (map (field_text rp j) l'); cbn [join] in K2; unfold field_text in K2; repeat (rewrite sapp_assoc in K2; cbn [append] in K2); apply cancel in K2; discriminate.
  - exfalso. apply (G _ _ "," "") in E as (_ & _ & K2); [|reflexivity..]. symmetry in K2. destruct (map (field_text rp j) l); cbn [join] in K2; unfold field_text in K2; repeat (rewrite sapp_assoc in K2; cbn [append] in K2); apply cancel in K2; discriminate.
  - apply (G _ _ "," ",") in E as (-> & K1 & K2); [|reflexivity..]. apply cancel_r in K1. destruct (IH (x' :: l') r r' Hl') as [K3 K4]; [discriminate|discriminate|exact K2|]. split; [|exact K4]. constructor; [auto|exact K3].
Qed.

Lemma open_line a z : a ++ String "(" (String newline z) = (a ++ "(") ++ String newline z.
Proof. rewrite sapp_assoc. reflexivity. Qed.
(** What follows an entry: the end, or a comma and the next entry. *)
Definition follows (i t : string) : Prop := (exists r, t = String newline (i ++ "})" ++ r)) \/ (exists r, t = String "," (String newline (i ++ "  '" ++ r))).
Lemma entry_coded rp i x y t t' : plain_entry rp x -> plain_entry rp y -> follows i t -> follows i t' -> entry_text rp i x ++ t = entry_text rp i y ++ t' -> shows_same rp x y /\ t = t'.
Proof.
  destruct x as [k a], y as [k' a']. intros (A1 & A2 & A3) (B1 & B2 & B3) F F' E. unfold shows_same. cbn [fst snd] in *.
  unfold entry_text in E. cbn [fst snd] in E. repeat (rewrite sapp_assoc in E; cbn [append] in E). apply cancel in E. injection E as E. apply upto in E as [-> E]; [|assumption..]. injection E as E.
  assert (T : forall u, follows i u -> exists s z, u = s ++ String newline (i ++ z) /\ has_char newline s = false /\ ((s = "" /\ exists r, z = "})" ++ r) \/ (s = "," /\ exists r, z = "  '" ++ r))).
  { intros u [[r ->]|[r ->]]; [exists "", ("})" ++ r)|exists ",", ("  '" ++ r)]; (split; [reflexivity|]); (split; [reflexivity|]); eauto. }
  destruct a as [v|c], a' as [v'|c'].
  - destruct (T t F) as (s & z & -> & Hs & C), (T t' F') as (s' & z' & -> & Hs' & C'). rewrite <- !sapp_assoc in E.
    apply upto in E as [E1 E2]; [|unfold has_nl in *; rewrite has_app, ?A3, ?B3, ?Hs, ?Hs'; reflexivity..]. apply cancel in E2 as ->.
    assert (s = s') as -> by (destruct C as [[-> [r ->]]|[-> [r ->]]], C' as [[-> [r' H]]|[-> [r' H]]]; try reflexivity; discriminate H).
    apply cancel_r in E1. auto.
  - exfalso. destruct (T t F) as (s & z & -> & Hs & C). destruct B3 as (_ & B4 & B5). repeat (rewrite sapp_assoc in E; cbn [append] in E).
    rewrite open_line in E.
    rewrite <- (sapp_assoc (bare rp v)) in E. apply upto in E as [_ E]; [|unfold has_nl in *; rewrite has_app, ?A3, ?B4, ?Hs; reflexivity..].
    assert (L : exists q, listing (map (field_text rp (i ++ "  ")) (c_meta c' ++ [("value", c_val c')])%list) = i ++ "    " ++ q).
    { destruct (c_meta c') as [|m l]; cbn [app map]; [|destruct (map (field_text rp (i ++ "  ")) (l ++ [("value", c_val c')])%list)]; unfold listing; cbn [join]; unfold field_text; eexists; repeat (rewrite sapp_assoc; cbn [append]); reflexivity. }
    destruct L as [q L]. rewrite L in E. repeat (rewrite sapp_assoc in E; cbn [append] in E). apply cancel in E. destruct C as [[_ [r ->]]|[_ [r ->]]]; discriminate E.
  - exfalso. symmetry in E. destruct (T t' F') as (s & z & -> & Hs & C). destruct A3 as (_ & B4 & B5). repeat (rewrite sapp_assoc in E; cbn [append] in E).
    rewrite open_line in E.
    rewrite <- (sapp_assoc (bare rp v')) in E. apply upto in E as [_ E]; [|unfold has_nl in *; rewrite has_app, ?B3, ?B4, ?Hs; reflexivity..].
    assert (L : exists q, listing (map (field_text rp (i ++ "  ")) (c_meta c ++ [("value", c_val c)])%list) = i ++ "    " ++ q).
    { destruct (c_meta c) as [|m l]; cbn [app map]; [|destruct (map (field_text rp (i ++ "  ")) (l ++ [("value", c_val c)])%list)]; unfold listing; cbn [join]; unfold field_text; eexists; repeat (rewrite sapp_assoc; cbn [append]); reflexivity. }
    destruct L as [q L]. rewrite L in E. repeat (rewrite sapp_assoc in E; cbn [append] in E). apply cancel in E. destruct C as [[_ [r ->]]|[_ [r ->]]]; discriminate E.
  - destruct A3 as (A3 & A4 & A5), B3 as (B3 & B4 & B5). unfold nl in E. repeat (rewrite sapp_assoc in E; cbn [append] in E). apply upto in E as [E1 E]; [|assumption..]. injection E as E.
    destruct (fields_coded rp (i ++ "  ") (c_meta c ++ [("value", c_val c)])%list A5 (c_meta c' ++ [("value", c_val c')])%list t t' B5) as [K1 K2].
    + destruct (c_meta c); discriminate.
    + destruct (c_meta c'); discriminate.
    + repeat (rewrite sapp_assoc; cbn [append]). exact E.
    + split; [|exact K2]. split; [reflexivity|]. split; [exact E1|]. clear -K1.
      apply Forall2_app_inv_l in K1 as (l1 & l2 & K1 & K2 & K3). inversion K2 as [|? y ? ? [_ K4] K5]; subst. inversion K5; subst. apply app_inj_tail in K3 as [-> <-]. cbn [snd] in K4. auto.
Qed.
Lemma entries_coded rp i l : Forall (plain_entry rp) l -> forall l' r r', Forall (plain_entry rp) l' -> l <> [] -> l' <> [] ->
  listing (map (entry_text rp i) l) ++ String newline (i ++ "})" ++ r) = listing (map (entry_text rp i) l') ++ String newline (i ++ "})" ++ r') -> Forall2 (shows_same rp) l l' /\ r = r'.
Proof.
  assert (N : forall x l, exists q, listing (map (entry_text rp i) (x :: l)) = i ++ "  '" ++ q).
  { clear l. intros x l. cbn [map]. destruct (map (entry_text rp i) l); unfold listing; cbn [join]; unfold entry_text; eexists; repeat (rewrite sapp_assoc; cbn [append]); reflexivity. }
  induction 1 as [|x l Hx Hl IH]; intros [|y l'] r r' H' Ne Ne' E; try contradiction. clear Ne Ne'. inversion H' as [|? ? Hy Hl']; subst.
  destruct l as [|x2 l], l' as [|y2 l'].
  - apply entry_coded in E as [K1 K2]; [|assumption|assumption|left; eauto..]. injection K2 as K2. apply cancel in K2. injection K2 as ->. auto.
  - exfalso. cbn [map] in E. rewrite listing_cons in E. change (entry_text rp i y2 :: map (entry_text rp i) l') with (map (entry_text rp i) (y2 :: l')) in E. destruct (N y2 l') as [q Q]. rewrite Q in E. repeat (rewrite sapp_assoc in E; cbn [append] in E).
    apply entry_coded in E as [_ K2]; [discriminate|assumption|assumption|left; exists r; reflexivity|right; eexists; reflexivity].
  - exfalso. symmetry in E. cbn [map] in E. rewrite listing_cons in E. change (entry_text rp i x2 :: map (entry_text rp i) l) with (map (entry_text rp i) (x2 :: l)) in E. destruct (N x2 l) as [q Q]. rewrite Q in E. repeat (rewrite sapp_assoc in E; cbn [append] in E).
    apply entry_coded in E as [_ K2]; [discriminate|assumption|assumption|left; exists r'; reflexivity|right; eexists; reflexivity].
  - cbn [map] in E. rewrite !listing_cons in E. change (entry_text rp i y2 :: map (entry_text rp i) l') with (map (entry_text rp i) (y2 :: l')) in E. change (entry_text rp i x2 :: map (entry_text rp i) l) with (map (entry_text rp i) (x2 :: l)) in E.
    destruct (N y2 l') as [q Q], (N x2 l) as [q2 Q2]. assert (E0 := E). rewrite Q, Q2 in E. repeat (rewrite sapp_assoc in E; cbn [append] in E).
    apply entry_coded in E as [K1 K2]; [|assumption|assumption|right; eexists; reflexivity|right; eexists; reflexivity].
    destruct (IH (y2 :: l') r r' Hl') as [K3 K4]; [discriminate|discriminate| |split; [constructor; assumption|exact K4]].
    rewrite Q, Q2. injection K2 as K2. repeat (rewrite sapp_assoc; cbn [append]). exact K2.
Qed.
Lemma shows_text rp i x y : shows_same rp x y -> entry_text rp i x = entry_text rp i y.
Proof.
  destruct x as [k a], y as [k' a']. unfold shows_same, entry_text. cbn [fst snd]. intros [-> H]. destruct a as [v|c], a' as [v'|c']; try contradiction; [now rewrite H|].
  destruct H as (-> & H2 & H3). assert (E : map (field_text rp (i ++ "  ")) (c_meta c ++ [("value", c_val c)])%list = map (field_text rp (i ++ "  ")) (c_meta c' ++ [("value", c_val c')])%list).
  { rewrite !map_app. f_equal; [|cbn [map]; unfold field_text; cbn [fst snd]; now rewrite H2]. induction H3 as [|n m l l' [A B] _ IH]; [reflexivity|]. cbn [map]. rewrite IH. f_equal. unfold field_text. now rewrite A, B. }
  now rewrite E.
Qed.
