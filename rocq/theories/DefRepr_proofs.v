(** DefRepr_proofs: the text of a ModuleDef and what it determines. *)
From Coq Require Import Lia DecimalString.
From Verif Require Import PyBase PyBaseFacts ValuesM FiltersM StateM ModuleM TlsM ContextM Spec_Tls Tls_proofs Context_proofs Mdef_proofs ValuesFacts Spec_JitCache JitCache_proofs DefReprM Spec_DefRepr.
Local Open Scope list_scope.
Local Open Scope string_scope.

Lemma nat_char c n : (forall d : nat, d < 10 -> Ascii.eqb c (Ascii.ascii_of_nat (48 + d)) = false) -> has_char c (nat_str n) = false.
Proof.
  intros H. unfold nat_str. induction (Nat.to_uint n) as [|u IH|u IH|u IH|u IH|u IH|u IH|u IH|u IH|u IH|u IH]; [reflexivity|..]; cbn [NilEmpty.string_of_uint has_char]; rewrite IH, Bool.orb_false_r.
  - exact (H 0 ltac:(lia)). - exact (H 1 ltac:(lia)). - exact (H 2 ltac:(lia)). - exact (H 3 ltac:(lia)). - exact (H 4 ltac:(lia)).
  - exact (H 5 ltac:(lia)). - exact (H 6 ltac:(lia)). - exact (H 7 ltac:(lia)). - exact (H 8 ltac:(lia)). - exact (H 9 ltac:(lia)).
Qed.
Ltac digits := apply nat_char; intros d Hd; do 10 (destruct d as [|d]; [reflexivity|]); lia.
Lemma nat_nl n : has_nl (nat_str n) = false. Proof. unfold has_nl. digits. Qed.
Lemma nat_comma n : has_char ","%char (nat_str n) = false. Proof. digits. Qed.
Lemma nat_close n : has_char ")"%char (nat_str n) = false. Proof. digits. Qed.
Lemma nat_M n : has_char "M"%char (nat_str n) = false. Proof. digits. Qed.

(** ** The text *)
Lemma elems_map i sep {A} (f : A -> ritem) g (l : list A) : Forall (fun a => render_item i sep (f a) = Ok (g a)) l ->
  (fix elems (l : list ritem) : result (list string) :=
     match l with
     | [] => Ok []
     | it :: t => rbind (render_item i sep it) (fun x => rbind (elems t) (fun xs => Ok (x :: xs)%list))
     end) (map f l) = Ok (map g l).
Proof. induction 1 as [|a l E _ IH]; [reflexivity|]. cbn [map]. rewrite E. cbn [rbind]. rewrite IH. reflexivity. Qed.

Lemma text_of rs d : printable rs d -> forall i, render_val i (def_val rs d) = Ok (def_text rs i d).
Proof.
  induction d as [n|c idx subs st b IH] using mdef_rect'; intros H i; inversion H as [|c' idx' subs' st' b' H1 H2 H3 H4]; subst.
  - cbn. rewrite sapp_nil, (replace_nl_none _ _ (nat_nl n)). reflexivity.
  - cbn [def_val render_val]. change (cls_name c) with (own_name c).
    set (subsval := RObj (mkConfig "" "(" ")" ", " "  " "") (map (fun nd => RiAttr (quoted (fst nd)) "(" ")" (def_val rs (snd nd))) subs)).
    assert (E : render (i ++ "  ") subsval = Ok ("(" ++ (match subs with [] => "" | _ => nl ++ listing (map (fun nd => i ++ "    ('" ++ fst nd ++ "', " ++ def_text rs (i ++ "    ") (snd nd) ++ ")") subs) ++ nl ++ i ++ "  " end) ++ ")")).
    { unfold subsval. cbn [render g_indent g_sep g_type g_start g_end g_empty].
      rewrite (elems_map ((i ++ "  ") ++ "  ") ", " _ (fun nd => i ++ "    ('" ++ fst nd ++ "', " ++ def_text rs (i ++ "    ") (snd nd) ++ ")")).
      - cbn [rbind]. f_equal. destruct subs as [|nd subs]; [reflexivity|].
        destruct (String.eqb_spec (join (String "," (String newline "")) (map (fun nd0 => i ++ "    ('" ++ fst nd0 ++ "', " ++ def_text rs (i ++ "    ") (snd nd0) ++ ")") (nd :: subs))) "") as [Z0|_].
        + exfalso. cbn [map] in Z0. destruct (map _ subs) as [|x l]; cbn [join] in Z0; [|apply sapp_empty in Z0 as [Z0 _]]; apply sapp_empty in Z0 as [_ Z0]; discriminate.
        + unfold listing, nl. cbn [append]. repeat (rewrite sapp_assoc; cbn [append]). reflexivity.
      - rewrite Forall_forall in *. intros nd Hnd. cbn [render_item]. rewrite (IH nd Hnd (proj2 (H4 nd Hnd)) ((i ++ "  ") ++ "  ")). cbn [rbind]. f_equal. unfold quoted.
        replace ((i ++ "  ") ++ "  ") with (i ++ "    ") by (rewrite sapp_assoc; reflexivity). repeat (rewrite sapp_assoc; cbn [append]). reflexivity. }
    cbn [render render_item render_val render_piece g_indent g_sep g_type g_start g_end g_empty rbind]. rewrite E. cbn [rbind].
    rewrite !sapp_nil, (replace_nl_none _ _ H2), (replace_nl_none _ _ H3), (replace_nl_none _ _ (nat_nl idx)).
    match goal with |- Ok (if ?x then _ else _) = _ => destruct x eqn:Z0 end.
    { exfalso. apply String.eqb_eq in Z0. cbn [join] in Z0. apply sapp_empty in Z0 as [Z0 _]. apply sapp_empty in Z0 as [Z0 _]. apply sapp_empty in Z0 as [_ Z0]. discriminate. }
    f_equal. cbn [def_text]. unfold listing, nl. cbn [join append]. repeat (rewrite sapp_assoc; cbn [append]). reflexivity.
Qed.

(** ** What it determines *)
Lemma upto c a : forall b r r', has_char c a = false -> has_char c b = false -> a ++ String c r = b ++ String c r' -> a = b /\ r = r'.
Proof.
  induction a as [|x a IH]; intros [|y b] r r' Ha Hb E; cbn in *.
  - injection E as <-. auto.
  - injection E as <- _. rewrite Ascii.eqb_refl in Hb. discriminate.
  - injection E as -> _. rewrite Ascii.eqb_refl in Ha. discriminate.
  - apply Bool.orb_false_iff in Ha as [_ Ha]. apply Bool.orb_false_iff in Hb as [_ Hb]. injection E as -> E. destruct (IH b r r' Ha Hb E) as [-> ->]. auto.
Qed.
Lemma cancel a b c : a ++ b = a ++ c -> b = c.
Proof. induction a as [|x a IH]; [auto|]. cbn. intros [= H]. auto. Qed.
Lemma not_M n r r' : nat_str n ++ String ")" r <> String "M" r'.
Proof.
  pose proof (nat_M n) as H. destruct (nat_str n) as [|c s]; cbn in *; [discriminate|]. intros [= -> _]. cbn in H. discriminate.
Qed.

Definition sub_line rs i (nd : string * mdef) : string := i ++ "    ('" ++ fst nd ++ "', " ++ def_text rs (i ++ "    ") (snd nd) ++ ")".
Lemma listing_cons x y l : listing (x :: y :: l) = x ++ String "," (String newline (listing (y :: l))).
Proof. reflexivity. Qed.
Definition coded rs (d : mdef) : Prop := forall i d' r r', printable rs d -> printable rs d' -> def_text rs i d ++ String ")" r = def_text rs i d' ++ String ")" r' -> reads_same rs d d' /\ r = r'.
Lemma subs_coded rs i (l : list (string * mdef)) : Forall (fun nd => coded rs (snd nd)) l ->
  Forall (fun nd => has_char "'"%char (fst nd) = false /\ printable rs (snd nd)) l ->
  forall l', Forall (fun nd => has_char "'"%char (fst nd) = false /\ printable rs (snd nd)) l' -> l <> [] -> l' <> [] -> forall r r',
  listing (map (sub_line rs i) l) ++ String newline r = listing (map (sub_line rs i) l') ++ String newline r' ->
  Forall2 (fun x y => fst x = fst y /\ reads_same rs (snd x) (snd y)) l l' /\ r = r'.
Proof.
  induction 1 as [|[n d] l Hd Hl IH]; intros Pl l' Pl' Ne Ne' r r' E; [contradiction|]. destruct l' as [|[n' d'] l']; [contradiction|].
  inversion Pl as [|? ? [A1 A2] A3]; subst. inversion Pl' as [|? ? [B1 B2] B3]; subst. cbn [fst snd] in *.
  assert (G : forall z z', sub_line rs i (n, d) ++ z = sub_line rs i (n', d') ++ z' -> n = n' /\ reads_same rs d d' /\ z = z').
  { intros z z' Hz. unfold sub_line in Hz. cbn [fst snd] in Hz. repeat (rewrite sapp_assoc in Hz; cbn [append] in Hz). apply cancel in Hz. injection Hz as Hz.
    apply upto in Hz as [-> Hz]; [|assumption..]. injection Hz as Hz. apply Hd in Hz as [K1 K2]; auto. }
  cbn [map] in E. destruct l as [|x l], l' as [|x' l']; cbn [map] in E; rewrite ?listing_cons in E; unfold listing at 1 2 in E || idtac; cbn [join] in E; repeat (rewrite sapp_assoc in E; cbn [append] in E).
  - apply G in E as (-> & K1 & K2). injection K2 as ->. split; [|reflexivity]. constructor; [split; [reflexivity|exact K1]|constructor].
  - apply G in E as (_ & _ & K2). discriminate.
  - apply G in E as (_ & _ & K2). discriminate.
  - apply G in E as (-> & K1 & K2). injection K2 as K2. destruct (IH A3 (x' :: l') B3) with (r := r) (r' := r') as [K3 K4]; [discriminate|discriminate|exact K2|]. split; [|exact K4]. constructor; [split; [reflexivity|exact K1]|exact K3].
Qed.

Lemma text_coded rs d : coded rs d.
Proof.
  induction d as [n|c idx subs st b IH] using mdef_rect'; intros i [n'|c' idx' subs' st' b'] r r' H H' E.
  - cbn in E. apply upto in E as [E1 E2]; [|apply nat_close..]. apply nat_str_inj in E1 as ->. split; [constructor|exact E2].
  - exfalso. cbn [def_text append] in E. exact (not_M _ _ _ E).
  - exfalso. cbn [def_text append] in E. symmetry in E. exact (not_M _ _ _ E).
  - inversion H as [|? ? ? ? ? H1 H2 H3 H4]; subst. inversion H' as [|? ? ? ? ? H1' H2' H3' H4']; subst.
    cbn [def_text] in E. change (fun nd : string * mdef => i ++ "    ('" ++ fst nd ++ "', " ++ def_text rs (i ++ "    ") (snd nd) ++ ")") with (sub_line rs i) in E.
    set (body := match subs with [] => _ | _ => _ end) in E. set (body' := match subs' with [] => _ | _ => _ end) in E.
    unfold listing, nl in E. cbn [join append] in E. repeat (rewrite sapp_assoc in E; cbn [append] in E).
    injection E as E. apply cancel in E. injection E as E. apply upto in E as [E1 E]; [|assumption..].
    injection E as E. apply cancel in E. injection E as E. apply upto in E as [E2 E]; [|apply nat_comma..]. apply nat_str_inj in E2 as ->.
    injection E as E. apply cancel in E. injection E as E.
    assert (K : Forall2 (fun x y => fst x = fst y /\ reads_same rs (snd x) (snd y)) subs subs' /\ forall z z', body ++ String ")" z = body' ++ String ")" z' -> z = z').
    { revert E. match goal with |- body ++ String ")" ?z = body' ++ String ")" ?z' -> _ => generalize z, z' end. intros z z' E.
      assert (G : forall z z', body ++ String ")" z = body' ++ String ")" z' -> Forall2 (fun x y => fst x = fst y /\ reads_same rs (snd x) (snd y)) subs subs' /\ z = z').
      { clear E z z'. intros z z' E. unfold body, body' in E. destruct subs as [|x l], subs' as [|x' l'].
        - injection E as ->. split; [constructor|reflexivity].
        - discriminate.
        - discriminate.
        - unfold nl in E. cbn [append] in E. repeat (rewrite sapp_assoc in E; cbn [append] in E). injection E as E.
          apply (subs_coded rs i (x :: l) IH H4 (x' :: l') H4') in E as [K1 K2]; try discriminate. split; [exact K1|]. apply cancel in K2. now injection K2. }
      split; [exact (proj1 (G _ _ E))|]. intros z0 z0' E0. exact (proj2 (G _ _ E0)). }
    destruct K as [K1 K2]. apply K2 in E. injection E as E. apply cancel in E. injection E as E.
    apply upto in E as [E3 E]; [|assumption..]. apply cancel in E. injection E as E. split; [|exact E]. now constructor.
Qed.

Lemma same_text rs d : forall i d', reads_same rs d d' -> def_text rs i d = def_text rs i d'.
Proof.
  induction d as [n|c idx subs st b IH] using mdef_rect'; intros i d' H; inversion H as [|? ? ? ? subs' ? ? ? ? E1 E2 E3]; subst; [reflexivity|].
  cbn [def_text]. rewrite E1, E2. assert (E : map (sub_line rs i) subs = map (sub_line rs i) subs').
  { clear -IH E3. revert IH. induction E3 as [|x y l l' [A B] _ IH2]; intros IH; [reflexivity|]. inversion IH as [|? ? I1 I2]; subst. cbn [map]. rewrite (IH2 I2). f_equal. unfold sub_line. now rewrite A, (I1 _ _ B). }
  unfold sub_line in E. rewrite E. destruct E3; reflexivity.
Qed.

(** ** Equal ModuleDefs of Modules print alike *)
Lemma equal_reads rs : (forall st st', statics_eqb st st' = true -> rs st = rs st') ->
  forall d e n k k', mdef_eqb d e = true -> numbered_from d n = Some k -> numbered_from e n = Some k' -> reads_same rs d e /\ k = k'.
Proof.
  intros HR. induction d as [i|c i subs st ini IH] using mdef_rect'; intros [j|c' j subs' st' ini'] n k k' E; try (cbn in E; discriminate).
  - cbn in *. apply Nat.eqb_eq in E as <-. intros [= <-] [= <-]. split; [constructor|reflexivity].
  - rewrite mdef_eqb_MDef in E. apply andb_prop in E as [E E3]. apply andb_prop in E as [E1 E2]. apply cls_eqb_eq in E1 as <-.
    change ((if Nat.eqb i n then numbered_subs subs (S n) else None) = Some k -> (if Nat.eqb j n then numbered_subs subs' (S n) else None) = Some k' ->
      reads_same rs (MDef c i subs st ini) (MDef c j subs' st' ini') /\ k = k').
    destruct (Nat.eqb i n) eqn:Ei; [|discriminate]. destruct (Nat.eqb j n) eqn:Ej; [|discriminate].
    apply Nat.eqb_eq in Ei as ->. apply Nat.eqb_eq in Ej as ->. intros N N'.
    assert (G : Forall2 (fun x y => fst x = fst y /\ reads_same rs (snd x) (snd y)) subs subs' /\ k = k').
    { clear - IH E2 N N'. revert subs' E2 N N'. generalize (S n).
      induction IH as [|[m d] l Hd H IHl]; intros q [|[m' e] l'] E2 N N'; cbn [subs_eqb] in E2; try discriminate.
      - cbn in N, N'. split; [constructor|congruence].
      - apply andb_prop in E2 as [E2 E4]. apply andb_prop in E2 as [E2 E3]. apply String.eqb_eq in E2 as <-.
        cbn [numbered_subs] in *. destruct (numbered_from d q) as [x|] eqn:Nd; [|discriminate].
        destruct (numbered_from e q) as [y|] eqn:Ne; [|discriminate]. cbn [snd] in Hd.
        destruct (Hd e q x y E3 Nd Ne) as [A ->]. destruct (IHl y l' E4 N N') as [F ->]. split; [|reflexivity].
        constructor; [split; [reflexivity|exact A]|exact F]. }
    destruct G as [G ->]. split; [|reflexivity]. constructor; [reflexivity|now apply HR|exact G].
Qed.
