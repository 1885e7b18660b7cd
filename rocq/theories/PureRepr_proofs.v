(** PureRepr_proofs: what the printed form of a Pure determines. *)
From Verif Require Import PyBase PyBaseFacts ValuesM Spec_Eq ValuesFacts FiltersM StateM ModuleM TlsM Spec_Tls Tls_proofs Mdef_proofs Spec_AnyDef Spec_JitCache DefReprM Spec_DefRepr DefRepr_proofs StateReprM Spec_StateRepr StateRepr_proofs PureReprM Spec_PureRepr.
Local Open Scope list_scope.
Local Open Scope string_scope.

Lemma state_coded rp i s s' r r' : Forall (plain_entry rp) s -> Forall (plain_entry rp) s' -> state_text rp i s ++ r = state_text rp i s' ++ r' -> Forall2 (shows_same rp) s s' /\ r = r'.
Proof.
  intros H H' E. unfold state_text, nl in E. cbn [append] in E. injection E as E. destruct s as [|x s], s' as [|x' s'].
  - injection E as ->. auto.
  - discriminate.
  - discriminate.
  - cbn [append] in E. repeat (rewrite sapp_assoc in E; cbn [append] in E). injection E as E.
    exact (entries_coded rp i (x :: s) H (x' :: s') r r' H' ltac:(discriminate) ltac:(discriminate) E).
Qed.

Lemma reads_eq rs b d : forall d', reads_same rs d d' -> telling rs d d' -> uniform b d -> uniform b d' -> d = d'.
Proof.
  induction d as [n|c idx subs st ini IH] using mdef_rect'; intros d' H T U U'; inversion H as [|? c' ? ? subs' ? st' ? ini' E1 E2 E3]; subst; [reflexivity|].
  destruct (T c idx subs st ini c' idx subs' st' ini') as [T1 T2]; [now left|now left|]. destruct U as [U0 U], U' as [U0' U']. rewrite (T1 E1), (T2 E2). subst ini ini'. f_equal.
  assert (T' : forall x y, In x subs -> In y subs' -> telling rs (snd x) (snd y)).
  { intros x y Hx Hy c1 i1 s1 t1 b1 c2 i2 s2 t2 b2 I1 I2. apply (T c1 i1 s1 t1 b1 c2 i2 s2 t2 b2); cbn [parts]; right; apply in_flat_map; eauto. }
  clear -IH E3 U U' T'. revert IH U U'. induction E3 as [|[n e] [n' e'] l l' [A B] _ IH2]; intros IH U U'; [reflexivity|]. cbn [fst snd] in *. inversion IH as [|? ? I1 I2]; subst. destruct U as [V U], U' as [V' U']. f_equal.
  - f_equal. apply I1; auto. exact (T' (n', e) (n', e') (or_introl eq_refl) (or_introl eq_refl)).
  - apply IH2; auto. intros x y Hx Hy. apply T'; now right.
Qed.
