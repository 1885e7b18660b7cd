(** Prop_StateRepr: C121, repr of a State. *)
From Coq Require Import ZArith.
From Verif Require Import PyBase PyBaseFacts ValuesM FiltersM StateM ModuleM TlsM Spec_Tls Tls_proofs HelpersM DefReprM Spec_DefRepr DefRepr_proofs StateReprM Spec_StateRepr StateRepr_proofs Ex_Module Prop_TrainLoop.
Local Open Scope list_scope.
Local Open Scope string_scope.

(** *** C121 *)
(** repr of a State returns the text [state_text] at the current indentation, and leaves the
    indentation as it was. *)
Theorem C121_text :
  forall rp s st i, Forall (plain_entry rp) s -> state_repr rp s (st ++ [i])%list = (Ok (state_text rp i s), (st ++ [i])%list).
Proof. intros rp s st i H. unfold state_repr. rewrite get_repr_render, (state_of rp s i H). reflexivity. Qed.
Print Assumptions C121_text.

(** Two States print alike exactly when they have the same paths, in the same order, and under
    each of them entries of the same kind that show the same values. *)
Theorem C121_reads :
  forall rp s s' st i, Forall (plain_entry rp) s -> Forall (plain_entry rp) s' ->
  fst (state_repr rp s (st ++ [i])%list) = fst (state_repr rp s' (st ++ [i])%list) <-> Forall2 (shows_same rp) s s'.
Proof.
  intros rp s s' st i H H'. rewrite !C121_text by assumption. cbn [fst]. split.
  - intros [= E]. destruct s as [|x s], s' as [|x' s']; [constructor|discriminate|discriminate|].
    cbn [append] in E. repeat (rewrite sapp_assoc in E; cbn [append] in E). injection E as E.
    exact (proj1 (entries_coded rp i (x :: s) H (x' :: s') "" "" H' ltac:(discriminate) ltac:(discriminate) E)).
  - intros G. assert (E : map (entry_text rp i) s = map (entry_text rp i) s').
    { clear -G. induction G as [|x y l l' A _ IH]; [reflexivity|]. cbn [map]. now rewrite IH, (shows_text rp i x y A). }
    unfold state_text. rewrite E. destruct G; reflexivity.
Qed.
Print Assumptions C121_reads.

(** If Python's repr tells the values in them apart, classes go by their names and no entry is a bare str,
    States that print alike are the same. *)
Theorem C121_faithful :
  forall rp s s' st i, Forall (plain_entry rp) s -> Forall (plain_entry rp) s' -> (forall x y v v', In x s -> In y s' -> In v (shown (snd x)) -> In v' (shown (snd y)) -> rp v = rp v' -> v = v') ->
  (forall k c k' c', In (k, ACont c) s -> In (k', ACont c') s' -> own_name (c_cls c) = own_name (c_cls c') -> c_cls c = c_cls c') ->
  (forall k t, ~ In (k, ARaw (PyStr t)) s /\ ~ In (k, ARaw (PyStr t)) s') ->
  fst (state_repr rp s (st ++ [i])%list) = fst (state_repr rp s' (st ++ [i])%list) -> s = s'.
Proof.
  intros rp s s' st i H H' Inj Cls Str E. apply C121_reads in E; [|assumption..]. clear H H'. induction E as [|[k a] [k' a'] l l' [A B] _ IH]; [reflexivity|]. cbn [fst snd] in A, B. subst k'. f_equal.
  - f_equal. destruct a as [v|c], a' as [v'|c']; try contradiction.
    + f_equal. apply (Inj (k, ARaw v) (k, ARaw v')); [now left|now left|now left|now left|]. destruct v, v'; cbn [bare] in B; try exact B; exfalso; first [exact (proj1 (Str k s) (or_introl eq_refl)) | exact (proj2 (Str k s) (or_introl eq_refl)) | exact (proj1 (Str k s0) (or_introl eq_refl)) | exact (proj2 (Str k s0) (or_introl eq_refl))].
    + destruct B as (B1 & B2 & B3). apply (Cls k c k c') in B1; [|now left..]. apply (Inj (k, ACont c) (k, ACont c')) in B2; [|now left..]. assert (Inj' : forall u u', In u (map snd (c_meta c)) -> In u' (map snd (c_meta c')) -> rp u = rp u' -> u = u') by (intros u u' I1 I2; apply (Inj (k, ACont c) (k, ACont c')); [now left|now left|now right|now right]). destruct c as [cl m v], c' as [cl' m' v']. cbn [c_cls c_meta c_val] in *. subst. f_equal. f_equal.
      clear -B3 Inj'. induction B3 as [|[n u] [n' u'] x y [C D] _ IH]; [reflexivity|]. cbn [fst snd] in *. apply Inj' in D; [|now left..]. subst. f_equal. apply IH. intros u1 u2 I1 I2. apply Inj'; now right.
  - apply IH; [intros x y v v' I1 I2; apply (Inj x y); now right|intros k1 c1 k2 c2 I1 I2; apply (Cls k1 c1 k2 c2); now right|intros k1 t1; split; intros I; [apply (proj1 (Str k1 t1))|apply (proj2 (Str k1 t1))]; now right].
Qed.
Print Assumptions C121_faithful.

(** *** A case *)
Definition ex_rp (v : pyval) : string :=
  match v with PyNone => "None" | PyInt z => str_int z | PyObj _ n => "Array(" ++ str_nat n ++ ", dtype=int32)" | PyStr s => "'" ++ s ++ "'" | _ => "?" end.
Example C121_example :
  exists s, get_state ex_mlp 3 = Ok s /\ Forall (plain_entry ex_rp) (("count", arr 4) :: s) /\
    state_text ex_rp "" (("count", arr 4) :: s) = String.concat nl
      [ "State({"; "  'count': Array(4, dtype=int32),"; "  'peer/w': Param("; "    sharding=None,"; "    value=Array(3, dtype=int32)"; "  ),";
        "  'w': Param("; "    sharding=None,"; "    value=Array(20, dtype=int32)"; "  )"; "})" ].
Proof.
  eexists. split; [vm_compute; reflexivity|]. split; [|vm_compute; reflexivity].
  repeat (constructor; [repeat (first [reflexivity | split | constructor])|]). constructor.
Qed.

Example C121_faithful_hyps :
  exists s s', get_state ex_mlp 0 = Ok s /\ get_state ex_mlp 3 = Ok s' /\ Forall (plain_entry ex_rp) s /\ Forall (plain_entry ex_rp) s' /\
    (forall x y v v', In x s -> In y s' -> In v (shown (snd x)) -> In v' (shown (snd y)) -> ex_rp v = ex_rp v' -> v = v') /\
    (forall k c k' c', In (k, ACont c) s -> In (k', ACont c') s' -> own_name (c_cls c) = own_name (c_cls c') -> c_cls c = c_cls c') /\
    (forall k t, ~ In (k, ARaw (PyStr t)) s /\ ~ In (k, ARaw (PyStr t)) s').
Proof.
  do 2 eexists. split; [vm_compute; reflexivity|]. split; [vm_compute; reflexivity|].
  split; [repeat (constructor; [repeat (first [reflexivity | split | constructor])|]); constructor|]. split; [repeat (constructor; [repeat (first [reflexivity | split | constructor])|]); constructor|].
  split; [|split].
  - intros x y v v' Hx Hy. cbn [In] in Hx, Hy. intuition (subst; cbn [shown snd c_val c_meta map In] in *; intuition (subst; first [reflexivity | discriminate])).
  - intros k c k' c' Hx Hy. cbn [In] in Hx, Hy. intuition (repeat match goal with H : (_, _) = (_, _) |- _ => injection H as <- <- || discriminate H end; reflexivity).
  - intros k t. split; cbn [In]; intuition discriminate.
Qed.

(** *** Where it fails *)
(** Different States may print alike: a str is printed without quotes. *)
Theorem C121_str_refuted :
  exists s s', Forall (plain_entry ex_rp) s /\ Forall (plain_entry ex_rp) s' /\ fst (state_repr ex_rp s [""]) = fst (state_repr ex_rp s' [""]) /\ s <> s'.
Proof.
  exists [("a", ARaw (PyStr "None"))], [("a", ARaw PyNone)]. split; [repeat (constructor || split)|]. split; [repeat (constructor || split)|]. split; [vm_compute; reflexivity|discriminate].
Qed.
Print Assumptions C121_str_refuted.
(** Nor does the text show where an entry ends if a value prints on several lines. *)
Definition ex_lines (v : pyval) : string := match v with PyObj _ _ => "1," ++ nl ++ "'b': 2" | _ => ex_rp v end.
Theorem C121_lines_refuted :
  exists s s', fst (state_repr ex_lines s [""]) = fst (state_repr ex_lines s' [""]) /\ List.length s = 1 /\ List.length s' = 2.
Proof. exists [("a", arr 0)], [("a", ARaw (PyInt 1%Z)); ("b", ARaw (PyInt 2%Z))]. split; [vm_compute; reflexivity|]. split; reflexivity. Qed.
Print Assumptions C121_lines_refuted.
