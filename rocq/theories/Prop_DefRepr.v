(** Prop_DefRepr: C120, repr of a ModuleDef. *)
From Verif Require Import PyBase PyBaseFacts ValuesM FiltersM StateM ModuleM TlsM ContextM Spec_Module Spec_Tls Tls_proofs Mdef_proofs JitCache_proofs DefReprM Spec_DefRepr DefRepr_proofs Ex_Module Prop_TrainLoop.
Local Open Scope list_scope.
Local Open Scope string_scope.

(** *** C120 *)
(** repr of a ModuleDef returns the text [def_text] at the current indentation, and leaves the
    indentation as it was. *)
Theorem C120_text :
  forall rs d st i, printable rs d -> def_repr rs d (st ++ [i])%list = (Ok (def_text rs i d), (st ++ [i])%list).
Proof. intros rs d st i H. unfold def_repr. rewrite repr_val_render, (text_of rs d H i). reflexivity. Qed.
Print Assumptions C120_text.

(** The text tells ModuleDefs apart: two of them print alike exactly when they are the same tree
    of class names, indices, attribute names and references, with static fields that print
    alike. *)
Theorem C120_reads :
  forall rs d d' st i, printable rs d -> printable rs d' ->
  fst (def_repr rs d (st ++ [i])%list) = fst (def_repr rs d' (st ++ [i])%list) <-> reads_same rs d d'.
Proof.
  intros rs d d' st i H H'. rewrite !C120_text by assumption. cbn [fst]. split.
  - intros [= E]. destruct (text_coded rs d i d' "" "" H H') as [G _]; [now rewrite E|exact G].
  - intros G. now rewrite (same_text rs d i d' G).
Qed.
Print Assumptions C120_reads.

(** Modules whose ModuleDefs are equal have ModuleDefs that print alike, if equal static fields
    do: the indices are given by the traversal. *)
Theorem C120_equal_modules :
  forall rs w r d w' r' d' st i, wf_world w -> wf_world w' -> (forall x y, statics_eqb x y = true -> rs x = rs y) ->
  get_module_def w r = Ok d -> get_module_def w' r' = Ok d' -> printable rs d -> printable rs d' -> mdef_eqb d d' = true ->
  def_repr rs d (st ++ [i])%list = def_repr rs d' (st ++ [i])%list.
Proof.
  intros rs w r d w' r' d' st i W W' HR E E' H H' Q.
  assert (N : forall w r d, wf_world w -> get_module_def w r = Ok d -> exists k, Spec_JitCache.numbered_from d 0 = Some k).
  { clear. intros w r d W E. unfold get_module_def in E. destruct (make_def (dfs_fuel w) w r []) as [[d0 mi]|] eqn:M; [|discriminate]. cbn [rbind] in E.
    apply (make_def_good w W) in M as (_ & M & _). destruct d0; [discriminate|]. injection E as <-. eexists. exact M. }
  destruct (N w r d W E) as [k K], (N w' r' d' W' E') as [k' K']. rewrite !C120_text by assumption.
  now rewrite (same_text rs d i d' (proj1 (equal_reads rs HR d d' 0 k k' Q K K'))).
Qed.
Print Assumptions C120_equal_modules.

(** *** A case *)
(** Python's repr of static fields with str values. *)
Definition ex_rs (st : list (string * attr)) : string :=
  "(" ++ String.concat "" (map (fun na => "('" ++ fst na ++ "', '" ++ (match snd na with ARaw (PyStr s) => s | _ => "?" end) ++ "')" ++ ",") st) ++ ")".
Example C120_example :
  exists d, get_module_def ex_mlp 0 = Ok d /\ printable ex_rs d /\
    def_text ex_rs "" d = String.concat nl
      [ "ModuleDef("; "  type=MLP,"; "  index=0,"; "  submodules=(";
        "    ('linear1', ModuleDef("; "      type=Linear,"; "      index=1,"; "      submodules=(),"; "      static_fields=(('name', 'l1'),)"; "    )),";
        "    ('linear2', ModuleDef("; "      type=Linear,"; "      index=2,"; "      submodules=("; "        ('tied', 1)"; "      ),"; "      static_fields=()"; "    ))";
        "  ),"; "  static_fields=()"; ")" ].
Proof.
  eexists. split; [vm_compute; reflexivity|]. split; [repeat constructor|vm_compute; reflexivity].
Qed.

(** Two Modules with equal ModuleDefs: the MLP and its clone. *)
Lemma ex_rs_eq x y : statics_eqb x y = true -> ex_rs x = ex_rs y.
Proof.
  intros H. unfold ex_rs. f_equal. f_equal. f_equal. revert y H. induction x as [|[n a] x IH]; intros [|[m b] y] H; try discriminate; [reflexivity|]. cbn [statics_eqb] in H.
  apply andb_prop in H as [H H2]. apply andb_prop in H as [H H1]. apply String.eqb_eq in H as <-. cbn [map]. rewrite (IH y H2). f_equal. cbn [fst snd].
  destruct a as [u|c], b as [v|c']; try discriminate; [|reflexivity]. destruct u, v; try discriminate; try reflexivity. cbn in H1. apply String.eqb_eq in H1 as <-. reflexivity.
Qed.
Example C120_equal_example :
  exists r w' d d', wf_world ex_mlp /\ clone ex_mlp 0 = Ok (r, w') /\ wf_world w' /\ get_module_def ex_mlp 0 = Ok d /\ get_module_def w' r = Ok d' /\
    printable ex_rs d /\ printable ex_rs d' /\ mdef_eqb d d' = true.
Proof.
  do 4 eexists. split; [apply wf_worldb_ok; vm_compute; reflexivity|]. split; [vm_compute; reflexivity|]. split; [apply wf_worldb_ok; vm_compute; reflexivity|].
  split; [vm_compute; reflexivity|]. split; [vm_compute; reflexivity|]. split; [repeat constructor|]. split; [repeat constructor|vm_compute; reflexivity].
Qed.

(** *** Where it fails *)
(** Equal ModuleDefs need not print alike: the index is printed but not compared.  The ModuleDef
    of a layer and the part of its model's ModuleDef for that layer. *)
Theorem C120_equal_refuted :
  exists c subs st b d d', get_module_def ex_mlp 0 = Ok (MDef c 0 (("linear1", d) :: subs) st b) /\ get_module_def ex_mlp 1 = Ok d' /\
    mdef_eqb d d' = true /\ fst (def_repr ex_rs d [""]) <> fst (def_repr ex_rs d' [""]).
Proof. do 6 eexists. split; [vm_compute; reflexivity|]. split; [vm_compute; reflexivity|]. split; [vm_compute; reflexivity|vm_compute; discriminate]. Qed.
Print Assumptions C120_equal_refuted.
(** Nor are ModuleDefs that print alike equal: of a class only the name is printed. *)
Theorem C120_class_refuted :
  exists d d', printable ex_rs d /\ printable ex_rs d' /\ fst (def_repr ex_rs d [""]) = fst (def_repr ex_rs d' [""]) /\ mdef_eqb d d' = false.
Proof.
  exists (MDef ["Block"; "Module"; "object"] 0 [] [] false), (MDef ["Block"; "Linear"; "Module"; "object"] 0 [] [] false).
  split; [repeat constructor|]. split; [repeat constructor|]. split; vm_compute; reflexivity.
Qed.
Print Assumptions C120_class_refuted.
