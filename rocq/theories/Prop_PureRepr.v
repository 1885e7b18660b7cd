(** Prop_PureRepr: C122, the printed form of a partition is a picture of the model. *)
From Coq Require Import Lia.
From Verif Require Import PyBase PyBaseFacts ValuesM FiltersM StateM ModuleM TlsM Spec_Module Spec_Tls Tls_proofs Mdef_proofs Spec_AnyDef Spec_JitCache DefReprM Spec_DefRepr DefRepr_proofs StateReprM Spec_StateRepr StateRepr_proofs PureReprM Spec_PureRepr PureRepr_proofs Graph_facts Dfs_proofs Bisim_proofs TrainLoop_proofs
  Ex_Module Prop_TrainLoop Prop_DefRepr Prop_StateRepr.
Local Open Scope list_scope.
Local Open Scope string_scope.

(** *** C122 *)
(** repr of a Pure: the two texts, and the indentation as it was. *)
Theorem C122_text :
  forall rp rs s d st i, Forall (plain_entry rp) s -> printable rs d ->
  pure_repr rp rs s d (st ++ [i])%list = (Ok ("(" ++ state_text rp i s ++ ", " ++ def_text rs i d ++ ")"), (st ++ [i])%list).
Proof. intros rp rs s d st i H K. unfold pure_repr. rewrite (C121_text rp s st i H), (C120_text rs d st i K). reflexivity. Qed.
Print Assumptions C122_text.

(** Two Pures print alike exactly when both parts do. *)
Theorem C122_reads :
  forall rp rs s d s' d' st i, Forall (plain_entry rp) s -> printable rs d -> Forall (plain_entry rp) s' -> printable rs d' ->
  fst (pure_repr rp rs s d (st ++ [i])%list) = fst (pure_repr rp rs s' d' (st ++ [i])%list) <-> Forall2 (shows_same rp) s s' /\ reads_same rs d d'.
Proof.
  intros rp rs s d s' d' st i H K H' K'. rewrite !C122_text by assumption. cbn [fst]. split.
  - intros E0. pose proof (f_equal (fun r => match r with Ok x => x | Err _ => "" end) E0) as E. cbn beta iota in E. apply (cancel "(") in E. apply state_coded in E as [E1 E]; [|assumption..]. apply (cancel ", ") in E. apply (text_coded rs d i d' "" "" K K') in E as [E2 _]. auto.
  - intros [A B]. apply (C121_reads rp s s' st i H H') in A. rewrite !C121_text in A by assumption. apply (f_equal (fun r => match r with Ok x => x | Err _ => "" end)) in A. cbn [fst] in A. now rewrite A, (same_text rs d i d' B).
Qed.
Print Assumptions C122_reads.

(** The printed form is a picture of the model: of two models, none of whose Modules is
    initializing, the partitions print alike only if the models are the same, when the reprs tell
    the values and static fields in them apart and classes go by their names. *)
Theorem C122_picture :
  forall rp rs w m s d w' m' s' d' st i,
  wf_world w -> m < List.length (w_heap w) -> names_ok w m -> live w m -> wf_world w' -> m' < List.length (w_heap w') -> names_ok w' m' -> live w' m' -> w_nodes w' = w_nodes w ->
  get_state w m = Ok s -> get_module_def w m = Ok d -> get_state w' m' = Ok s' -> get_module_def w' m' = Ok d' ->
  Forall (plain_entry rp) s -> printable rs d -> Forall (plain_entry rp) s' -> printable rs d' -> uniform false d -> uniform false d' ->
  (forall x y v v', In x s -> In y s' -> In v (shown (snd x)) -> In v' (shown (snd y)) -> rp v = rp v' -> v = v') ->
  (forall k c k' c', In (k, ACont c) s -> In (k', ACont c') s' -> own_name (c_cls c) = own_name (c_cls c') -> c_cls c = c_cls c') ->
  (forall k t, ~ In (k, ARaw (PyStr t)) s /\ ~ In (k, ARaw (PyStr t)) s') -> telling rs d d' ->
  fst (pure_repr rp rs s d (st ++ [i])%list) = fst (pure_repr rp rs s' d' (st ++ [i])%list) ->
  s = s' /\ d = d' /\ forall q, look w m q = look w' m' q.
Proof.
  intros rp rs w m s d w' m' s' d' st i W V N L W' V' N' L' Nn Es Ed Es' Ed' H K H' K' U U' Inj Cls Str T E.
  apply C122_reads in E as [A B]; [|assumption..].
  assert (s = s') as <- by (apply (C121_faithful rp s s' st i); auto; now apply C121_reads).
  assert (d = d') as <- by (exact (reads_eq rs false d d' B T U U')).
  split; [reflexivity|]. split; [reflexivity|]. intros q. apply (like_look w' m' w m q). constructor; auto; congruence.
Qed.
Print Assumptions C122_picture.

(** *** A case *)
(** The printed form of a model with one layer. *)
Example C122_example :
  exists s d, get_state ex_mlp 3 = Ok s /\ get_module_def ex_mlp 3 = Ok d /\ Forall (plain_entry ex_rp) s /\ printable ex_rs d /\ uniform false d /\ telling ex_rs d d /\
    fst (pure_repr ex_rp ex_rs s d [""]) = Ok (String.concat nl
      [ "(State({"; "  'peer/w': Param("; "    sharding=None,"; "    value=Array(3, dtype=int32)"; "  ),"; "  'w': Param("; "    sharding=None,"; "    value=Array(20, dtype=int32)"; "  )"; "}), ModuleDef(";
        "  type=Other,"; "  index=0,"; "  submodules=("; "    ('peer', ModuleDef("; "      type=Linear,"; "      index=1,"; "      submodules=(),"; "      static_fields=(('name', 'l1'),)"; "    ))"; "  ),"; "  static_fields=()"; "))" ]).
Proof.
  do 2 eexists. split; [vm_compute; reflexivity|]. split; [vm_compute; reflexivity|].
  split; [repeat (constructor; [repeat (first [reflexivity | split | constructor])|]); constructor|]. split; [repeat constructor|]. split; [cbn; auto|]. split; [|vm_compute; reflexivity].
  intros c i s t b c' i' s' t' b' I1 I2. cbn [parts flat_map snd app In] in I1, I2.
  repeat match goal with H : _ \/ _ |- _ => destruct H | H : False |- _ => destruct H end;
    repeat match goal with H : MDef _ _ _ _ _ = MDef _ _ _ _ _ |- _ => injection H as <- <- <- <- <- end; split; intros Q; first [reflexivity | discriminate Q].
Qed.

(** A model and its clone meet the conditions of [C122_picture]. *)
Example C122_picture_hyps :
  exists w' m' s d s' d', clone ex_mlp 3 = Ok (m', w') /\ m' <> 3 /\
  wf_world ex_mlp /\ 3 < List.length (w_heap ex_mlp) /\ names_ok ex_mlp 3 /\ live ex_mlp 3 /\ wf_world w' /\ m' < List.length (w_heap w') /\ names_ok w' m' /\ live w' m' /\ w_nodes w' = w_nodes ex_mlp /\
  get_state ex_mlp 3 = Ok s /\ get_module_def ex_mlp 3 = Ok d /\ get_state w' m' = Ok s' /\ get_module_def w' m' = Ok d' /\
  Forall (plain_entry ex_rp) s /\ printable ex_rs d /\ Forall (plain_entry ex_rp) s' /\ printable ex_rs d' /\ uniform false d /\ uniform false d' /\
  (forall x y v v', In x s -> In y s' -> In v (shown (snd x)) -> In v' (shown (snd y)) -> ex_rp v = ex_rp v' -> v = v') /\
  (forall k c k' c', In (k, ACont c) s -> In (k', ACont c') s' -> own_name (c_cls c) = own_name (c_cls c') -> c_cls c = c_cls c') /\
  (forall k t, ~ In (k, ARaw (PyStr t)) s /\ ~ In (k, ARaw (PyStr t)) s') /\ telling ex_rs d d' /\
  fst (pure_repr ex_rp ex_rs s d [""]) = fst (pure_repr ex_rp ex_rs s' d' [""]).
Proof.
  do 6 eexists. split; [vm_compute; reflexivity|]. split; [discriminate|].
  split; [apply wf_worldb_ok; vm_compute; reflexivity|]. split; [cbn; lia|]. split; [apply names_okb_ok; vm_compute; reflexivity|]. split; [apply liveb_ok; vm_compute; reflexivity|].
  split; [apply wf_worldb_ok; vm_compute; reflexivity|]. split; [cbn; lia|]. split; [apply names_okb_ok; vm_compute; reflexivity|]. split; [apply liveb_ok; vm_compute; reflexivity|].
  split; [reflexivity|]. do 4 (split; [vm_compute; reflexivity|]).
  split; [repeat (constructor; [repeat (first [reflexivity | split | constructor])|]); constructor|]. split; [repeat constructor|].
  split; [repeat (constructor; [repeat (first [reflexivity | split | constructor])|]); constructor|]. split; [repeat constructor|]. split; [cbn; auto|]. split; [cbn; auto|]. split; [|split; [|split; [|split]]].
  - intros x y v v' Hx Hy. cbn [In] in Hx, Hy. intuition (subst; cbn [shown snd c_val c_meta map In] in *; intuition (subst; first [reflexivity | discriminate])).
  - intros k c k' c' Hx Hy. cbn [In] in Hx, Hy. intuition (repeat match goal with H : (_, _) = (_, _) |- _ => injection H as <- <- || discriminate H end; reflexivity).
  - intros k t. split; cbn [In]; intuition discriminate.
  - intros c i s t b c' i' s' t' b' I1 I2. cbn [parts flat_map snd app In] in I1, I2.
    repeat match goal with H : _ \/ _ |- _ => destruct H | H : False |- _ => destruct H end;
      repeat match goal with H : MDef _ _ _ _ _ = MDef _ _ _ _ _ |- _ => injection H as <- <- <- <- <- end; split; intros Q; first [reflexivity | discriminate Q].
  - vm_compute; reflexivity.
Qed.

(** *** Where it fails *)
(** Whether a Module is initializing is not printed. *)
Theorem C122_initializing_refuted :
  exists c i subs st, fst (pure_repr ex_rp ex_rs [] (MDef c i subs st true) [""]) = fst (pure_repr ex_rp ex_rs [] (MDef c i subs st false) [""]).
Proof. exists ["Linear"; "Module"; "object"], 0, [], []. reflexivity. Qed.
Print Assumptions C122_initializing_refuted.
