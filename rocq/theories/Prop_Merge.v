(** Property C66: merging a definition with any States that fit it. *)
From Coq Require Import Permutation.
From Verif Require Import PyBase PyBaseFacts ValuesM Spec_Eq ValuesFacts FiltersM StateM Spec_State State_proofs ModuleM Spec_Module.
From Verif Require Import Graph_facts Dfs_proofs Revalue_proofs Ex_Module.
Local Open Scope string_scope.
Local Open Scope list_scope.

(** *** C66 *)
(** [U] is what the States [us] say together, later ones winning.  Its entries may
    be missing, and their values, classes and metadata may be others than those
    of the module the definition was taken from. *)
Theorem C66_merge_fits :
  forall (w : world) (r : nat) (d : mdef) (s : state) (us : list state) (U : state) (wb : world),
  wf_world w -> r < List.length (w_heap w) -> names_ok w r -> get_module_def w r = Ok d -> get_state w r = Ok s ->
  wf_world wb -> w_nodes wb = w_nodes w ->
  Forall keys_increasing us -> keys_increasing U -> (forall k, dget k U = latest k us) ->
  (forall k a, dget k U = Some a -> In k (keys s) /\ wf_attr a /\ is_submodule a = false /\ node_value w a) ->
  exists m wb', merge wb d us = Ok (m, wb') /\ refilled_copy w r U wb wb' m.
Proof. exact merge_refills. Qed.
Print Assumptions C66_merge_fits.

(** so the split of the entries into States and their order do not matter: two
    ways to say the same give modules that look the same *)
Theorem C66_split_irrelevant :
  forall (w : world) (r : nat) (d : mdef) (s : state) (us us' : list state) (U : state) (wb wb' : world),
  wf_world w -> r < List.length (w_heap w) -> names_ok w r -> get_module_def w r = Ok d -> get_state w r = Ok s ->
  wf_world wb -> w_nodes wb = w_nodes w -> wf_world wb' -> w_nodes wb' = w_nodes w ->
  Forall keys_increasing us -> Forall keys_increasing us' -> keys_increasing U ->
  (forall k, dget k U = latest k us) -> (forall k, latest k us' = latest k us) ->
  (forall k a, dget k U = Some a -> In k (keys s) /\ wf_attr a /\ is_submodule a = false /\ node_value w a) ->
  exists m v m' v', merge wb d us = Ok (m, v) /\ merge wb' d us' = Ok (m', v') /\
    get_state v m = get_state v' m' /\ get_module_def v m = get_module_def v' m' /\
    (forall p q, follow v m p = follow v m q <-> follow v' m' p = follow v' m' q).
Proof.
  intros w r d s us us' U wb wb' W V N D S Wb Nb Wb' Nb' I I' IU L L' F.
  destruct (merge_refills w r d s us U wb W V N D S Wb Nb I IU L F) as (m & v & E & R).
  destruct (merge_refills w r d s us' U wb' W V N D S Wb' Nb' I' IU) as (m' & v' & E' & R'); [intros k; rewrite L, L'; reflexivity|exact F|].
  exists m, v, m', v'. split; [exact E|]. split; [exact E'|]. split; [rewrite (rc_state _ _ _ _ _ _ R), (rc_state _ _ _ _ _ _ R'); reflexivity|].
  split; [rewrite (rc_def _ _ _ _ _ _ R), (rc_def _ _ _ _ _ _ R'); reflexivity|].
  intros p q. rewrite (rc_alias _ _ _ _ _ _ R), (rc_alias _ _ _ _ _ _ R'). reflexivity.
Qed.
Print Assumptions C66_split_irrelevant.

(** Example: the module of C01 with the cycle; "inp/w" is left out, "inp/norm/mean" becomes a
    parameter, "w" is given twice. *)
Definition ex_us : list state := [[("inp/norm/mean", param 50); ("w", param 51)]; [("out/buf", arr 52); ("w", param 53)]; [("out/w", param 54)]].
Definition ex_U : state := [("inp/norm/mean", param 50); ("out/buf", arr 52); ("out/w", param 54); ("w", param 53)].
Example C66_example :
  Forall keys_increasing ex_us /\ keys_increasing ex_U /\ (forall k, dget k ex_U = latest k ex_us) /\
  (exists s, get_state ex_cyc 0 = Ok s /\
    forall k a, dget k ex_U = Some a -> In k (keys s) /\ wf_attr a /\ is_submodule a = false /\ node_value ex_cyc a) /\
  exists d m wb', get_module_def ex_cyc 0 = Ok d /\ merge ex_cyc d ex_us = Ok (m, wb') /\ get_state wb' m = Ok ex_U /\
    look wb' m ["out"; "norm"; "parent"; "inp"; "norm"; "mean"] = SValue (param 50) /\ look wb' m ["inp"; "w"] = SNothing /\
    look wb' m ["inp"; "name"] = SValue (ARaw (PyStr "l1")).
Proof.
  split. { repeat constructor. }
  split. { repeat constructor. }
  split. { intros k. cbn. destruct (String.eqb_spec k "inp/norm/mean") as [->|]; [reflexivity|]. destruct (String.eqb_spec k "out/buf") as [->|]; [reflexivity|].
    destruct (String.eqb_spec k "out/w") as [->|]; [reflexivity|]. destruct (String.eqb k "w"); reflexivity. }
  split.
  - eexists. split; [vm_compute; reflexivity|]. intros k a H. apply dget_In in H.
    cbn in H. destruct H as [H|[H|[H|[H|[]]]]]; injection H as <- <-;
      (split; [cbn; tauto|]); (split; [first [exact I|apply wf_containerb_ok; vm_compute; reflexivity]|]); (split; [reflexivity|]);
      first [exists "Node"; split; vm_compute; tauto|exists "jax.Array"; split; vm_compute; tauto].
  - do 3 eexists. split; [vm_compute; reflexivity|]. split; [vm_compute; reflexivity|]. repeat (split; [vm_compute; reflexivity|]). vm_compute. reflexivity.
Qed.
