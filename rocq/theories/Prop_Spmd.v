(** Prop_Spmd: C42, C43, C59, C73 about sharding metadata and logical axis rules. *)
From Coq Require Import ZArith.
From Verif Require Import PyBase PyBaseFacts ValuesM Spec_Eq ValuesFacts StateM SpmdM Spec_Spmd Spmd_proofs.
Local Open Scope string_scope.
Local Open Scope list_scope.

(** *** C42: adding an axis to every sharding of a state and removing it again *)
(** [covered]: an entry without sharding, or whose sharding is a tuple of names and Nones. *)
Theorem C42_add_remove_partial :
  forall (s : state) (index : Z) (n : string),
  (0 <= index)%Z -> (forall k a, In (k, a) s -> covered a) ->
  (forall k a sh, In (k, a) s -> has_sharding a sh -> Z.to_nat index <= List.length sh) ->
  exists t, add_axis s index (Some n) = Ok t /\ remove_axis t index (Some n) = Ok s.
Proof. exact remove_add_axis_id. Qed.
Print Assumptions C42_add_remove_partial.

(** For any non-negative index: the sharding comes back padded with None up to the index. *)
Theorem C42_add_remove_padded :
  forall (s : state) (index : Z) (n : string),
  (0 <= index)%Z -> (forall k a, In (k, a) s -> covered a) ->
  exists t u, add_axis s index (Some n) = Ok t /\ remove_axis t index (Some n) = Ok u /\
    Forall2 (fun x y : string * attr => fst x = fst y /\ padded (Z.to_nat index) (snd x) (snd y)) s u.
Proof. exact remove_add_axis. Qed.
Print Assumptions C42_add_remove_padded.

(** The other direction, which scan's apply uses: remove, then add back. *)
Theorem C42_remove_add :
  forall (s : state) (index : Z) (n : string) (t : state),
  (0 <= index)%Z -> (forall k a, In (k, a) s -> covered a) ->
  remove_axis s index (Some n) = Ok t -> add_axis t index (Some n) = Ok s.
Proof. exact add_remove_axis. Qed.
Print Assumptions C42_remove_add.

(** What the new sharding is: the name sits at the index, the rest is unchanged. *)
Theorem C42_add_axis_at :
  forall (index : Z) (n : string) (s : sharding), (0 <= index)%Z ->
  let k := Z.to_nat index in
  add_axis_entry index n s = firstn k (pad_to k s) ++ [Some n] ++ skipn k (pad_to k s).
Proof. exact add_axis_entry_at. Qed.
Print Assumptions C42_add_axis_at.

(** Without a partition name both are errors. *)
Theorem C42_no_name :
  forall (s : state) (index : Z),
  add_axis s index None = Err ValueError /\ remove_axis s index None = Err ValueError.
Proof. intros s index. split; reflexivity. Qed.
Print Assumptions C42_no_name.

Definition ex_var (s : sharding) : attr :=
  ACont (mkCont Param_cls [("sharding", sharding_val s)] (PyObj Array_cls 7)).
Definition ex_spmd : state :=
  [("a", ex_var [Some "in"; Some "out"]); ("b", ex_var [None]); ("c", ARaw (PyObj Array_cls 3))].
Lemma ex_spmd_covered : forall k a, In (k, a) ex_spmd -> covered a.
Proof.
  intros k a [H|[H|[H|[]]]]; inversion H; subst; (split; [vm_compute; intuition (auto; try discriminate; eauto)|]).
  - repeat constructor; cbn; tauto.
  - right. exists [Some "in"; Some "out"]. eexists. split; [reflexivity|]. split; [cbn; tauto|reflexivity].
  - repeat constructor; cbn; tauto.
  - right. exists [None]. eexists. split; [reflexivity|]. split; [cbn; tauto|reflexivity].
  - left. exact I.
Qed.
Example C42_example :
  (forall k a, In (k, a) ex_spmd -> covered a) /\
  (forall k a sh, In (k, a) ex_spmd -> has_sharding a sh -> Z.to_nat 1 <= List.length sh) /\
  exists t, add_axis ex_spmd 1 (Some "layers") = Ok t /\ t <> ex_spmd /\ remove_axis t 1 (Some "layers") = Ok ex_spmd.
Proof.
  split; [exact ex_spmd_covered|]. split.
  - intros k a sh [H|[H|[H|[]]]]; inversion H; subst; intros (c & E & _ & D); inversion E; subst c;
      destruct sh; try discriminate; cbn; lia.
  - eexists. split; [vm_compute; reflexivity|]. split; [discriminate|vm_compute; reflexivity].
Qed.

(** The claim for every index is false: past the end (the padding stays), and for
    negative indices (insert and pop count differently from the end). *)
Theorem C42_past_end_refuted :
  exists (s : state) (index : Z) (n : string) (t u : state), (0 <= index)%Z /\
    (forall k a, In (k, a) s -> covered a) /\
    add_axis s index (Some n) = Ok t /\ remove_axis t index (Some n) = Ok u /\ u <> s.
Proof.
  exists ex_spmd, 3%Z, "layers". do 2 eexists. split; [lia|]. split; [exact ex_spmd_covered|].
  split; [vm_compute; reflexivity|]. split; [vm_compute; reflexivity|]. discriminate.
Qed.
Print Assumptions C42_past_end_refuted.
(** For every sharding whose last name is another one, axis -1 cannot be removed again. *)
Theorem C42_negative_refuted :
  forall (s : sharding) (last : option string) (n : string), last <> Some n ->
  remove_axis_entry (-1) n (add_axis_entry (-1) n (s ++ [last])) = Err AssertionError.
Proof. exact negative_axis. Qed.
Print Assumptions C42_negative_refuted.

(** Removing an axis that the sharding does not have is an IndexError; one of another name
    an AssertionError. *)
Theorem C42_remove_errors :
  forall (s : sharding) (i : Z) (n : string),
  (~ (- Z.of_nat (List.length s) <= i < Z.of_nat (List.length s))%Z -> remove_axis_entry i n s = Err IndexError) /\
  (forall m j, (i = Z.of_nat j \/ i = Z.of_nat j - Z.of_nat (List.length s))%Z -> nth_error s j = Some m -> m <> Some n ->
     remove_axis_entry i n s = Err AssertionError).
Proof.
  intros s i n. unfold remove_axis_entry, py_pop, index_pos. cbv zeta. split.
  - intros H. destruct (Z.ltb_spec i 0).
    + destruct (Z.ltb_spec (Z.of_nat (List.length s) + i) 0); [reflexivity|lia].
    + destruct (Z.ltb_spec i 0); [lia|]. destruct (Z.leb_spec (Z.of_nat (List.length s)) i); [reflexivity|lia].
  - intros m j Hj E N. assert (L : j < List.length s) by (apply nth_error_Some; congruence).
    assert (P : (if (i <? 0)%Z then (Z.of_nat (List.length s) + i)%Z else i) = Z.of_nat j) by (destruct (Z.ltb_spec i 0); lia).
    rewrite P. destruct (Z.ltb_spec (Z.of_nat j) 0); [lia|]. destruct (Z.leb_spec (Z.of_nat (List.length s)) (Z.of_nat j)); [lia|].
    rewrite Nat2Z.id, E. cbn [rbind]. destruct m as [m|]; [|reflexivity]. destruct (String.eqb_spec m n); [congruence|reflexivity].
Qed.
Print Assumptions C42_remove_errors.

(** *** C43: logical_to_mesh_axes *)
(** Which rules apply ([fires]) and what each dimension gets; the applied rules are
    determined by the specification ([C43_unique]). *)
Theorem C43_spec :
  forall (current : logical_rules) (dims : list (option string)) (rules : option logical_rules) (out : list mesh_names),
  let rs := match rules with Some r => r | None => current end in
  logical_to_mesh_axes current (Some dims) rules = Ok (Some out) ->
  exists fired, fires dims rs fired /\
    List.length out = List.length dims /\
    forall i d m, nth_error dims i = Some d -> nth_error out i = Some m ->
      assigned_by rs fired d m \/ ((forall m', ~ assigned_by rs fired d m') /\ m = MNone).
Proof. exact logical_axes_spec. Qed.
Print Assumptions C43_spec.
Theorem C43_unique :
  forall dims rules f g, fires dims rules f -> fires dims rules g ->
  forall k, k < List.length rules -> f k = g k.
Proof. exact fired_unique. Qed.
Print Assumptions C43_unique.

(** No mesh axis is given to two dimensions. *)
Theorem C43_axis_once :
  forall (current : logical_rules) (dims : list (option string)) (rules : option logical_rules) (out : list mesh_names),
  logical_to_mesh_axes current (Some dims) rules = Ok (Some out) ->
  forall i j m m' x, nth_error out i = Some m -> nth_error out j = Some m' ->
  uses m x -> uses m' x -> i = j.
Proof. exact axis_once. Qed.
Print Assumptions C43_axis_once.

(** It fails exactly when a name occurs twice, with ValueError. *)
Theorem C43_duplicates :
  forall (current : logical_rules) (dims : list (option string)) (rules : option logical_rules),
  (distinct_names dims -> exists out, logical_to_mesh_axes current (Some dims) rules = Ok (Some out)) /\
  (~ distinct_names dims -> logical_to_mesh_axes current (Some dims) rules = Err ValueError).
Proof. exact duplicates_spec. Qed.
Print Assumptions C43_duplicates.

Definition ex_rules : logical_rules :=
  [("batch", MAxes ["x"; "y"]); ("embed", MAxis "x"); ("embed", MAxis "z"); ("heads", MNone); ("heads", MAxis "w")].
Example C43_example :
  logical_to_mesh_axes [] (Some [Some "embed"; Some "batch"; None; Some "heads"; Some "other"]) (Some ex_rules)
  = Ok (Some [MAxis "z"; MAxes ["x"; "y"]; MNone; MNone; MNone]).
Proof. reflexivity. Qed.

(** *** C59: with_logical_constraint and its fallbacks *)
Theorem C59_constraint :
  forall (mesh : bool) (current : logical_rules) (dims : list (option string)) (rules : option logical_rules)
         (fb : fallback) (fired : nat -> bool),
  let rs := match rules with Some r => r | None => current end in
  let matched d := exists m, assigned_by rs fired d m in
  rs <> [] -> distinct_names dims -> fires dims rs fired ->
  exists out, logical_to_mesh_axes current (Some dims) rules = Ok (Some out) /\
  (Forall matched dims \/ fb = AxisIsUnsharded ->
     with_logical_constraint mesh current (Some dims) rules fb = Ok (if mesh then Constrain (Some out) else AsIs)) /\
  (~ Forall matched dims -> fb = RaiseError ->
     with_logical_constraint mesh current (Some dims) rules fb = Err ValueError) /\
  (~ Forall matched dims -> fb = NoConstraint ->
     with_logical_constraint mesh current (Some dims) rules fb = Ok AsIs).
Proof. exact constraint_spec. Qed.
Print Assumptions C59_constraint.
(** Without rules or without dimension names the array is untouched. *)
Theorem C59_no_rules :
  forall mesh current dims rules fb,
  match rules with Some r => r | None => current end = [] \/ dims = None ->
  with_logical_constraint mesh current dims rules fb = Ok AsIs.
Proof. exact constraint_untouched. Qed.
Print Assumptions C59_no_rules.
Example C59_example :
  with_logical_constraint true ex_rules (Some [Some "embed"; Some "other"]) None RaiseError = Err ValueError /\
  with_logical_constraint true ex_rules (Some [Some "embed"; Some "heads"]) None RaiseError
    = Ok (Constrain (Some [MAxis "x"; MNone])) /\
  distinct_names [Some "embed"; Some "heads"] /\
  exists fired, fires [Some "embed"; Some "heads"] ex_rules fired.
Proof.
  split; [reflexivity|]. split; [reflexivity|].
  assert (D : distinct_names [Some "embed"; Some "heads"]) by (apply has_dups_spec; reflexivity).
  split; [exact D|]. destruct (mesh_all [Some "embed"; Some "heads"] ex_rules D) as (f & M). exists f. apply M.
Qed.

(** *** C73: get_partition_spec *)
(** Every entry of the state gets, under its key, the spec of [spec_of]. *)
Theorem C73_spec :
  forall (has_shape : pyval -> bool) (s : state), (forall k a, In (k, a) s -> covered a /\ exists v, state_value a v) ->
  exists t, get_partition_spec has_shape s = Ok t /\
    Forall2 (fun x y => fst x = fst y /\ spec_of has_shape (snd x) (snd y)) s t.
Proof. exact get_partition_spec_ok. Qed.
Print Assumptions C73_spec.
(** and there is only one *)
Theorem C73_unique : forall has_shape a p q, spec_of has_shape a p -> spec_of has_shape a q -> p = q.
Proof. exact spec_of_fun. Qed.
Print Assumptions C73_unique.
(** After an axis has been added (as scan does) the spec of a sharded variable has
    the new axis at that index and the old names, padded with None, around it; the
    others keep theirs. *)
Theorem C73_added_axis :
  forall (has_shape : pyval -> bool) (s t : state) (index : Z) (n : string) (ps : list (string * option sharding)),
  (0 <= index)%Z -> (forall k a, In (k, a) s -> covered a /\ exists v, state_value a v) ->
  add_axis s index (Some n) = Ok t -> get_partition_spec has_shape s = Ok ps ->
  exists ps', get_partition_spec has_shape t = Ok ps' /\ map fst ps' = map fst ps /\
    forall i k a p, nth_error s i = Some (k, a) -> nth_error ps i = Some (k, p) ->
      (forall sh, has_sharding a sh ->
         let j := Z.to_nat index in let old := sh ++ repeat None (j - List.length sh) in
         nth_error ps' i = Some (k, Some (firstn j old ++ [Some n] ++ skipn j old))) /\
      (no_sharding a -> nth_error ps' i = Some (k, p)).
Proof.
  intros hs s t index n ps Hi H A P. destruct (add_axis_spec hs s index n t ps Hi H A P) as (ps' & E & K & G). exists ps'. split; [exact E|]. split; [exact K|].
  intros i k a p I1 I2. destruct (G i k a p I1 I2) as [G1 G2]. split; [|exact G2]. intros sh HS. cbv zeta. rewrite (G1 sh HS). now rewrite (add_axis_entry_at index n sh Hi).
Qed.
Print Assumptions C73_added_axis.
Definition ex_shape1 (v : pyval) : bool := match v with PyObj _ _ => true | _ => false end.
Example C73_example :
  (forall k a, In (k, a) (ex_spmd ++ [("d", ex_var []); ("e", ACont (mkCont Param_cls [] (PyInt 3)))]) -> exists v, state_value a v) /\
  get_partition_spec ex_shape1 (ex_spmd ++ [("d", ex_var []); ("e", ACont (mkCont Param_cls [] (PyInt 3)))]) =
    Ok [("a", Some [Some "in"; Some "out"]); ("b", Some [None]); ("c", Some []); ("d", Some []); ("e", None)] /\
  exists t, add_axis ex_spmd 2 (Some "layers") = Ok t /\
    get_partition_spec ex_shape1 t = Ok [("a", Some [Some "in"; Some "out"; Some "layers"]); ("b", Some [None; None; Some "layers"]); ("c", Some [])].
Proof.
  split; [|split; [vm_compute; reflexivity|eexists; split; vm_compute; reflexivity]].
  intros k a [H|[H|[H|[H|[H|[]]]]]]; inversion H; subst; eexists; try (left; reflexivity); right; eexists; (split; [reflexivity|]); (split; [vm_compute; tauto|reflexivity]).
Qed.
