(** Prop_Dtype: C79, the element types the layers compute with and return. *)
From Coq Require Import Relations Permutation.
From Verif Require Import PyBase DtypeM Spec_Dtype Dtype_proofs.
Local Open Scope list_scope.

(** With no dtype given, the arguments are brought to the least type of jax's lattice
    above all of them, or to float32 when that one is not inexact and an inexact one
    is wanted; the result is then inexact. *)
Theorem C79_inferred x64 args inexact : (forall a, In (Some a) args -> made x64 a) -> given args <> [] ->
  exists d, canonicalize_dtype x64 args None inexact = Ok d /\ inferred x64 inexact (map node_of (given args)) d /\ (inexact = true -> inexact_dtype d).
Proof. apply canonicalize_infers. Qed.
(** That type is unique: the statement above leaves nothing open. *)
Theorem C79_unique x64 b l d e : inferred x64 b l d -> inferred x64 b l e -> d = e.
Proof. apply inferred_unique. Qed.
(** Neither the order of the arguments nor the absent ones matter. *)
Theorem C79_order x64 args args' dt inexact : Permutation (given args) (given args') ->
  canonicalize_dtype x64 args dt inexact = canonicalize_dtype x64 args' dt inexact.
Proof. apply canonicalize_perm. Qed.
(** A dtype that is given is used, whatever the arguments; one that is not inexact is
    refused when an inexact one is wanted. *)
Theorem C79_override x64 args d inexact :
  (inexact = false \/ inexact_dtype d -> canonicalize_dtype x64 args (Some d) inexact = Ok d) /\
  (inexact = true -> ~ inexact_dtype d -> canonicalize_dtype x64 args (Some d) inexact = Err ValueError).
Proof.
  unfold canonicalize_dtype. cbn [rbind]. rewrite <- is_inexact_iff. split.
  - intros [-> | ->]; [reflexivity|]. destruct inexact; reflexivity.
  - intros -> H. destruct (is_inexact d); [congruence|reflexivity].
Qed.
(** With neither arguments nor a dtype there is nothing to infer from. *)
Theorem C79_no_arguments x64 args inexact : given args = [] -> canonicalize_dtype x64 args None inexact = Err ValueError.
Proof. intros G. unfold canonicalize_dtype. change (somes args) with (given args). rewrite G. reflexivity. Qed.
(** Promotion brings every argument that is there to that one type, and keeps the
    absent ones absent, in place. *)
Theorem C79_promote x64 args dt inexact :
  match canonicalize_dtype x64 args dt inexact with
  | Ok d => promote_dtype x64 args dt inexact = Ok (map (option_map (fun _ => mkAty (canon x64 d) false)) args)
  | Err e => promote_dtype x64 args dt inexact = Err e
  end.
Proof. rewrite promote_all. destruct (canonicalize_dtype _ _ _ _); reflexivity. Qed.
(** Linear, Conv, LayerNorm and BatchNorm without a dtype return the least inexact
    type above the input and the parameters; with one, that one (32-bit when 64-bit
    types are off), whatever the input and parameters. *)
Definition returns (x64 : bool) (types : list aty) (r : result aty) : Prop :=
  exists d, inferred x64 true (map node_of types) d /\ r = Ok (mkAty (canon x64 d) false).
Theorem C79_layers x64 train s x k b sc : made x64 x -> made x64 k -> (forall a, sc = Some a -> made x64 a) -> (forall a, b = Some a -> made x64 a) ->
  returns x64 (given [Some x; Some k; b]) (affine_type x64 x k b None) /\
  returns x64 (given [Some x; sc; b]) (norm_type x64 x sc b None) /\
  returns x64 (given [Some x; sc; b]) (snd (bn_call_type x64 train s x sc b None)).
Proof.
  intros X K S B. unfold returns.
  assert (N : exists d, inferred x64 true (map node_of (given [Some x; sc; b])) d /\ norm_type x64 x sc b None = Ok (mkAty (canon x64 d) false)).
  { destruct (C79_inferred x64 [Some x; sc; b] true) as (d & E & I & _); [intros a [H|[H|[H|[]]]]; [congruence|auto..]|discriminate|].
    exists d. rewrite norm_is, E. auto. }
  split; [|split; [exact N|exact N]].
  destruct (C79_inferred x64 [Some x; Some k; b] true) as (d & E & I & _); [intros a [H|[H|[H|[]]]]; [congruence|congruence|auto]|discriminate|].
  exists d. rewrite affine_is, E. auto.
Qed.
Theorem C79_layers_dtype x64 train s x k b sc d : inexact_dtype d ->
  affine_type x64 x k b (Some d) = Ok (mkAty (canon x64 d) false) /\
  norm_type x64 x sc b (Some d) = Ok (mkAty (canon x64 d) false) /\
  snd (bn_call_type x64 train s x sc b (Some d)) = Ok (mkAty (canon x64 d) false).
Proof.
  intros I. assert (N : norm_type x64 x sc b (Some d) = Ok (mkAty (canon x64 d) false)).
  { rewrite norm_is. rewrite (proj1 (C79_override x64 _ d true)); [reflexivity|tauto]. }
  split; [|split; [exact N|exact N]]. rewrite affine_is. rewrite (proj1 (C79_override x64 _ d true)); [reflexivity|tauto].
Qed.
(** Embeddings have the dtype of the layer, or of the table; the indices must be
    integers.  [attend] has the same one, which must be inexact. *)
Theorem C79_embed x64 x e dt :
  ((exists w, a_dt x = TU w \/ a_dt x = TI w) -> embed_type x64 x e dt = Ok (mkAty (canon x64 (match dt with Some d => d | None => a_dt e end)) false)) /\
  ((forall w, a_dt x <> TU w /\ a_dt x <> TI w) -> embed_type x64 x e dt = Err ValueError).
Proof. apply embed_is. Qed.
Theorem C79_attend x64 q e dt : let d := match dt with Some d => d | None => a_dt e end in
  (inexact_dtype d -> attend_type x64 q e dt = Ok (mkAty (canon x64 d) false)) /\
  (~ inexact_dtype d -> attend_type x64 q e dt = Err ValueError).
Proof. apply attend_is. Qed.
(** The running statistics of BatchNorm after any history of calls: never weakly
    typed, and of the least type above float32 and the types of the batches seen in
    training. *)
Theorem C79_statistics x64 sc bi dt h : (forall c, In c h -> made x64 (snd c)) ->
  exists ds m v, Forall2 (batch_type x64 dt) (trained h) ds /\ after x64 sc bi dt h = mkBn (mkAty m false) (mkAty v false) /\
    least_above (N TF32 :: map N ds) (N m) /\ least_above (N TF32 :: map (fun d => N (magnitude d)) ds) (N v).
Proof. apply statistics. Qed.
(** So the mean stays the float32 it was created as exactly when every batch trained
    on is of a type at most float32 ... *)
Theorem C79_statistics_float32 x64 sc bi h : (forall c, In c h -> made x64 (snd c)) ->
  let s := after x64 sc bi None h in
  bn_mean s = mkAty TF32 false <-> (forall x, In x (trained h) -> below (N (a_dt x)) (N TF32)).
Proof. apply statistics_float32. Qed.
(** ... and "training never changes the type of the statistics" is false. *)
Theorem C79_statistics_refuted :
  exists x64 h, (forall c, In c h -> made x64 (snd c)) /\ bn_mean (after x64 None None None h) <> bn_mean bn_start.
Proof.
  exists false, [(true, mkAty TC64 false)]. split; [|vm_compute; discriminate].
  intros c [<-|[]]. split; [reflexivity|discriminate].
Qed.
(** Dropout keeps the dtype of floating inputs; integers and booleans pass when it is
    off or drops everything, and raise TypeError otherwise. *)
Theorem C79_dropout x64 off all x : made x64 x ->
  (off = true \/ all = true \/ inexact_dtype (a_dt x) -> exists y, dropout_type x64 off all x = Ok y /\ a_dt y = a_dt x) /\
  (off = false -> all = false -> ~ inexact_dtype (a_dt x) -> dropout_type x64 off all x = Err TypeError).
Proof. apply dropout_is. Qed.
(** So an input accepted in evaluation may be refused in training. *)
Theorem C79_dropout_refuted :
  exists x64 x, made x64 x /\ dropout_type x64 true false x = Ok x /\ dropout_type x64 false false x = Err TypeError.
Proof. exists false, (mkAty (TI W32) false). split; [split; [reflexivity|discriminate]|]. split; reflexivity. Qed.

(** bfloat16 input, float32 kernel, no bias: float32.  float16 with bfloat16: float32.
    An int32 input with float16 parameters: float16.  A python float adds nothing. *)
Example C79_example :
  affine_type false (mkAty TBF16 false) (mkAty TF32 false) None None = Ok (mkAty TF32 false) /\
  affine_type false (mkAty TBF16 false) (mkAty TF16 false) None None = Ok (mkAty TF32 false) /\
  affine_type false (mkAty (TI W32) false) (mkAty TF16 false) None None = Ok (mkAty TF16 false) /\
  canonicalize_dtype false [Some (mkAty TF32 true); None; Some (mkAty TBF16 false)] None true = Ok TBF16 /\
  canonicalize_dtype false [Some (mkAty (TI W32) false)] None true = Ok TF32 /\
  canonicalize_dtype true [Some (mkAty (TU W64) false); Some (mkAty (TI W8) false)] None true = Ok TF64 /\
  made false (mkAty TF32 true) /\ made false (mkAty TBF16 false) /\
  after false None None None [(true, mkAty TBF16 false); (false, mkAty TC64 false); (true, mkAty (TI W32) false)] = bn_start /\
  after true None None None [(true, mkAty TF64 false); (true, mkAty TF32 false)] = mkBn (mkAty TF64 false) (mkAty TF64 false).
Proof. repeat split; try discriminate; intros _; exists KFloat; split; [discriminate|reflexivity]. Qed.

Print Assumptions C79_inferred.
Print Assumptions C79_unique.
Print Assumptions C79_order.
Print Assumptions C79_override.
Print Assumptions C79_no_arguments.
Print Assumptions C79_promote.
Print Assumptions C79_layers.
Print Assumptions C79_layers_dtype.
Print Assumptions C79_embed.
Print Assumptions C79_attend.
Print Assumptions C79_statistics.
Print Assumptions C79_statistics_float32.
Print Assumptions C79_statistics_refuted.
Print Assumptions C79_dropout.
Print Assumptions C79_dropout_refuted.
