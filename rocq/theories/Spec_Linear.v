(** Spec_Linear: vocabulary for Linear, Embed and the constructors of the layers. *)
From Coq Require Import ZArith QArith Qcanon.
From Verif Require Import PyBase ModuleM ContextM TensorM NnM LinearM.
Local Open Scope string_scope.
Local Open Scope nat_scope.
Local Open Scope list_scope.

(** an affine layer from [i] to [o] features *)
Definition linear_wf (i o : nat) (l : linear) : Prop :=
  t_shape (l_kernel l) = [i; o] /\ forall b, l_bias l = Some b -> t_shape b = [o].
(** sum_j v_j M(j, f) + b_f *)
Definition affine (i : nat) (v : nat -> Qc) (m : nat -> nat -> Qc) (b : option tensor) (f : nat) : Qc :=
  (qsum (map (fun j => v j * m j f) (seq 0 i)) + match b with Some t => t_at t [f] | None => 0 end)%Qc.
(** the indicator of the ids *)
Definition one_hot (n : nat) (shape : list nat) (ids : list nat -> nat) : tensor :=
  mkT (shape ++ [n]) (fun idx => if Nat.eqb (ids (removelast idx)) (last idx 0) then 1%Qc else 0%Qc).

(** the key number [n] that a stream will give *)
Definition stream_key (blake : string -> nat) (s : stream) (n : nat) : key :=
  KFold (s_key s) (stable_hash blake (s_path s ++ [s_count s + n])).
(** [n] keys were taken from stream number [i] and nothing else happened *)
Definition took (ss ss' : list stream) (i n : nat) : Prop :=
  exists s, nth_error ss i = Some s /\
    nth_error ss' i = Some (mkStream (s_key s) (s_count s + n) (s_path s)) /\
    List.length ss' = List.length ss /\ forall j, j <> i -> nth_error ss' j = nth_error ss j.
(** initializers return arrays of the shape they are asked for *)
Definition shaped (init : key -> list nat -> tensor) : Prop := forall k s, t_shape (init k s) = s.

(** A program that builds layers one after the other; each parameter has its own
    initializer. *)
Notation initializer := (key -> list nat -> tensor).
Inductive layer :=
| BLinear (i o : nat) (use_bias : bool) (ki bi : initializer)
| BConv (i o : nat) (ks : list nat) (groups : nat) (use_bias : bool) (ki bi : initializer)
| BBatchNorm (n : nat) (use_bias use_scale : bool) (bi si : initializer)
| BLayerNorm (n : nat) (use_bias use_scale : bool) (bi si : initializer)
| BEmbed (n f : nat) (ei : initializer).
(** the parameters it creates: initializer and shape, in order *)
Definition opt_param (b : bool) (i : initializer) (s : list nat) : list (initializer * list nat) := if b then [(i, s)] else [].
Definition wants (l : layer) : list (initializer * list nat) :=
  match l with
  | BLinear i o ub ki bi => (ki, [i; o]) :: opt_param ub bi [o]
  | BConv i o ks g ub ki bi => (ki, ks ++ [i / g; o]) :: opt_param ub bi [o]
  | BBatchNorm n ub us bi si => opt_param us si [n] ++ opt_param ub bi [n]
  | BLayerNorm n ub us bi si => opt_param us si [n] ++ opt_param ub bi [n]
  | BEmbed n f ei => [(ei, [n; f])]
  end.
Definition opt_list {A} (o : option A) : list A := match o with Some a => [a] | None => [] end.
Section build.
  Context (blake : string -> nat) (cur : trace_state) (ctx : context).
  (** build one layer with its constructor; the parameters it has *)
  Definition build (l : layer) (ss : list stream) : result (list tensor) * list stream :=
    match l with
    | BLinear i o ub ki bi =>
        match linear_init blake cur ctx i o ub ki bi ss with
        | (Ok m, ss) => (Ok (l_kernel m :: opt_list (l_bias m)), ss) | (Err e, ss) => (Err e, ss) end
    | BConv i o ks g ub ki bi =>
        match conv_init blake cur ctx i o (Some ks) DNone (PStr "SAME") DNone DNone g ub None ki bi ss with
        | (Ok m, ss) => (Ok (cv_kernel m :: opt_list (cv_bias m)), ss) | (Err e, ss) => (Err e, ss) end
    | BBatchNorm n ub us bi si =>
        match bn_init blake cur ctx n None (-1) 0%Qc 0%Qc ub us bi si ss with
        | (Ok m, ss) => (Ok (opt_list (bn_scale m) ++ opt_list (bn_bias m)), ss) | (Err e, ss) => (Err e, ss) end
    | BLayerNorm n ub us bi si =>
        match ln_init blake cur ctx n 0%Qc ub us bi si [(-1)%Z] [(-1)%Z] ss with
        | (Ok m, ss) => (Ok (opt_list (ln_scale m) ++ opt_list (ln_bias m)), ss) | (Err e, ss) => (Err e, ss) end
    | BEmbed n f ei =>
        match embed_init blake cur ctx n f ei ss with
        | (Ok t, ss) => (Ok [t], ss) | (Err e, ss) => (Err e, ss) end
    end.
  Fixpoint build_all (ls : list layer) (ss : list stream) : result (list tensor) * list stream :=
    match ls with
    | [] => (Ok [], ss)
    | l :: ls =>
        match build l ss with
        | (Err e, ss) => (Err e, ss)
        | (Ok ps, ss) => match build_all ls ss with
                         | (Err e, ss) => (Err e, ss)
                         | (Ok qs, ss) => (Ok (ps ++ qs), ss)
                         end
        end
    end.
End build.
