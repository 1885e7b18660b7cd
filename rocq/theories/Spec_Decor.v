(** What a stack of decorators should mean: each transform is applied to the
    function below it, with the options it was given. *)
From Verif Require Import PyBase DecorM.
Local Open Scope list_scope.

Section Spec.
Context {F JO GO RO SO : Type} (B : behaviours F JO GO RO SO).
Notation deco := (@decorator JO GO RO SO).
Fixpoint meaning (ds : list deco) (f : F) : F :=
  match ds with
  | [] => f
  | DJit o stateful :: ds' => b_jit B o stateful stateful (meaning ds' f)
  | DGrad o stateful :: ds' => b_grad B o stateful stateful (meaning ds' f)
  | DRemat o :: ds' => b_remat B o (meaning ds' f)
  | DScan o :: ds' => b_scan B o (meaning ds' f)
  end.
Definition is_jit (d : deco) : Prop := match d with DJit _ _ => True | _ => False end.
Definition is_grad (d : deco) : Prop := match d with DGrad _ _ => True | _ => False end.
(** at most one decorator of the stack is [P] *)
Definition at_most_one (P : deco -> Prop) (ds : list deco) : Prop :=
  forall l1 d l2 d' l3, ds = l1 ++ d :: l2 ++ d' :: l3 -> P d -> P d' -> False.
(** the [stateful] given to a decorator *)
Definition flag (d : deco) : option bool := match d with DJit _ b | DGrad _ b => Some b | _ => None end.
Definition flags_equal (ds : list deco) : Prop :=
  forall d d' b b', In d ds -> In d' ds -> flag d = Some b -> flag d' = Some b' -> b = b'.
(** the same stack with other flags *)
Definition same_options (d d' : deco) : Prop :=
  match d, d' with
  | DJit o _, DJit o' _ => o = o'
  | DGrad o _, DGrad o' _ => o = o'
  | DRemat o, DRemat o' => o = o'
  | DScan o, DScan o' => o = o'
  | _, _ => False
  end.
End Spec.
