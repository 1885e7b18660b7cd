(** Spec_Leaf: vocabulary for the leaves of [mutable_state_dict]. *)
From Verif Require Import PyBase ValuesM Spec_Eq StateM ModuleM.
Local Open Scope string_scope.
Local Open Scope list_scope.

(** what reading an attribute that holds [a] gives, when no unboxing function is set *)
Inductive reads : attr -> pyval -> Prop :=
  | reads_raw v : reads (ARaw v) v
  | reads_cont c : dget "unbox_fn" (c_meta c) = None -> reads (ACont c) (c_val c).

(** a program [d[k1].value = v1; d[k2].value = v2; ...] *)
Fixpoint write_all (dl : dict (nat * string)) (w : world) (ws : list (string * pyval)) : result world :=
  match ws with
  | [] => Ok w
  | (k, v) :: t => match dget k dl with
                   | None => Err KeyError
                   | Some l => do w1 <- leaf_set w l (ARaw v); write_all dl w1 t
                   end
  end.
(** the same assignments as one-entry states, in order *)
Definition raws (ws : list (string * pyval)) : list state := map (fun kv => [(fst kv, ARaw (snd kv))]) ws.
