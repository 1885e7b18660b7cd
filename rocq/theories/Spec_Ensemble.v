(** Spec_Ensemble: models that share nothing, and what each of them sees of a schedule. *)
From Verif Require Import PyBase ValuesM FiltersM StateM ModuleM Spec_Module Spec_Prog GradFunM TrainLoopM Spec_GradFun Spec_TrainLoop EnsembleM.
Local Open Scope string_scope.
Local Open Scope list_scope.

(** No Module belongs to both. *)
Definition share_nothing (w : world) (a b : nat) : Prop := forall x, reaches w a x -> ~ reaches w b x.
(** The losses that the schedule has for the model [m], in order. *)
Definition own_losses (m : nat) (schedule : list (nat * prog pyval)) : list (prog pyval) :=
  map snd (filter (fun e => Nat.eqb (fst e) m) schedule).
(** The schedule as the functions that the steps get. *)
Definition as_functions (schedule : list (nat * prog pyval)) : list (nat * loss_fun) := map (fun e => (fst e, user_fun (snd e))) schedule.
(** The recipe is one of the kind that nnx.grad takes. *)
Definition good_recipe (h : recipe) : Prop := structural (rc_wrt h) /\ differentiates (rc_grad h).
