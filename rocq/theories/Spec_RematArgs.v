(** Which arguments of a rematerialised function are static. *)
From Coq Require Import ZArith.
From Verif Require Import PyBase ModuleM ContextM JitArgsM RematArgsM Spec_Module Spec_JitArgs.
Local Open Scope list_scope.

(** the numbers given as [static_argnums] *)
Definition given_num (a : argnums) (z : Z) : Prop :=
  match a with NumInt x => z = x | NumTuple l => In z l end.
(** a call with [n] arguments: position [i] counted from the front, from 0, or
    from the end, from -1 *)
Definition static_arg (a : argnums) (n i : nat) : Prop :=
  i < n /\ exists z, given_num a z /\ (z = Z.of_nat i \/ z = Z.of_nat i - Z.of_nat n)%Z.
(** every number designates an argument *)
Definition nums_ok (a : argnums) (n : nat) : Prop := forall z, given_num a z -> exists i, i < n /\ (z = Z.of_nat i \/ z = Z.of_nat i - Z.of_nat n)%Z.

(** the module and the arguments that are not static are made of arrays *)
Definition remat_args_ok (w : world) (r : nat) (a : argnums) (args : list arg) : Prop :=
  jax_module w r /\ forall i x, nth_error args i = Some x -> ~ static_arg a (List.length args) i -> jax_arg x.

(** What the function gets for the context: nothing, or a context merged from the
    partition [pc] of the context given, whose streams advance by one. *)
Definition ctx_given (cur : trace_state) (ctx : option context) (ss : list stream) (pc : option pctx) (ss' : list stream) : Prop :=
  match ctx with
  | None => pc = None /\ ss' = ss
  | Some x => exists q, context_partition cur x ss = (Ok q, ss') /\ pc = Some q
  end.
