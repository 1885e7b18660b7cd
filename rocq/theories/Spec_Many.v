(** Spec_Many: the same script without transforms. *)
From Verif Require Import PyBase ValuesM FiltersM StateM ModuleM TransformM Spec_Module Spec_Prog GradFunM Spec_GradFun TrainLoopM Spec_TrainLoop EnsembleM Spec_Ensemble ManyM.
Local Open Scope string_scope.
Local Open Scope list_scope.

(** [simply models w p w' xs]: the script [p] done on the models themselves, one statement after
    the other; [xs] is what the statements return or raise.  Plain code may do anything to any
    of the models.  A function under [nnx.jit] writes node attributes only ([nodes_only]); a loss
    writes new values into existing ones ([steady]) and rebinds no submodule.  A jitted call
    that raises has no effect. *)
Inductive simply (models : list nat) : world -> script -> world -> list (result memo) -> Prop :=
| si_stop w : simply models w Stop w []
| si_plain w p k w1 x w2 xs : ok_prog p -> run p w models = (w1, x) ->
    simply models w1 (k x) w2 xs -> simply models w (Then (Plain p) k) w2 (x :: xs)
| si_jit w m t f k w1 out w2 xs : In m models -> names_ok w m -> ok_prog f -> run f w [m] = (w1, Ok out) -> nodes_only w w1 m -> names_ok w1 m ->
    simply models w1 (k (Ok (out, []))) w2 xs -> simply models w (Then (Jitted m t f) k) w2 (Ok (out, []) :: xs)
| si_jit_raised w m t f k w1 e w2 xs : In m models -> names_ok w m -> ok_prog f -> run f w [m] = (w1, Err e) ->
    simply models w (k (Err e)) w2 xs -> simply models w (Then (Jitted m t f) k) w2 (Err e :: xs)
| si_train w m t1 t2 h f k diff w1 out params w1' w2 xs : In m models -> names_ok w m -> In "jax.Array" (w_nodes w) -> good_recipe h ->
    ok_prog f -> module_filter w m (rc_wrt h) [] = Ok (One diff) -> variables diff ->
    run f w [m] = (w1, Ok out) -> steady w w1 m -> (forall q, follow w1 m q = follow w m q) ->
    module_filter w1 m (rc_wrt h) [] = Ok (One params) -> variables params ->
    update_state w1 m (UStates (One (moved (rc_sgd h) (rc_grad h (loss_with false f w m) diff) diff params))) = (w1', Ok tt) ->
    simply models w1' (k (Ok (PyNone, []))) w2 xs -> simply models w (Then (TrainOn m t1 t2 h f) k) w2 (Ok (PyNone, []) :: xs)
| si_train_raised w m t1 t2 h f k w1 e w2 xs : In m models -> names_ok w m -> good_recipe h -> ok_prog f -> run f w [m] = (w1, Err e) ->
    simply models w (k (Err e)) w2 xs -> simply models w (Then (TrainOn m t1 t2 h f) k) w2 (Err e :: xs).
