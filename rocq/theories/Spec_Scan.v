(** The loop that [scan] stands for, and what its inputs and outputs are. *)
From Coq Require Import ZArith.
From Verif Require Import PyBase ValuesM Spec_Eq FiltersM StateM ModuleM ContextM ScanM Spec_Module Spec_Prog.
Local Open Scope string_scope.
Local Open Scope list_scope.

(** [m = d.merge( *states); out = f(m)]: the result and the state of [m] then *)
Definition call_on {A} (w : world) (d : mdef) (states : list state) (f : prog A) : option (A * state) :=
  match merge w d states with
  | Ok (m, w1) => match user_fun f w1 m with
                  | (w2, Ok a) => match get_state w2 m with Ok s => Some (a, s) | Err _ => None end
                  | _ => None
                  end
  | Err _ => None
  end.

(** The python loop:
<<
    for ctx, states, xs in layers:
      m = d.merge( *states, broadcast, carry_state)
      carry, ys = f(m, carry, xs, ctx)
      *states_out, broadcast, carry_state = m.partition( *filters)
>>
    where [f] leaves the broadcast state as it is.  The relation holds between
    the carry at the start, the layers, and: (states_out, ys) of each layer, the
    carry state after each layer, the carry at the end. *)
Definition layer_out_of (Y : Type) : Type := (list state * Y)%type.
Notation layer_out := (layer_out_of (list pyval)).
Inductive loop {X Y} (w : world) (d : mdef) (fs : list filt) (f : option pctx -> pyval -> X -> prog (pyval * Y)) (b : state)
  : state -> pyval -> list (step_of X) -> list (layer_out_of Y) -> list state -> pyval -> Prop :=
| loop_done cs c : loop w d fs f b cs c [] [] [] c
| loop_step cs c ctx axs xs c1 ys s axs1 cs1 rest outs css c2 :
    call_on w d (axs ++ [b; cs]) (f ctx c xs) = Some ((c1, ys), s) ->
    partition_state s fs = Ok (Many (axs1 ++ [b; cs1])) ->
    loop w d fs f b cs1 c1 rest outs css c2 ->
    loop w d fs f b cs c ((ctx, axs, xs) :: rest) ((axs1, ys) :: outs) (cs1 :: css) c2.

(** two States with the same keys, the Variables being of the same class and
    having the same metadata *)
Definition same_kind (a b : attr) : Prop :=
  match a, b with
  | ARaw _, ARaw _ => True
  | ACont c, ACont d => c_cls c = c_cls d /\ c_meta c = c_meta d
  | _, _ => False
  end.
Definition alike (s s' : state) : Prop := Forall2 (fun x y => fst x = fst y /\ same_kind (snd x) (snd y)) s s'.
Definition array_at (k : string) (s : state) (v : pyval) : Prop :=
  exists a, dget k s = Some a /\ v = match a with ARaw v => v | ACont c => c_val c end.

(** [small] is slice number [i] of [big] along [ax]; all arrays have [n] slices *)
Definition is_slice (J : arrays) (ax : Z) (n i : nat) (big small : state) : Prop :=
  alike big small /\
  forall k v, array_at k big v -> exists l x, a_slices J ax v = Ok l /\ List.length l = n /\ nth_error l i = Some x /\ array_at k small x.
(** [big] is [l] stacked along [ax] *)
Definition is_stack (J : arrays) (ax : Z) (l : list state) (big : state) : Prop :=
  (forall s, In s l -> alike s big) /\
  forall k v, array_at k big v -> exists vs, Forall2 (array_at k) l vs /\ v = a_stack J ax vs.
(** the same for the leaves of an argument or result *)
Definition leaf_slices (J : arrays) (ax : Z) (n i : nat) (big small : list pyval) : Prop :=
  Forall2 (fun v x => exists l, a_slices J ax v = Ok l /\ List.length l = n /\ nth_error l i = Some x) big small.
Definition leaf_stack (J : arrays) (ax : Z) (l : list (list pyval)) (big : list pyval) : Prop :=
  forall i v, nth_error big i = Some v -> exists vs, Forall2 (fun ys y => nth_error ys i = Some y) l vs /\ v = a_stack J ax vs.

(** layer [i] gets its context, and slice [i] of the axes states with the axis name
    taken out of the sharding metadata *)
Definition layer_state {X} (J : arrays) (o : scan_opts) (axs : list state) (pc : option (pctx * (string -> bool)))
    (n i : nat) (l : step_of X) : Prop :=
  fst (fst l) = option_map (fun pp => step_keys (snd pp) n (fst pp) i) pc /\
  exists raw, Forall2 (fun sa small => is_slice J (snd (snd sa)) n i (fst sa) small) (combine axs (o_axes o)) raw /\
     enter_axes o raw = Ok (snd (fst l)).
(** what the layers are, given the axes states of the module, the axes argument
    and the context: layer [i] gets slice [i] of each, with the axis name taken
    out of the sharding metadata *)
Definition layer_ok (J : arrays) (o : scan_opts) (axs : list state) (xs : list pyval) (pc : option (pctx * (string -> bool)))
    (n i : nat) (l : step_in) : Prop :=
  fst (fst l) = option_map (fun pp => step_keys (snd pp) n (fst pp) i) pc /\
  (exists raw, Forall2 (fun sa small => is_slice J (snd (snd sa)) n i (fst sa) small) (combine axs (o_axes o)) raw /\
     enter_axes o raw = Ok (snd (fst l))) /\
  leaf_slices J (o_in o) n i xs (snd l).
Definition layers_ok (J : arrays) (o : scan_opts) (axs : list state) (xs : list pyval) (pc : option (pctx * (string -> bool)))
    (layers : list step_in) : Prop :=
  forall i l, nth_error layers i = Some l -> layer_ok J o axs xs pc (List.length layers) i l.

(** jax traces the function once, for all layers: the layers give States with
    the same entries and results of the same structure ([same]), and the carry
    state of a layer fits the one before.  [fins] are the axes states as they
    are stacked. *)
Record uniform {Y} (same : Y -> Y -> Prop) (cs : state) (outs : list (layer_out_of Y)) (fins : list (list state)) (css : list state) : Prop := {
  u_axes : forall x y, In x fins -> In y fins -> Forall2 alike x y;
  u_ys : forall x y, In x outs -> In y outs -> same (snd x) (snd y);
  u_carry : forall x y, In x css -> In y css -> alike x y;
  u_kept : forall x k a, In x css -> dget k cs = Some a -> exists b, dget k x = Some b /\ same_kind a b
}.

(** pieces of arrays are not Modules, and neither are stacked arrays *)
Definition not_module (v : pyval) : Prop := match v with PyMod _ => False | _ => True end.
Record arrays_ok (J : arrays) : Prop := {
  ao_slices : forall ax v l x, a_slices J ax v = Ok l -> In x l -> not_module x;
  ao_stack : forall ax l, not_module (a_stack J ax l)
}.

(** the arrays scanned over, with the axis: those of the axes states and those of
    the axes argument *)
Inductive scanned_over (o : scan_opts) (axs : list state) (xs : list pyval) : Z -> pyval -> Prop :=
| over_state st g ax k v : In (st, (g, ax)) (combine axs (o_axes o)) -> array_at k st v -> scanned_over o axs xs ax v
| over_arg v : In v xs -> scanned_over o axs xs (o_in o) v.
(** scan can tell the number of layers: all these arrays have [n] slices, and
    either there are some or [length] is given; [length], if given, is [n] *)
Definition layer_count (J : arrays) (o : scan_opts) (axs : list state) (xs : list pyval) (n : nat) : Prop :=
  (forall ax v, scanned_over o axs xs ax v -> exists l, a_slices J ax v = Ok l /\ List.length l = n) /\
  match o_length o with Some m => m = n | None => exists ax v, scanned_over o axs xs ax v end.
