(** Histories: everything a program can do to the heap of Modules through the
    modelled API, in any order and with any outcome (also when a call raises
    half way).  Used to state which invariants every reachable interpreter state
    has. *)
From Verif Require Import PyBase ValuesM Spec_Eq FiltersM StateM ModuleM Spec_Module.
Local Open Scope string_scope.
Local Open Scope list_scope.

(** a State whose values are not submodules (State entries never are) and whose
    containers were made by constructors *)
Definition plain_state (s : state) : Prop :=
  forall k a, In (k, a) s -> wf_attr a /\ is_submodule a = false.

(** a ModuleDef such as [get_module_def] returns: static fields are plain
    values, the reserved name is not used as a field name, types are Module
    classes *)
Inductive wf_mdef : mdef -> Prop :=
| wfm_ref i : wf_mdef (MRef i)
| wfm_def c i subs st ini :
    In "Module" c ->
    (forall n d, In (n, d) subs -> n <> "_module__state" /\ wf_mdef d) ->
    (forall n a, In (n, a) st -> n <> "_module__state" /\ wf_attr a /\ is_submodule a = false) ->
    wf_mdef (MDef c i subs st ini).

(** what can be passed to update_state *)
Definition plain_updates (w : world) (u : updates) : Prop :=
  match u with
  | UModule r => r < List.length (w_heap w)
  | UPure p => Forall plain_state (sts_list (p_states p))
  | UStates x => Forall plain_state (sts_list x)
  end.

(** One API call (or change of trace level, or registration of a node type). *)
Inductive step : world -> world -> Prop :=
| st_new w c : In "Module" c -> step w (snd (new_module w c))
| st_setattr w r n a w' : attr_ok w a -> setattr w r n a = Ok w' -> step w w'
| st_delattr w r n w' : delattr w r n = Ok w' -> step w w'
| st_update w r u w' res : plain_updates w u -> update_state w r u = (w', res) -> step w w'
| st_pop fuel w r fs w' res : pop_state fuel w r fs = (w', res) -> step w w'
| st_merge w d ss r w' : wf_mdef d -> Forall plain_state ss -> merge w d ss = Ok (r, w') -> step w w'
| st_clone w r r' w' : clone w r = Ok (r', w') -> step w w'
| st_init w b r w' : set_init_all b w r = Ok w' -> step w w'
| st_sow w h r vt n v w' : In "Container" vt -> sow h w r vt n v = Ok w' -> step w w'
| st_leaf w l a w' : attr_ok w a -> leaf_set w l a = Ok w' -> step w w'
| st_trace w t : step w (mkWorld (w_heap w) (w_uuid w) t (w_nodes w))
| st_register w t : step w (mkWorld (w_heap w) (w_uuid w) (w_trace w) (w_nodes w ++ [t])).

Inductive steps : world -> world -> Prop :=
| steps_nil w : steps w w
| steps_cons w1 w2 w3 : step w1 w2 -> steps w2 w3 -> steps w1 w3.

(** the interpreter before any Module exists *)
Definition start (t : trace_state) (nt : list string) : world := mkWorld [] 0 t nt.

(** every Module object is an instance of Module *)
Definition all_modules (w : world) : Prop := forall x o, get_obj w x = Some o -> In "Module" (m_cls o).

(** an object keeps its address, id, class and recorded trace *)
Definition persists (w w' : world) : Prop :=
  w_uuid w <= w_uuid w' /\
  forall x o, get_obj w x = Some o -> exists o', get_obj w' x = Some o' /\ m_id o' = m_id o /\ m_cls o' = m_cls o /\ m_trace o' = m_trace o.
