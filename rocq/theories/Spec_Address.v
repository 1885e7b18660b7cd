(** Spec_Address: the attributes that the keys of a State name. *)
From Verif Require Import PyBase ValuesM StateM ModuleM Spec_Module.
Local Open Scope string_scope.
Local Open Scope list_scope.

(** [k] is a path to the attribute [n] of the Module [x]: by any of the paths to [x]. *)
Definition named (w : world) (r : nat) (k : string) (x : nat) (n : string) : Prop :=
  exists q, split_slash k = q ++ [n] /\ follow w r q = Some x.
(** What is there after [x.n = a]: [a] itself if there is nothing or no Variable, that
    Variable with the new value otherwise.  Submodules are not assigned to. *)
Definition stored (w : world) (x : nat) (n : string) (a res : attr) : Prop :=
  exists o, get_obj w x = Some o /\ n <> "_module__state" /\
    match dget n (m_vars o) with
    | None => res = a
    | Some old => is_submodule old = false /\ overwrites old a res
    end.
(** The keys of [s] name attributes that take their values, each another one. *)
Definition fits (w : world) (r : nat) (s : state) : Prop :=
  NoDup (keys s) /\
  (forall k a, dget k s = Some a -> wf_attr a /\ is_submodule a = false /\ exists x n res, named w r k x n /\ stored w x n a res) /\
  (forall k k' x n, In k (keys s) -> In k' (keys s) -> named w r k x n -> named w r k' x n -> k = k').
(** From [w] to [w'] exactly these attributes were assigned. *)
Definition assigned (w : world) (r : nat) (s : state) (w' : world) : Prop :=
  (forall p x n k a res, follow w r p = Some x -> dget k s = Some a -> named w r k x n -> stored w x n a res -> look w' r (p ++ [n]) = SValue res) /\
  (forall p x n, follow w r p = Some x -> (forall k, In k (keys s) -> ~ named w r k x n) -> look w' r (p ++ [n]) = look w r (p ++ [n])) /\
  (forall q, follow w' r q = follow w r q) /\
  (forall x, ~ reaches w r x -> get_obj w' x = get_obj w x) /\
  w_trace w' = w_trace w /\ w_nodes w' = w_nodes w /\ List.length (w_heap w') = List.length (w_heap w).

(** [{p + "/" + k: v for k, v in s.items()}] *)
Definition below (p : list string) (s : state) : state := map (fun kv => ((join_path p ++ "/" ++ fst kv)%string, snd kv)) s.
(** No Module, at no path, can tell the two worlds apart. *)
Definition same_everywhere (w w' : world) : Prop :=
  (forall x q, look w x q = look w' x q) /\ (forall x q, follow w x q = follow w' x q) /\
  (forall x, get_state w x = get_state w' x) /\ (forall x, get_module_def w x = get_module_def w' x).
