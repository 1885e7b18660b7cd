(** Spec_Hash: when objects of nnx are equal, and which of them have a hash. *)
From Coq Require Import ZArith.
From Verif Require Import PyBase ValuesM Spec_Eq FiltersM StateM ModuleM Spec_Module JitArgsM Spec_JitArgs StateMapM Spec_StateMap HashM.
Local Open Scope string_scope.
Local Open Scope list_scope.

(** Two definitions are equal: the same types, and entry by entry the same submodules and
    static fields under the same names.  Indices and phases do not count. *)
Inductive same_def : mdef -> mdef -> Prop :=
| sd_ref i : same_def (MRef i) (MRef i)
| sd_def c i i' subs subs' st st' b b' :
    Forall2 (fun x y => fst x = fst y /\ same_def (snd x) (snd y)) subs subs' ->
    Forall2 (fun x y => fst x = fst y /\ same_attr (snd x) (snd y)) st st' ->
    same_def (MDef c i subs st b) (MDef c i' subs' st' b').

(** the entries of a State or a dict *)
Definition entries (a : obj) : option (dict attr) := match a with OState s => Some s | OMap d => Some d | _ => None end.
Inductive equal : obj -> obj -> Prop :=
| eq_val x y : py_eq x y -> equal (OVal x) (OVal y)
| eq_box c d : same_attr (ACont c) (ACont d) -> equal (OBox c) (OBox d)
| eq_map a b d e : entries a = Some d -> entries b = Some e ->
    same_entries (fun k => dget k d) (fun k => dget k e) -> equal a b
| eq_uuid i : equal (OUuid i) (OUuid i)
| eq_def d e : same_def d e -> equal (ODef d) (ODef e).

(** Objects as they can be made. *)
Inductive wf_def : mdef -> Prop :=
| wfd_ref i : wf_def (MRef i)
| wfd_def c i subs st b : Forall (fun x => wf_def (snd x)) subs -> Forall (fun x => wf_attr (snd x)) st -> wf_def (MDef c i subs st b).
Definition wf_obj (a : obj) : Prop :=
  match a with
  | OVal _ | OUuid _ => True
  | OBox c => wf_container c
  | OState d | OMap d => NoDup (map fst d) /\ Forall (fun ka => wf_attr (snd ka)) d
  | ODef d => wf_def d
  end.

(** Objects with a hash: values without arrays, lists, dicts and sets (at any depth of
    tuples), Statics of such values, UUIDs, and definitions all of whose static fields have
    a hash. *)
Definition attr_has_hash (a : attr) : Prop :=
  match a with ARaw v => has_hash_val v | ACont c => In "Static" (c_cls c) /\ has_hash_val (c_val c) end.
Inductive def_has_hash : mdef -> Prop :=
| dh_ref i : def_has_hash (MRef i)
| dh_def c i subs st b : Forall (fun x => def_has_hash (snd x)) subs -> Forall (fun x => attr_has_hash (snd x)) st ->
    def_has_hash (MDef c i subs st b).
Definition has_hash_obj (a : obj) : Prop :=
  match a with
  | OVal v => has_hash_val v
  | OBox c => attr_has_hash (ACont c)
  | OState _ | OMap _ => False
  | OUuid _ => True
  | ODef d => def_has_hash d
  end.

(** The Modules in it are in the heap. *)
Fixpoint val_live (w : world) (v : pyval) : Prop :=
  match v with
  | PyMod r => r < List.length (w_heap w)
  | PyTuple l => fold_right (fun x acc => val_live w x /\ acc) True l
  | _ => True
  end.
Definition attr_live (w : world) (a : attr) : Prop := match a with ARaw v => val_live w v | ACont c => val_live w (c_val c) end.
Inductive def_live (w : world) : mdef -> Prop :=
| dl_ref i : def_live w (MRef i)
| dl_def c i subs st b : Forall (fun x => def_live w (snd x)) subs -> Forall (fun x => attr_live w (snd x)) st -> def_live w (MDef c i subs st b).
Definition obj_live (w : world) (a : obj) : Prop :=
  match a with
  | OVal v => val_live w v
  | OBox c => val_live w (c_val c)
  | OState _ | OMap _ | OUuid _ => True
  | ODef d => def_live w d
  end.
