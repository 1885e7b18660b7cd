(** DataclassM: models nnx/dataclasses.py and the construction of dataclass Modules
    (module.py:411-435).  Not modelled: [frozen], [InitVar], [kw_only] and the checks
    dataclasses makes for mutable defaults; [dataclass(init=False)] is a class with its
    own [__init__]. *)
From Verif Require Import PyBase ValuesM StateM ModuleM.
Local Open Scope string_scope.
Local Open Scope list_scope.

(** The container functions of dataclasses.py:50 (node_field), 81 (static_field) and
    114 (var_field, with its sharding). *)
Inductive fkind : Type := KNode | KStatic | KVar (c : cls) (sharding : pyval).
(** dataclasses.py:32-124, the container classes they name; containers.py:26-52 *)
Definition call_kind (k : fkind) (a : attr) : result container :=
  let arg := match a with ARaw v => CVal v | ACont c => CCont c end in
  match k with
  | KNode => container_call Node_cls arg []
  | KStatic => container_call Static_cls arg []
  | KVar c s => container_call c arg [("sharding", s)]
  end.

(** A default is a plain value, or a factory: python code that may make Modules. ([default] and [default_factory], dataclasses.py:11-29) *)
Definition factory := world -> world * result attr.
(** [default] and [default_factory], dataclasses.py:11-29 *)
Inductive default : Type := NoDefault | Default (v : pyval) | Factory (g : factory).
(** [dataclasses.Field], as far as construction looks at it. (dataclasses.py:11-29) *)
Record fdecl := mkField { f_init : bool; f_default : default; f_kind : option fkind }.

(** dataclasses.py:11-29 [field]: [dataclasses.field] refuses both kinds of default.
    A container function in the user's own metadata is not modelled. *)
Definition field (dflt : option pyval) (fac : option factory) (init : bool) (md : list string) (k : option fkind) : result fdecl :=
  match dflt, fac with
  | Some _, Some _ => Err ValueError
  | Some v, None => Ok (mkField init (Default v) k)
  | None, Some g => Ok (mkField init (Factory g) k)
  | None, None => Ok (mkField init NoDefault k)
  end.
(** dataclasses.py:32-60, 63-91, 94-124: [node_field], [static_field] and [var_field];
    [md]: the keys of the metadata. *)
Definition kind_field (k : fkind) (dflt : option pyval) (fac : option factory) (init : bool) (md : list string) : result fdecl :=
  if smem "nnx_container_fn" md then Err ValueError
  else field dflt fac init md (Some k).
(** dataclasses.py:32-60 *)
Definition node_field := kind_field KNode.
(** dataclasses.py:63-91 *)
Definition static_field := kind_field KStatic.
(** dataclasses.py:94-124 *)
Definition var_field (c : cls) (sharding : pyval) := kind_field (KVar c sharding).
(** dataclasses.py:127-146 [param_field] *)
Definition param_field := var_field Param_cls PyNone.

(** A dataclass: its class, its fields in order and [__post_init__]. (dataclasses.py:170-191) *)
Record dclass := mkDcls { d_cls : cls; d_fields : dict fdecl; d_post : option (world -> nat -> world * result unit) }.
(** [dataclasses.dataclass]: the fields of the bases, base by base, then its own; a
    field declared again keeps its place. (the standard library's [dataclasses.dataclass], called at dataclasses.py:170-191) *)
Definition collect (bases : list (dict fdecl)) : dict fdecl := fold_left (fun acc d => dupdate acc d) bases [].
(** the standard library's [dataclasses.dataclass], called at dataclasses.py:170-191 *)
Definition params (fs : dict fdecl) : dict fdecl := filter (fun nf => f_init (snd nf)) fs.
(** the standard library's [dataclasses.dataclass], called at dataclasses.py:170-191 *)
Definition has_default (f : fdecl) : bool := match f_default f with NoDefault => false | _ => true end.
(** The generated signature must not have a parameter without default after one with. (the standard library's [dataclasses.dataclass], called at dataclasses.py:170-191) *)
Fixpoint signature_ok (ps : dict fdecl) : bool :=
  match ps with
  | [] => true
  | (_, f) :: t => if has_default f then forallb (fun nf => has_default (snd nf)) t else signature_ok t
  end.
(** dataclasses.py:170-191 [dataclass] *)
Definition dataclass (c : cls) (bases : list (dict fdecl)) (own : dict fdecl) (post : option (world -> nat -> world * result unit)) : result dclass :=
  let fs := collect (bases ++ [own]) in
  if signature_ok (params fs) then Ok (mkDcls c fs post) else Err TypeError.

(** Binding the arguments of a call to the parameters; a parameter without an argument
    stays [None] and takes its default. (the [__init__] that the standard library's [dataclasses.dataclass] generates, called at dataclasses.py:170-191; assignments go through module.py:455-468) *)
Fixpoint bind_params (ps : dict fdecl) (args : list attr) (kw : dict attr) : result (dict (option attr)) :=
  match ps with
  | [] => match args with [] => Ok [] | _ => Err TypeError end
  | (n, f) :: t =>
      match args with
      | a :: args' => if dmem n kw then Err TypeError
                      else do l <- bind_params t args' kw; Ok ((n, Some a) :: l)
      | [] => match dget n kw with
              | Some a => do l <- bind_params t [] kw; Ok ((n, Some a) :: l)
              | None => if has_default f then do l <- bind_params t [] kw; Ok ((n, None) :: l)
                        else Err TypeError
              end
      end
  end.
(** the [__init__] that the standard library's [dataclasses.dataclass] generates, called at dataclasses.py:170-191; assignments go through module.py:455-468 *)
Definition bind_call (ps : dict fdecl) (args : list attr) (kw : dict attr) : result (dict (option attr)) :=
  if forallb (fun k => smem k (keys ps)) (keys kw) then bind_params ps args kw else Err TypeError.

(** The body of the generated [__init__]: one assignment per field, in order.  Fields
    with [init=False] are only assigned when they have a factory. (the [__init__] that the standard library's [dataclasses.dataclass] generates, called at dataclasses.py:170-191; assignments go through module.py:455-468) *)
Definition assign (w : world) (r : nat) (n : string) (a : attr) : world * result unit :=
  match setattr w r n a with Ok w' => (w', Ok tt) | Err e => (w, Err e) end.
(** the [__init__] that the standard library's [dataclasses.dataclass] generates, called at dataclasses.py:170-191; assignments go through module.py:455-468 *)
Definition init_field (env : dict (option attr)) (w : world) (r : nat) (n : string) (f : fdecl) : world * result unit :=
  let call g := match g w with
                | (w1, Ok a) => assign w1 r n a
                | (w1, Err e) => (w1, Err e)
                end in
  if f_init f then
    match dget n env with
    | Some (Some a) => assign w r n a
    | _ => match f_default f with
           | Default v => assign w r n (ARaw v)
           | Factory g => call g
           | NoDefault => (w, Err OutOfModel)
           end
    end
  else match f_default f with
       | Factory g => call g
       | _ => (w, Ok tt)
       end.
(** the [__init__] that the standard library's [dataclasses.dataclass] generates, called at dataclasses.py:170-191; assignments go through module.py:455-468 *)
Fixpoint init_fields (env : dict (option attr)) (r : nat) (fs : dict fdecl) (w : world) : world * result unit :=
  match fs with
  | [] => (w, Ok tt)
  | (n, f) :: t => match init_field env w r n f with
                   | (w1, Ok _) => init_fields env r t w1
                   | (w1, Err e) => (w1, Err e)
                   end
  end.
(** the [__init__] that the standard library's [dataclasses.dataclass] generates, called at dataclasses.py:170-191; assignments go through module.py:455-468 *)
Definition generated_init (d : dclass) (args : list attr) (kw : dict attr) (w : world) (r : nat) : world * result unit :=
  match bind_call (params (d_fields d)) args kw with
  | Err e => (w, Err e)
  | Ok env =>
      match init_fields env r (d_fields d) w with
      | (w1, Ok _) => match d_post d with Some p => p w1 r | None => (w1, Ok tt) end
      | (w1, Err e) => (w1, Err e)
      end
  end.

(** module.py:422-433: the container functions, on [vars(module)] directly. *)
Fixpoint wrap_vars (r : nat) (fs : dict fdecl) (w : world) : world * result unit :=
  match fs with
  | [] => (w, Ok tt)
  | (n, f) :: t =>
      match f_kind f with
      | None => wrap_vars r t w
      | Some k =>
          match get_obj w r with
          | None => (w, Err OutOfModel)
          | Some o =>
              match dget n (m_vars o) with
              | None => (w, Err KeyError)
              | Some a => match call_kind k a with
                          | Ok c => wrap_vars r t (put_obj w r (set_vars o (dset n (ACont c) (m_vars o))))
                          | Err e => (w, Err e)
                          end
              end
          end
      end
  end.
(** module.py:411-435 [ModuleMeta.__call__], [_meta_call].  A keyword called "self"
    collides with the parameter of that name in both.  When construction fails, what was
    made of the object stays in the heap. *)
Definition construct (d : dclass) (args : list attr) (kw : dict attr) (w : world) : world * result nat :=
  if dmem "self" kw then (w, Err TypeError)
  else
    let '(r, w0) := new_module w (d_cls d) in
    match generated_init d args kw w0 r with
    | (w1, Err e) => (w1, Err e)
    | (w1, Ok _) => match wrap_vars r (d_fields d) w1 with
                    | (w2, Ok _) => (w2, Ok r)
                    | (w2, Err e) => (w2, Err e)
                    end
    end.
