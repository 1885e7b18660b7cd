(** PyBase: the fragment of Python's runtime that the model of nnx relies on.
    Nothing here is specific to nnx; each definition says which Python
    behaviour it stands for. *)
From Coq Require Export List Arith Bool String Ascii Lia.
Export ListNotations.
Local Open Scope string_scope.

(** Python exceptions that the modelled code can raise, as values.
    [RecursionError] is what unbounded recursion becomes; [OutOfModel] marks
    inputs the model does not cover (never returned on inputs the theorems
    speak about unless a theorem says so). *)
Inductive exn : Type :=
| ValueError | TypeError | KeyError | AttributeError | IndexError
| AssertionError | TraceContextError | RecursionError | UserError
| OutOfModel.

Inductive result (A : Type) : Type :=
| Ok (a : A)
| Err (e : exn).
Arguments Ok {A} _.
Arguments Err {A} _.

Definition rbind {A B} (x : result A) (f : A -> result B) : result B :=
  match x with Ok a => f a | Err e => Err e end.
Definition rmap {A B} (f : A -> B) (x : result A) : result B :=
  match x with Ok a => Ok (f a) | Err e => Err e end.
Notation "'do' x <- e ; f" := (rbind e (fun x => f))
  (at level 200, x pattern, e at level 100, f at level 200).
Definition is_ok {A} (x : result A) : bool :=
  match x with Ok _ => true | Err _ => false end.

(** [tuple(map(f, l))] where [f] may raise: left to right, first error wins. *)
Fixpoint rmapM {A B} (f : A -> result B) (l : list A) : result (list B) :=
  match l with
  | [] => Ok []
  | x :: t => do y <- f x; do ys <- rmapM f t; Ok (y :: ys)
  end.

(** *** Python [dict] with [str] keys: insertion-ordered association lists. *)
Notation dict A := (list (string * A)%type).

(** [d.get(k)] *)
Fixpoint dget {A} (k : string) (d : dict A) : option A :=
  match d with
  | [] => None
  | (k', v) :: t => if String.eqb k k' then Some v else dget k t
  end.
(** [k in d] *)
Definition dmem {A} (k : string) (d : dict A) : bool :=
  match dget k d with Some _ => true | None => false end.
(** [d[k] = v]: an existing key keeps its position, a new one goes last. *)
Fixpoint dset {A} (k : string) (v : A) (d : dict A) : dict A :=
  match d with
  | [] => [(k, v)]
  | (k', v') :: t => if String.eqb k k' then (k', v) :: t else (k', v') :: dset k v t
  end.
(** [del d[k]] (no effect when absent; callers check). *)
Fixpoint ddel {A} (k : string) (d : dict A) : dict A :=
  match d with
  | [] => []
  | (k', v') :: t => if String.eqb k k' then t else (k', v') :: ddel k t
  end.
(** [d.update(items)] *)
Definition dupdate {A} (d : dict A) (items : list (string * A)) : dict A :=
  fold_left (fun acc kv => dset (fst kv) (snd kv) acc) items d.
(** [dict(items)] *)
Definition dict_of {A} (items : list (string * A)) : dict A := dupdate [] items.

Definition keys {A} (d : list (string * A)) : list string := map fst d.
Definition values {A} (d : list (string * A)) : list A := map snd d.

(** [sorted(items, key=lambda x: x[0])]: stable; Python compares [str] by code
    point.  Names are modelled as byte strings; UTF-8 byte order is code-point
    order, so the two orders agree. *)
Fixpoint insert_by_key {A} (x : string * A) (l : list (string * A)) : list (string * A) :=
  match l with
  | [] => [x]
  | y :: t => if String.leb (fst x) (fst y) then x :: y :: t else y :: insert_by_key x t
  end.
Fixpoint sort_by_key {A} (l : list (string * A)) : list (string * A) :=
  match l with
  | [] => []
  | x :: t => insert_by_key x (sort_by_key t)
  end.

(** ["/".join(parts)] *)
Fixpoint join (sep : string) (parts : list string) : string :=
  match parts with
  | [] => ""
  | [p] => p
  | p :: t => p ++ sep ++ join sep t
  end.
Definition join_path (parts : list string) : string := join "/" parts.

(** [s.split("/")]: always at least one part. *)
Fixpoint split_slash (s : string) : list string :=
  match s with
  | "" => [""]
  | String c t =>
      if Ascii.eqb c "/"%char then "" :: split_slash t
      else match split_slash t with
           | [] => [String c ""]
           | p :: ps => String c p :: ps
           end
  end.

(** [s.startswith(p)] *)
Definition starts_with (p s : string) : bool := String.prefix p s.

(** [c in s] for a single character. *)
Fixpoint has_char (c : ascii) (s : string) : bool :=
  match s with
  | "" => false
  | String c' t => Ascii.eqb c c' || has_char c t
  end.

(** membership in a list of naturals (Python [set] of ids). *)
Definition nmem (n : nat) (l : list nat) : bool := existsb (Nat.eqb n) l.

(** position of [n] in [l] (a [dict] from id to insertion index). *)
Fixpoint index_of (n : nat) (l : list nat) : option nat :=
  match l with
  | [] => None
  | m :: t => if Nat.eqb n m then Some 0
              else match index_of n t with Some i => Some (S i) | None => None end
  end.

Definition smem (s : string) (l : list string) : bool := existsb (String.eqb s) l.

(** replace the element at an index (heap update). *)
Fixpoint list_set {A} (n : nat) (x : A) (l : list A) : list A :=
  match l, n with
  | [], _ => []
  | _ :: t, 0 => x :: t
  | y :: t, S n' => y :: list_set n' x t
  end.
