(** Ex_Serial: States as values of class State, for the examples: a value is written as a
    list of words and read again. *)
From Coq Require Import ZArith Lia.
From Verif Require Import PyBase ValuesM ValuesFacts StateM Prop_TsLoop.
Local Open Scope string_scope.
Local Open Scope list_scope.

Fixpoint wnat (n : nat) : list string := match n with 0 => ["."] | S n => "1" :: wnat n end.
Fixpoint rnat (l : list string) : option (nat * list string) :=
  match l with
  | [] => None
  | x :: t => if String.eqb x "1" then match rnat t with Some (n, r) => Some (S n, r) | None => None end else Some (0, t)
  end.
Lemma rnat_ok n r : rnat (wnat n ++ r) = Some (n, r).
Proof. induction n as [|n IH]; [reflexivity|]. cbn [wnat app rnat String.eqb]. cbn. now rewrite IH. Qed.
Fixpoint rmany (n : nat) (l : list string) : option (list string * list string) :=
  match n, l with
  | 0, _ => Some ([], l)
  | S n, x :: t => match rmany n t with Some (c, r) => Some (x :: c, r) | None => None end
  | S _, [] => None
  end.
Lemma rmany_ok c r : rmany (List.length c) (c ++ r) = Some (c, r).
Proof. induction c as [|x c IH]; [reflexivity|]. cbn. now rewrite IH. Qed.
Fixpoint write (v : pyval) : list string :=
  match v with
  | PyNone => ["N"]
  | PyBool b => [if b then "B1" else "B0"]
  | PyInt z => (if Z.ltb z 0 then "-" else "+") :: wnat (Z.abs_nat z)
  | PyStr s => ["S"; s]
  | PyTuple l => "T" :: wnat (List.length l) ++ (fix go (l : list pyval) : list string := match l with [] => [] | x :: l => write x ++ go l end) l
  | PyMod r => "M" :: wnat r
  | PyObj c i => "O" :: wnat i ++ wnat (List.length c) ++ c
  end.
Definition rlist (f : list string -> option (pyval * list string)) : nat -> list string -> option (list pyval * list string) :=
  fix go (n : nat) (l : list string) :=
  match n with
  | 0 => Some ([], l)
  | S n => match f l with Some (x, r) => match go n r with Some (xs, r') => Some (x :: xs, r') | None => None end | None => None end
  end.
Fixpoint read (fuel : nat) (l : list string) : option (pyval * list string) :=
  match fuel, l with
  | S k, x :: t =>
      if String.eqb x "N" then Some (PyNone, t)
      else if String.eqb x "B1" then Some (PyBool true, t)
      else if String.eqb x "B0" then Some (PyBool false, t)
      else if String.eqb x "+" then match rnat t with Some (n, r) => Some (PyInt (Z.of_nat n), r) | None => None end
      else if String.eqb x "-" then match rnat t with Some (n, r) => Some (PyInt (- Z.of_nat n), r) | None => None end
      else if String.eqb x "S" then match t with s :: r => Some (PyStr s, r) | [] => None end
      else if String.eqb x "T" then match rnat t with Some (n, r) => match rlist (read k) n r with Some (xs, r') => Some (PyTuple xs, r') | None => None end | None => None end
      else if String.eqb x "M" then match rnat t with Some (n, r) => Some (PyMod n, r) | None => None end
      else match rnat t with Some (i, r) => match rnat r with Some (n, r') => match rmany n r' with Some (c, r'') => Some (PyObj c i, r'') | None => None end | None => None end | None => None end
  | _, _ => None
  end.
Lemma write_length l x : In x l -> List.length (write x) <= List.length ((fix go (l : list pyval) : list string := match l with [] => [] | x :: l => write x ++ go l end) l).
Proof. induction l as [|y l IH]; intros I; [destruct I|]. rewrite app_length. destruct I as [->|I]; [lia|]. specialize (IH I). lia. Qed.
Lemma read_ok : forall k v r, List.length (write v) <= k -> read k (write v ++ r) = Some (v, r).
Proof.
  induction k as [|k IH]; intros v r H; [destruct v; cbn in H; lia|].
  destruct v as [|[|]|z|s|l|m|c i]; cbn [write app read] in *; try reflexivity.
  - destruct (Z.ltb_spec z 0); cbn [String.eqb Ascii.eqb Bool.eqb]; rewrite rnat_ok; repeat f_equal; lia.
  - cbn [String.eqb Ascii.eqb Bool.eqb]. rewrite <- app_assoc, rnat_ok.
    assert (X : forall l', (forall x, In x l' -> List.length (write x) <= k) -> forall r,
      rlist (read k) (List.length l') ((fix go (l : list pyval) : list string := match l with [] => [] | x :: l => write x ++ go l end) l' ++ r) = Some (l', r)).
    { induction l' as [|x l' IH']; intros Hl r'; [reflexivity|]. cbn [List.length rlist]. rewrite <- app_assoc, IH by (apply Hl; now left).
      fold (rlist (read k)). rewrite IH'; [reflexivity|]. intros y Hy. apply Hl. now right. }
    rewrite X; [reflexivity|]. intros x Hx. pose proof (write_length l x Hx). cbn [List.length] in H. rewrite app_length in H. lia.
  - cbn [String.eqb Ascii.eqb Bool.eqb]. now rewrite rnat_ok.
  - cbn [String.eqb Ascii.eqb Bool.eqb]. rewrite <- !app_assoc, rnat_ok, rnat_ok, rmany_ok. reflexivity.
Qed.
(** A State as a value; nodes.is_node holds of it. *)
Definition enc_state (s : state) : pyval := PyObj ("State" :: write (enc s)) 0.
Definition dec_state (v : pyval) : option state :=
  match v with PyObj (_ :: l) _ => match read (List.length l) l with Some (x, _) => dec x | None => None end | _ => None end.
Lemma dec_enc_state s : dec_state (enc_state s) = Some s.
Proof. unfold dec_state, enc_state. rewrite <- (app_nil_r (write (enc s))) at 2. rewrite read_ok by lia. apply dec_enc. Qed.
