(** Specification for C83: a discipline of clients under which the server has no undefined behaviour. *)
From Coq Require Import String List Ascii ZArith Reals.
From Verif Require Import Num Instance Context Server.
From Verif Require Import Spec_Grammar Spec_State Spec_Names Spec_Text Spec_Number Spec_Float Spec_Order Spec_Set Spec_Server Spec_Secret Spec_Clients Spec_Trace.
Import ListNotations.
Open Scope list_scope.

Definition arithmetic_messages : list bytes := [B "add:"; B "subtract:"; B "multiplyBy:"; B "divideBy:"].
(** Types of vectors and sets of Float and of dictionaries with Float keys. *)
Definition float_container (t : bytes) : Prop :=
  vector_type t (B "Float") \/ set_type t (B "Float") \/ exists v, dictionary_type t (B "Float") v.
(** Two ways of avoiding comparisons of floating-point numbers that are almost equal: no vectors and sets of Float and no dictionaries with Float keys are made; or
    the tolerance is zero from the beginning and nobody sets it. *)
Inductive policy := NoFloatContainers | ToleranceZero.
Definition follows (p : policy) (a m : bytes) : Prop :=
  match p with
  | NoFloatContainers => ~ float_container a
  | ToleranceZero => ~ (a = B "Context" /\ m = B "setFloatComparisonTolerance:")
  end.
(** The clients have agreed on names [A] for variables that are no Integers.  What a cautious client sends: *)
Definition cautious (p : policy) (A : bytes -> Prop) (line : bytes) : Prop :=
  forall a m args, statement line a m args ->
    (** no numbers that do not fit 32 bits, *)
    (forall x, In x args -> ~ out_of_range x) /\
    (** add:, subtract:, multiplyBy: and divideBy: only to variables that are no Integers, *)
    (In m arithmetic_messages -> variable a -> A a) /\
    (** Integers get other names, *)
    (a = B "Integer" -> forall n rest, args = n :: rest -> ~ A n) /\
    (** and the policy is followed. *)
    follows p a m.
(** Data as cautious clients make them. *)
Definition tame (p : policy) (A : bytes -> Prop) (c : context) : Prop :=
  (forall n z, lookup c n = Some (IObj (OInt z)) -> ~ A n) /\
  match p with
  | NoFloatContainers => forall n i, lookup c n = Some i -> match i with IObj _ => True | IVector t _ | ISet t _ | IDict t _ _ => t <> B "Float" end
  | ToleranceZero => finite (tolerance c) /\ value (tolerance c) = 0%R
  end.

(** The same with counters: Integers with the names [K], to which integers are added or from which they are subtracted and to which nothing else is done that may
    change them. *)
Definition careful (p : policy) (A K : bytes -> Prop) (line : bytes) : Prop :=
  (forall a m args, statement line a m args ->
    (forall x, In x args -> ~ out_of_range x) /\
    (In m arithmetic_messages -> variable a -> A a \/ K a) /\
    (a = B "Integer" -> forall n rest, args = n :: rest -> ~ A n) /\
    follows p a m) /\
  forall k, K k -> (exists d, counts line k d) \/ leaves line k.
Definition sum (l : list Z) : Z := fold_right Z.add 0%Z l.
(** What all the lines [ls] may add to or subtract from the counter [k] fits a 32-bit integer, the value [z] of the counter included: [w line] is a bound for
    what the line [line] adds or subtracts. *)
Definition within_budget (k : bytes) (z : Z) (ls : list bytes) : Prop :=
  exists w : bytes -> Z, (forall line, 0 <= w line)%Z /\ (forall line d, In line ls -> counts line k d -> Z.abs d <= w line)%Z /\ (Z.abs z + sum (map w ls) <= 2147483647)%Z.
