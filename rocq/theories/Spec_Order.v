(** Specification vocabulary for comparisons (C13-C17) and ordered containers (C21-C23). *)
From Coq Require Import String List Ascii ZArith Reals Sorting.Sorted Sorting.Permutation.
From Coq Require Import Floats.SpecFloat.
From Flocq Require Import Core.
From Verif Require Import Num Instance.
From Verif Require Import Spec_Grammar Spec_State Spec_Text Spec_Number Spec_Float.
Import ListNotations.
Open Scope list_scope.

(** A byte as a signed number, -128 to 127. *)
Definition signed (c : ascii) : Z := if (code c <? 128)%nat then Z.of_nat (code c) else (Z.of_nat (code c) - 256)%Z.

(** What a number stands for in a comparison of floats. *)
Inductive extended := Minus_infinity | Real (x : R) | Plus_infinity | Not_a_number.
Definition extended_of (f : spec_float) : extended :=
  match f with
  | S754_nan => Not_a_number
  | S754_infinity true => Minus_infinity
  | S754_infinity false => Plus_infinity
  | _ => Real (value f)
  end.
(** [x] is below [y] by more than the tolerance; the difference is rounded to single precision before it is compared. *)
Definition below (tol x y : extended) : Prop :=
  match tol, x, y with
  | Real t, Real x, Real y => (rounded 24 128 (x - y) < - t)%R
  | Minus_infinity, Real x, Real y => (rounded 24 128 (x - y) < powerRZ 2 128)%R     (* the difference does not overflow *)
  | (Real _ | Minus_infinity), Minus_infinity, (Real _ | Plus_infinity) | (Real _ | Minus_infinity), Real _, Plus_infinity => True
  | _, _, _ => False
  end.
(** [before tol a b]: the value [a] is less than the value [b].  An Integer compared with a Float is converted to single
    precision first. *)
Definition before (tol : spec_float) (a b : obj) : Prop :=
  match a, b with
  | OBool x, OBool y => x = false /\ y = true
  | OChar x, OChar y => (signed x < signed y)%Z
  | OInt x, OInt y => (x < y)%Z
  | OStr x, OStr y => precedes x y
  | OFloat x, OFloat y => below (extended_of tol) (extended_of x) (extended_of y)
  | OInt x, OFloat y => below (extended_of tol) (Real (rounded 24 128 (IZR x))) (extended_of y)
  | OFloat x, OInt y => below (extended_of tol) (extended_of x) (Real (rounded 24 128 (IZR y)))
  | _, _ => False
  end.
(** How [a] compares with [b]. *)
Definition relates (tol : spec_float) (a b : obj) (r : comparison) : Prop :=
  match r with
  | Lt => before tol a b
  | Gt => before tol b a
  | Eq => ~ before tol a b /\ ~ before tol b a
  end.

(** The comparison messages. *)
Inductive question := IsLess | IsLessOrEqual | IsEqual | IsGreaterOrEqual | IsGreater.
Definition question_name (q : question) : bytes :=
  match q with
  | IsLess => B "LessThan?" | IsLessOrEqual => B "LessThanOrEqualTo?" | IsEqual => B "EqualTo?"
  | IsGreaterOrEqual => B "GreaterThanOrEqualTo?" | IsGreater => B "GreaterThan?"
  end.
Definition asks (type : bytes) (q : question) : bytes :=
  (if bytes_dec type (B "String") then B "isLexicographically" else B "is") ++ question_name q.
(** The right answer, given how the values compare. *)
Definition right_answer (q : question) (r : comparison) : bool :=
  match q, r with
  | IsLess, Lt | IsLessOrEqual, Lt | IsLessOrEqual, Eq | IsEqual, Eq | IsGreaterOrEqual, Eq | IsGreaterOrEqual, Gt | IsGreater, Gt => true
  | _, _ => false
  end.
(** The same without reference to a unique relation: right for negative tolerances, too, where two values can be before each other. *)
Definition holds (tol : spec_float) (q : question) (a b : obj) : Prop :=
  match q with
  | IsLess => before tol a b
  | IsLessOrEqual => before tol a b \/ relates tol a b Eq
  | IsEqual => relates tol a b Eq
  | IsGreaterOrEqual => before tol b a \/ relates tol a b Eq
  | IsGreater => before tol b a
  end.
(** The types whose variables understand comparisons. *)
Definition ordered_type (t : bytes) : Prop := t = B "Character" \/ t = B "Integer" \/ t = B "Float" \/ t = B "String".
(** The value the argument [a] of a comparison stands for, when sent to a variable of type [t]. *)
Definition operand (t a : bytes) (x : obj) : Prop :=
  (t <> B "Integer" /\ literal_of t a x) \/
  (t = B "Integer" /\ integer_value a /\ literal_of (B "Integer") a x) \/
  (t = B "Integer" /\ ~ integer_value a /\ literal_of (B "Float") a x).

(** In order, given a tolerance: no element is before an earlier one. *)
Definition in_order (tol : spec_float) (v : list obj) : Prop := StronglySorted (fun a b => ~ before tol b a) v.
(** The order required by sorted containers and std::sort, for the values in [l]. *)
Definition weak_order (tol : spec_float) (l : list obj) : Prop :=
  (forall a, In a l -> ~ before tol a a) /\
  (forall a b c, In a l -> In b l -> In c l -> before tol a b -> before tol b c -> before tol a c) /\
  (forall a b c, In a l -> In b l -> In c l -> relates tol a b Eq -> relates tol b c Eq -> relates tol a c Eq).
(** Not a Float: the tolerance plays no role. *)
Definition plain (o : obj) : Prop := match o with OFloat _ => False | _ => True end.
(** The question with the operands swapped. *)
Definition swapped (q : question) : question :=
  match q with IsLess => IsGreater | IsLessOrEqual => IsGreaterOrEqual | IsEqual => IsEqual | IsGreaterOrEqual => IsLessOrEqual | IsGreater => IsLess end.
(** The texts a comparison accepts: a literal of the type or, for an Integer, a float literal. *)
Definition comparison_literal (t l : bytes) : Prop :=
  (t = B "Character" /\ character_value l) \/ (t = B "Integer" /\ float_value l) \/ (t = B "Float" /\ float_value l) \/
  (t = B "String" /\ string_value l).
