(** Specification vocabulary for floating-point values: what a float stands for, correct rounding, IEEE arithmetic
    (C08-C12, C38, C42).  Real numbers and rounding to a binary format are those of the library Flocq. *)
From Coq Require Import String List Ascii ZArith Reals.
From Coq Require Import Floats.SpecFloat.
From Flocq Require Import Core.
From Verif Require Import Spec_Grammar Spec_Number.
Import ListNotations.
Open Scope list_scope.
Open Scope R_scope.

(** The real number a finite float stands for. *)
Definition value (f : spec_float) : R :=
  match f with
  | S754_finite s m e => IZR (if s then Zneg m else Zpos m) * powerRZ 2 e
  | _ => 0
  end.
Definition finite (f : spec_float) : Prop := match f with S754_finite _ _ _ | S754_zero _ => True | _ => False end.
Definition negative (f : spec_float) : bool :=
  match f with S754_finite s _ _ | S754_zero s | S754_infinity s => s | S754_nan => false end.

(** A binary format with [prec] significant bits and largest exponent [emax]: [x] rounded to the nearest number
    [m * 2^e] with [|m| < 2^prec], [e >= 3 - emax - prec], ties to even [m]. *)
Definition rounded (prec emax : Z) (x : R) : R := round radix2 (FLT_exp (3 - emax - prec) prec) ZnearestE x.
(** [f] is [x] correctly rounded; a result of magnitude [2^emax] or more is an infinity.  [neg] is the sign (it matters
    for zero). *)
Definition rounds_to (prec emax : Z) (neg : bool) (x : R) (f : spec_float) : Prop :=
  (Rabs (rounded prec emax x) < powerRZ 2 emax -> finite f /\ value f = rounded prec emax x /\ negative f = neg) /\
  (powerRZ 2 emax <= Rabs (rounded prec emax x) -> f = S754_infinity neg).
(** single and double precision *)
Definition single (neg : bool) (x : R) (f : spec_float) : Prop := rounds_to 24 128 neg x f.
Definition double (neg : bool) (x : R) (f : spec_float) : Prop := rounds_to 53 1024 neg x f.
(** [f] is the double [d] converted to single precision. *)
Definition narrows (d f : spec_float) : Prop :=
  match d with
  | S754_finite s _ _ => single s (value d) f
  | _ => f = d
  end.

(** ** Literals *)
Inductive reads_sign : bytes -> bool -> Prop :=
| sign_none : reads_sign [] false
| sign_plus : reads_sign (B "+") false
| sign_minus : reads_sign (B "-") true.
Inductive reads_mantissa : bytes -> Z -> nat -> Prop :=     (* digits without the point, and how many follow it *)
| man_int ds : digits ds -> ds <> [] -> reads_mantissa ds (digits_value ds) 0
| man_point a b : digits a -> digits b -> (a <> [] \/ b <> []) ->
    reads_mantissa (a ++ B "." ++ b) (digits_value (a ++ b)) (length b).
Inductive reads_exponent : bytes -> Z -> Prop :=
| exp_none : reads_exponent [] 0%Z
| exp_some i z : denotes_int i z -> reads_exponent (B "e" ++ i) z.
(** The literal [l] stands for the real number [x] (with sign [neg]). *)
Definition denotes_real (l : bytes) (neg : bool) (x : R) : Prop :=
  exists sg m ex d k e, l = sg ++ m ++ ex /\ reads_sign sg neg /\ reads_mantissa m d k /\ reads_exponent ex e /\
    x = (if neg then -1 else 1) * IZR d * powerRZ 10 (e - Z.of_nat k).

(** ** Arithmetic *)
Inductive operation := Add | Subtract | Multiply | Divide.
Definition message_of (o : operation) : bytes :=
  match o with Add => B "add:" | Subtract => B "subtract:" | Multiply => B "multiplyBy:" | Divide => B "divideBy:" end.
Definition real_result (o : operation) (x y : R) : R :=
  match o with Add => x + y | Subtract => x - y | Multiply => x * y | Divide => x / y end.
(** Sign of a finite result: that of the exact result; an exact zero sum is +0 unless both terms are -0. *)
Definition result_sign (o : operation) (x y : spec_float) : bool :=
  match o with
  | Add => if Rlt_dec (value x + value y) 0 then true else
           if Rlt_dec 0 (value x + value y) then false else andb (negative x) (negative y)
  | Subtract => if Rlt_dec (value x - value y) 0 then true else
                if Rlt_dec 0 (value x - value y) then false else andb (negative x) (negb (negative y))
  | _ => xorb (negative x) (negative y)
  end.
Definition zero (f : spec_float) : Prop := match f with S754_zero _ => True | _ => False end.
Definition nan (f : spec_float) : Prop := f = S754_nan.
Definition infinite (f : spec_float) : Prop := exists s, f = S754_infinity s.
Definition below_zero (f : spec_float) : Prop := (finite f /\ value f < 0) \/ f = S754_infinity true.
(** IEEE 754 arithmetic in the format given by [prec], [emax]. *)
Inductive ieee_in (prec emax : Z) (o : operation) (x y : spec_float) : spec_float -> Prop :=
| ieee_finite r : finite x -> finite y -> (o = Divide -> ~ zero y) ->
    rounds_to prec emax (result_sign o x y) (real_result o (value x) (value y)) r -> ieee_in prec emax o x y r
| ieee_nan : nan x \/ nan y -> ieee_in prec emax o x y S754_nan
| ieee_sum_left s : o = Add \/ o = Subtract -> x = S754_infinity s -> finite y -> ieee_in prec emax o x y x
| ieee_sum_right s : o = Add -> finite x -> y = S754_infinity s -> ieee_in prec emax o x y y
| ieee_difference_right s : o = Subtract -> finite x -> y = S754_infinity s -> ieee_in prec emax o x y (S754_infinity (negb s))
| ieee_sum_infinities s t : o = Add -> x = S754_infinity s -> y = S754_infinity t ->
    ieee_in prec emax o x y (if Bool.eqb s t then x else S754_nan)
| ieee_difference_infinities s t : o = Subtract -> x = S754_infinity s -> y = S754_infinity t ->
    ieee_in prec emax o x y (if Bool.eqb s t then S754_nan else x)
| ieee_product_zero : o = Multiply -> (infinite x /\ zero y) \/ (zero x /\ infinite y) -> ieee_in prec emax o x y S754_nan
| ieee_product : o = Multiply -> (infinite x /\ (infinite y \/ (finite y /\ ~ zero y))) \/ ((finite x /\ ~ zero x) /\ infinite y) ->
    ieee_in prec emax o x y (S754_infinity (xorb (negative x) (negative y)))
| ieee_quotient_undefined : o = Divide -> (infinite x /\ infinite y) \/ (zero x /\ zero y) -> ieee_in prec emax o x y S754_nan
| ieee_quotient_infinite : o = Divide -> (infinite x /\ finite y) \/ ((finite x /\ ~ zero x) /\ zero y) ->
    ieee_in prec emax o x y (S754_infinity (xorb (negative x) (negative y)))
| ieee_quotient_zero : o = Divide -> finite x -> infinite y -> ieee_in prec emax o x y (S754_zero (xorb (negative x) (negative y))).
(** in double precision *)
Notation ieee := (ieee_in 53 1024).

(** ** Integers *)
(** The exact result of an operation on integers; quotients are truncated towards zero, division by zero has none. *)
Definition exact_result (o : operation) (z d r : Z) : Prop :=
  match o with
  | Add => r = (z + d)%Z | Subtract => r = (z - d)%Z | Multiply => r = (z * d)%Z
  | Divide => d <> 0%Z /\ r = Z.quot z d
  end.
(** Conversion of a double to an integer: truncation, meaningful only if the truncated value fits 32 bits. *)
Definition truncates_to (f : spec_float) (z : Z) : Prop := finite f /\ z = Ztrunc (value f) /\ fits z.
(** The number [a] does not fit 32 bits: an integer literal that denotes too large a number, or a float literal whose
    truncated value is too large. *)
Definition out_of_range (a : bytes) : Prop :=
  (exists d, denotes_int a d /\ ~ fits d) \/
  (~ integer_value a /\ exists neg x d, denotes_real a neg x /\ double neg x d /\ forall r, ~ truncates_to d r).
