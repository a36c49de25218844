(** Specification vocabulary for numbers as text (C08-C12 and every property that mentions printed values). *)
From Coq Require Import String List Ascii ZArith QArith Qabs.
From Coq Require Import Floats.SpecFloat.
From Verif Require Import Num Instance.
From Verif Require Import Spec_Grammar Spec_Text.
Import ListNotations.
Open Scope list_scope.
Open Scope Z_scope.

(** The value of a sequence of decimal digits. *)
Definition digit_value (c : ascii) : Z := Z.of_nat (code c) - 48.
Definition digits_value (ds : bytes) : Z := fold_left (fun a c => 10 * a + digit_value c) ds 0.

(** [t] is the usual decimal numeral of [n >= 0]: digits, no superfluous leading zero. *)
Definition numeral (n : Z) (t : bytes) : Prop :=
  digits t /\ t <> [] /\ digits_value t = n /\ (t = B "0" \/ forall r, t <> B "0" ++ r).
Definition prints_int (z : Z) (t : bytes) : Prop :=
  (0 <= z /\ numeral z t) \/ (z < 0 /\ exists t', t = B "-" ++ t' /\ numeral (- z) t').

(** The integer an integer literal stands for. *)
Inductive denotes_int : bytes -> Z -> Prop :=
| int_plain ds : digits ds -> ds <> [] -> denotes_int ds (digits_value ds)
| int_plus ds : digits ds -> ds <> [] -> denotes_int (B "+" ++ ds) (digits_value ds)
| int_minus ds : digits ds -> ds <> [] -> denotes_int (B "-" ++ ds) (- digits_value ds).

(** Fits a 32-bit signed integer. *)
Definition fits (z : Z) : Prop := - 2 ^ 31 <= z < 2 ^ 31.

(** The numeral of [n] with the decimal point [p] places from the right. *)
Definition point_numeral (p : nat) (n : Z) (t : bytes) : Prop :=
  match p with
  | O => numeral n t
  | _ => exists ip fp, t = ip ++ B "." ++ fp /\ length fp = p /\ digits fp /\ digits_value (ip ++ fp) = n /\
                       digits ip /\ ip <> [] /\ (ip = B "0" \/ forall r, ip <> B "0" ++ r)
  end.
(** [n] is the integer nearest to [q], the even one of two equally near. *)
Definition nearest (q : Q) (n : Z) : Prop :=
  (Qabs (inject_Z n - q) <= 1 # 2)%Q /\ ((Qabs (inject_Z n - q) == 1 # 2)%Q -> Z.even n = true).
(** The magnitude of a finite floating-point number. *)
Definition magnitude (m : positive) (e : Z) : Q := (inject_Z (Zpos m) * Qpower 2 e)%Q.
Definition minus_sign (negative : bool) : bytes := if negative then B "-" else [].
(** [t] is the number [f] with [p] decimal places. *)
Definition prints_float (p : nat) (f : f32) (t : bytes) : Prop :=
  match f with
  | S754_zero s => exists body, t = minus_sign s ++ body /\ point_numeral p 0 body
  | S754_finite s m e =>
      exists n body, t = minus_sign s ++ body /\ point_numeral p n body /\ nearest (magnitude m e * (10 ^ Z.of_nat p))%Q n
  | S754_infinity s => t = minus_sign s ++ B "inf"
  | S754_nan => t = B "-nan"
  end.
(** A configured precision gives that many places; a negative one (only possible from the command line) gives 6. *)
Definition places (precision : Z) : nat := if (precision <? 0)%Z then 6%nat else Z.to_nat precision.

(** The text in which a value is printed. *)
Definition truth (b : bool) : bytes := if b then B "true" else B "false".
Inductive shows (precision : Z) : obj -> bytes -> Prop :=
| shows_bool b : shows precision (OBool b) (truth b)
| shows_char c : shows precision (OChar c) [APOSTROPHE; c; APOSTROPHE]
| shows_int z t : prints_int z t -> shows precision (OInt z) t
| shows_float f t : prints_float (places precision) f t -> shows precision (OFloat f) t
| shows_string v : shows precision (OStr v) (printed_string v).
