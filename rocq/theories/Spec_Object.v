(** Specification of literals (C46) and of the messages of Boolean, Character, Integer, Float and String variables that hold
    one value (C47). *)
From Coq Require Import String List Ascii ZArith Reals.
From Coq Require Import Floats.SpecFloat.
From Verif Require Import Num Instance.
From Verif Require Import Spec_Grammar Spec_State Spec_Text Spec_Number Spec_Float Spec_Order.
Import ListNotations.
Open Scope list_scope.

(** C47: [value_effect p m args x x' ans]: a variable that holds the value [x] answers [ans] to the message [m] and then
    holds [x']; [p] is the number of decimal places configured. *)
Inductive value_effect (p : Z) : bytes -> list bytes -> obj -> obj -> bytes -> Prop :=
| val_get x ans : shows p x ans -> value_effect p (B "get") [] x x ans
| val_set t a x y : has_type t x -> literal_of t a y -> value_effect p (B "set:") [a] x y (B "null")
| val_isTrue b : value_effect p (B "isTrue?") [] (OBool b) (OBool b) (truth b)
| val_isFalse b : value_effect p (B "isFalse?") [] (OBool b) (OBool b) (truth (negb b)).

(** The messages of each type, other than String (C20), with the number of their arguments. *)
Definition comparisons (t : bytes) : list (bytes * nat) :=
  map (fun q => (asks t q, 1%nat)) [IsLess; IsLessOrEqual; IsEqual; IsGreaterOrEqual; IsGreater].
Definition accessors : list (bytes * nat) := [(B "get", 0%nat); (B "set:", 1%nat)].
Definition arithmetic : list (bytes * nat) := map (fun o => (message_of o, 1%nat)) [Add; Subtract; Multiply; Divide].
Inductive understood : bytes -> bytes -> nat -> Prop :=
| und_accessor t m k : In t [B "Boolean"; B "Character"; B "Integer"; B "Float"] -> In (m, k) accessors -> understood t m k
| und_boolean m k : In (m, k) [(B "isTrue?", 0%nat); (B "isFalse?", 0%nat)] -> understood (B "Boolean") m k
| und_character m k : In (m, k) [(B "isAlphabetic?", 0%nat); (B "isNumeric?", 0%nat); (B "isAlphanumeric?", 0%nat); (B "isSpace?", 0%nat)] ->
    understood (B "Character") m k
| und_comparison t m k : ordered_type t -> In (m, k) (comparisons t) -> understood t m k
| und_arithmetic t m k : t = B "Integer" \/ t = B "Float" -> In (m, k) arithmetic -> understood t m k.
