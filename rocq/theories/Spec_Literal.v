(** Specification of literals: which value a text stands for where a value of a given object type is expected (C46, and every
    property whose statements take values or indexes as arguments). *)
From Coq Require Import String List Ascii ZArith Reals.
From Coq Require Import Floats.SpecFloat.
From Verif Require Import Num Instance.
From Verif Require Import Spec_Grammar Spec_Text Spec_Number Spec_Float.
Import ListNotations.
Open Scope list_scope.

(** [f] is written in the canonical form of single precision (significand and exponent in their ranges). *)
Definition single_precision (f : spec_float) : Prop := valid_binary 24 128 f = true.

(** [literal_of t a x]: as a literal of the object type [t] the text [a] stands for the value [x]. *)
Inductive literal_of : bytes -> bytes -> obj -> Prop :=
| lit_true : literal_of (B "Boolean") (B "true") (OBool true)
| lit_false : literal_of (B "Boolean") (B "false") (OBool false)
| lit_character ch : literal_of (B "Character") [APOSTROPHE; ch; APOSTROPHE] (OChar ch)
| lit_integer a z : denotes_int a z -> fits z -> literal_of (B "Integer") a (OInt z)
| lit_truncated a neg x d z : ~ integer_value a -> denotes_real a neg x -> double neg x d -> truncates_to d z ->
    literal_of (B "Integer") a (OInt z)
| lit_float a neg x d f : denotes_real a neg x -> double neg x d -> narrows d f -> single_precision f ->
    literal_of (B "Float") a (OFloat f)
| lit_string a v : denotes_string a v -> literal_of (B "String") a (OStr v).
(** The texts accepted where a value of type [t] is expected. *)
Inductive literal_text : bytes -> bytes -> Prop :=
| text_boolean a : boolean_value a -> literal_text (B "Boolean") a
| text_character a : character_value a -> literal_text (B "Character") a
| text_integer a : float_value a -> literal_text (B "Integer") a
| text_float a : float_value a -> literal_text (B "Float") a
| text_string a : string_value a -> literal_text (B "String") a.

(** As an index or count the text [a] stands for the integer [z]: indexes are read as Integer literals. *)
Definition index_of (a : bytes) (z : Z) : Prop := literal_of (B "Integer") a (OInt z).
