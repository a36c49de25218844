(** Specification vocabulary for the text functions of str_utils.h (C51). *)
From Verif Require Import Spec_Grammar.
From Coq Require Import List Ascii.
Import ListNotations.
Open Scope list_scope.

Definition no_leading_space (s : bytes) : Prop := forall x r, s = x :: r -> ~ space x.
Definition no_trailing_space (s : bytes) : Prop := forall r x, s = r ++ [x] -> ~ space x.

(** [t] is [s] with a backslash put before every [c]. *)
Inductive escapes (c : ascii) : bytes -> bytes -> Prop :=
| esc_nil : escapes c [] []
| esc_char s t : escapes c s t -> escapes c (c :: s) (BACKSLASH :: c :: t)
| esc_other x s t : x <> c -> escapes c s t -> escapes c (x :: s) (x :: t).
(** [t] is [s] without the backslashes that stand right before a [c]. *)
Inductive unescapes (c : ascii) : bytes -> bytes -> Prop :=
| unesc_nil : unescapes c [] []
| unesc_drop s t : unescapes c (c :: s) t -> unescapes c (BACKSLASH :: c :: s) t
| unesc_keep x s t : (x = BACKSLASH -> forall r, s <> c :: r) -> unescapes c s t -> unescapes c (x :: s) (x :: t).
(** [t] is [s] without its white space. *)
Inductive without_spaces : bytes -> bytes -> Prop :=
| ws_nil : without_spaces [] []
| ws_space x s t : space x -> without_spaces s t -> without_spaces (x :: s) t
| ws_other x s t : ~ space x -> without_spaces s t -> without_spaces (x :: s) (x :: t).
