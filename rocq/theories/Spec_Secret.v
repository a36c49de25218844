(** Specification for C77: what depends on the password. *)
From Coq Require Import String List Ascii.
From Verif Require Import Instance Context Server.
From Verif Require Import Spec_Grammar Spec_State Spec_Names Spec_Text Spec_Server.
Import ListNotations.
Open Scope list_scope.

(** The line does not tell the passwords [p] and [q] apart: it sends both or neither. *)
Definition blind_to (p q line : bytes) : Prop := password_line p line <-> password_line q line.
(** The complete lines of a stream of bytes. *)
Definition complete_line (b line : bytes) : Prop := exists ls rest, lines_of b ls rest /\ In line ls.
