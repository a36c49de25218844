(** Specification of the errors (C67): which one is answered when a statement is refused. *)
From Coq Require Import String List Ascii ZArith.
From Verif Require Import Outcome Num Instance Context.
From Verif Require Import Spec_Grammar Spec_State Spec_Names Spec_Text Spec_Manual.
Import ListNotations.
Open Scope list_scope.

(** The three refusals that are not about the form of the statement: a name is in use, or is not, or the password is wrong. *)
Inductive special_error (pw : bytes) (c : context) : bytes -> bytes -> list bytes -> bytes -> Prop :=
| spec_used t m args n i : creates t m args n i -> live c n -> In m [B "create:"; B "create:withValue:"] -> special_error pw c t m args ERR_USED
| spec_not_used n : variable n -> ~ live c n -> special_error pw c (B "Context") (B "deleteVariable:") [n] ERR_UNKNOWN_NAME
| spec_password a v : denotes_string a v -> v <> pw ->
    special_error pw c (B "Connection") (B "authenticateWithPassword:") [a] ERR_PASSWORD.

(** [error_of pw c a m args e]: if the message [m] with [args] to [a] is refused, the answer is [e].  What exists is what the
    documentation describes (Spec_Manual). *)
Inductive error_of (pw : bytes) (c : context) (a m : bytes) (args : list bytes) : bytes -> Prop :=
| error_no_variable : variable a -> ~ live c a -> error_of pw c a m args ERR_UNKNOWN_NAME
| error_no_message sec cls held : chapter c a sec cls held -> ~ documented sec cls m -> error_of pw c a m args ERR_MESSAGE
| error_number sec cls held takes gives : chapter c a sec cls held -> documents sec cls m takes gives ->
    length args <> length takes -> error_of pw c a m args ERR_NARGS
| error_special e : special_error pw c a m args e -> error_of pw c a m args e
| error_argument sec cls held takes gives : chapter c a sec cls held -> documents sec cls m takes gives ->
    length args = length takes -> (forall e, ~ special_error pw c a m args e) -> error_of pw c a m args ERR_ARGUMENT.
