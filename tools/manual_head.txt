(** Generated by tools/mkmanual.py from the reference part of the documentation, /repo/README.md:115-1910.  Do not edit.
    [manual]: every message documented there, with the words of the documentation for its arguments and its answer and the
    line of its heading.  ("Returns: Integer" of line 1141 is written like the other lines, in lower case.) *)
From Verif Require Import Num Instance Context.
From Verif Require Import Spec_Grammar Spec_State Spec_Names Spec_Text Spec_Number Spec_Float Spec_Literal Spec_Vector Spec_String Spec_Set.
From Coq Require Import String List Ascii ZArith.
Import ListNotations.
Open Scope list_scope.

Inductive section := Constructor | Method.
(** line, section, class, message, arguments, answer *)
Definition entry := (nat * section * bytes * bytes * list bytes * bytes)%type.
