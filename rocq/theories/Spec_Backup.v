(** Specification for C78: settings that can be set. *)
From Coq Require Import String List Ascii ZArith.
From Verif Require Import Num Instance Context.
From Verif Require Import Spec_Grammar Spec_State Spec_Names Spec_Number Spec_Float.
Open Scope Z_scope.

(** Settings a client could have made (the defaults are such; options of the command line need not be). *)
Definition settable (c : context) : Prop :=
  0 < float_precision c /\ fits (float_precision c) /\ single_precision (tolerance c) /\ ~ nan (tolerance c) /\ ~ below_zero (tolerance c).
