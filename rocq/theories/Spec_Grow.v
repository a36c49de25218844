(** Specification for C95: data that only grows. *)
From Coq Require Import String List Ascii ZArith.
From Verif Require Import Num Instance Context Server.
From Verif Require Import Spec_Grammar Spec_State Spec_Names Spec_Number Spec_Set Spec_Server Spec_Clients.
Import ListNotations.
Open Scope list_scope.

(** The line adds a number that is not negative to [n], or does not change [n]. *)
Definition only_increases (n line : bytes) : Prop := (exists a d, statement line n (B "add:") [a] /\ denotes_int a d /\ (0 <= d)%Z) \/ leaves line n.
(** The line removes nothing from the set [n] and does not delete it. *)
Definition removes_nothing (n line : bytes) : Prop := keeps line n /\ silent line n [B "remove:"; B "clear"].
