(** Specification for C92: a counter as a barrier. *)
From Coq Require Import String List Ascii ZArith.
From Verif Require Import Num Instance Context Server.
From Verif Require Import Spec_Grammar Spec_State Spec_Names Spec_Text Spec_Number Spec_Server Spec_Clients.
Import ListNotations.
Open Scope list_scope.

(** The line adds 1 to the counter [b]. *)
Definition arrives_at (b line : bytes) : Prop := exists a, statement line b (B "add:") [a] /\ denotes_int a 1.
(** A client that sends the lines [before], then [arrival], then [after]; it arrives at the barrier [b] once. *)
Definition takes_part (b : bytes) (before : list bytes) (arrival : bytes) (after : list bytes) : Prop :=
  arrives_at b arrival /\ forall line, In line (before ++ after) -> leaves line b.
