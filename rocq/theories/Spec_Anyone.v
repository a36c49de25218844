(** Specification for C85: who sends a line. *)
From Coq Require Import List Ascii.
From Verif Require Import Context Server.
From Verif Require Import Spec_Grammar Spec_State Spec_Server Spec_Recover.
Import ListNotations.
Open Scope list_scope.

(** The same line with the same outcome, of another client. *)
Definition same_line (e e' : entry) : Prop := e_line e' = e_line e /\ e_outcome e' = e_outcome e.
(** The client has another number. *)
Definition renumbered (f : nat -> nat) (e : entry) : entry := {| e_sid := f (e_sid e); e_line := e_line e; e_outcome := e_outcome e |}.
(** A line that is not for the client's own session, of a client that may send everything. *)
Definition common (ss : nat -> session) (e : entry) : Prop := admitted (ss (e_sid e)) /\ ~ connection_line (e_line e).
