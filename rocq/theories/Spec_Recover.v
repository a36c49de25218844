(** Specification for C84: sending the lines of a log again. *)
From Coq Require Import List Ascii.
From Verif Require Import Context Server.
From Verif Require Import Spec_Grammar Spec_State Spec_Server.
Import ListNotations.
Open Scope list_scope.

(** [replay k l h]: the client [k] sends the lines of the log [l] again, those to Connection left out, and gets the answers that the log says. *)
Inductive replay (k : nat) : list (bytes * bytes) -> list entry -> Prop :=
| replay_none : replay k [] []
| replay_connection t a l h : connection_line t -> replay k l h -> replay k ((t, a) :: l) h
| replay_line t a l h : ~ connection_line t -> replay k l h ->
    replay k ((t, a) :: l) ({| e_sid := k; e_line := t; e_outcome := Answered a |} :: h).
(** The session may send everything. *)
Definition admitted (s : session) : Prop := is_connected s = true /\ is_authenticated s = true.
