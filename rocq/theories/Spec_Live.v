(** Specification for C74: infinite schedules. *)
From Coq Require Import String List Ascii.
From Verif Require Import Instance Context Server.
From Verif Require Import Spec_Grammar Spec_State Spec_Names Spec_Text Spec_Server Spec_Linear.
Import ListNotations.
Open Scope list_scope.

(** An unending sequence of events, and what has happened before the moment [t]. *)
Definition schedule := nat -> event.
Definition until (f : schedule) (t : nat) : list event := map f (seq 0 t).
Definition again_and_again (f : schedule) (P : event -> Prop) : Prop := forall t, exists t', t <= t' /\ P (f t').
(** The network and the operating system keep serving session [sid]: again and again bytes are read, the handlers are called; there is no error. *)
Record keeps_serving (f : schedule) (sid : nat) : Prop := {
  reads : again_and_again f (fun e => exists n, e = ReadSome sid (S n));
  handles : again_and_again f (fun e => exists k, e = Handle sid k);
  finishes_writes : again_and_again f (fun e => e = WriteDone sid);
  no_failure : forall t, f t <> Fail sid
}.
