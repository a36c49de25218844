(** Specification for C72: the order in which lines are executed respects the order in which clients see things happen. *)
From Coq Require Import String List Ascii.
From Verif Require Import Instance Context Server.
From Verif Require Import Spec_Grammar Spec_State Spec_Names Spec_Text Spec_Server.
Import ListNotations.
Open Scope list_scope.

(** By the end of the schedule [es] the client of session [sid] has sent its line number [i] (from 0), [line], completely. *)
Definition has_sent (es : list event) (sid i : nat) (line : bytes) : Prop :=
  exists ls rest, lines_of (arrived es sid) ls rest /\ nth_error ls i = Some line.
(** By then the answer to its line number [i], [ans], has been sent to it completely. *)
Definition has_answer (srt : sorter) (pw : bytes) (c0 : context) (es : list event) (sid i : nat) (ans : bytes) : Prop :=
  exists cn ls rest, nth_error (sv_conns (run srt (start pw c0) es)) sid = Some cn /\ lines_of (c_sent cn) ls rest /\ nth_error ls i = Some ans.
(** In the history [h], the line number [i] of session [sid] is the entry [e], executed after the entries [before]. *)
Definition executed_at (h : list entry) (sid i : nat) (before : list entry) (e : entry) : Prop :=
  (exists after, h = before ++ e :: after) /\ e_sid e = sid /\ length (entries_of sid before) = i.
