(** Specification for C76: the histories that are possible. *)
From Coq Require Import String List Ascii.
From Verif Require Import Instance Context Server.
From Verif Require Import Spec_Grammar Spec_State Spec_Names Spec_Text Spec_Server.
Import ListNotations.
Open Scope list_scope.

(** [h] is a sequence of lines of any clients, executed one after the other: no line contains a newline, nothing follows a line that closes,
    and every answer is shorter than 65536 bytes. *)
Record possible (srt : sorter) (pw : bytes) (c0 : context) (h : list entry) : Prop := {
  pos_serial : exists c ss, serial srt pw c0 (fun _ => fresh pw) h c ss;
  pos_lines : Forall (fun e => ~ In NEWLINE (e_line e)) h;
  pos_close : forall sid before e after, entries_of sid h = before ++ e :: after -> closes e -> after = [];
  pos_short : Forall (fun e => Forall (fun a => List.length a < 65536) (answer_to (e_outcome e))) h
}.
(** Nothing has been executed yet. *)
Definition untouched (srt : sorter) (pw : bytes) (c0 : context) (es : list event) : Prop :=
  sv_ctx (run srt (start pw c0) es) = c0 /\ forall sid cn, nth_error (sv_conns (run srt (start pw c0) es)) sid = Some cn -> c_sent cn = [].
