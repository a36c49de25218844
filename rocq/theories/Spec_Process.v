(** Specification for C71: standard output, log files and restarts. *)
From Coq Require Import String List Ascii ZArith.
From Verif Require Import Instance Context Server Main Process.
From Verif Require Import Spec_Grammar Spec_State Spec_Names Spec_Text Spec_Number Spec_Server Spec_Start Spec_Local Spec_Clock.
Import ListNotations.
Open Scope list_scope.
Open Scope Z_scope.

(** The server writes its log to a file. *)
Definition keeps_log (sys : system) (o : options) : Prop := o_logfile o <> [] /\ opens sys (o_logfile o) = true.
(** The first three lines of standard output. *)
Definition greeting (pid : Z) (t : bytes) : Prop :=
  exists p, prints_int pid p /\ t = B "Running Knuckleball 0.1.0" ++ [NEWLINE] ++ B "PID: " ++ p ++ [NEWLINE] ++ [NEWLINE].
(** The text of records written at these times, with the stamps of local time. *)
Definition recorded (zone : Z -> Z) (times : list Z) (l : list (bytes * bytes)) (text : bytes) : Prop :=
  exists stamps, Forall2 (fun now st => stamp (now + zone now) st) times stamps /\ stamped stamps l text.
Definition unchanged (d d' : disk) : Prop := forall name, d' name = d name.
(** The file [name], created if there was none, gets [text] at its end; no other file changes. *)
Definition appended (d : disk) (name text : bytes) (d' : disk) : Prop :=
  d' name = Some (match d name with Some old => old | None => [] end ++ text) /\ forall x, x <> name -> d' x = d x.
(** There is one time, between 1970 and 9999, for every record. *)
Definition timely (zone : Z -> Z) (times : list Z) (c : context) : Prop :=
  length times = length (log_of c) /\ Forall (fun now => four_digit_time (now + zone now)) times.
Definition begins_with (b a : bytes) : Prop := exists r, b = a ++ r.
(** The contents of a file; a missing file counts as empty. *)
Definition text_in (d : disk) (name : bytes) : bytes := match d name with Some t => t | None => [] end.
(** No undefined behaviour has happened in this run. *)
Definition defined (st : standing) : Prop := forall sv, st_server st = Some sv -> sv_crash sv = None.
(** One run of the program after the other. *)
Inductive successive (srt : sorter) (sys : system) (zone : Z -> Z) (usage : bytes) : list execution -> disk -> disk -> Prop :=
| successive_none d : successive srt sys zone usage [] d d
| successive_more x xs d st d' : program srt sys zone usage x d = Some st -> defined st -> successive srt sys zone usage xs (st_disk st) d' ->
    successive srt sys zone usage (x :: xs) d d'.
(** The run [x] was asked to write its log to the file [name]. *)
Definition logs_to (x : execution) (name : bytes) : Prop := exists o, x_command x = Some o /\ o_logfile o = name.
