(** Specification vocabulary for C52-C56: what the effect of a line depends on, and running lines again. *)
From Verif Require Import Outcome Num Instance Context.
From Verif Require Import Spec_Grammar Spec_State Spec_Names.
From Coq Require Import String List.
Import ListNotations.
Open Scope list_scope.

(** The two lines say the same, if anything: white space around and between the pieces is all that may differ. *)
Definition same_reading (l1 l2 : bytes) : Prop := forall a m args, statement l1 a m args <-> statement l2 a m args.

(** Executing [lines] one after the other. *)
Inductive executes (srt : sorter) (pw : bytes) : context -> option session -> list bytes -> context -> option session -> list bytes -> Prop :=
| executes_none c s : executes srt pw c s [] c s []
| executes_more c s line c1 s1 ans lines c2 s2 answers :
    runs srt pw c s line c1 s1 ans -> executes srt pw c1 s1 lines c2 s2 answers ->
    executes srt pw c s (line :: lines) c2 s2 (ans :: answers).

(** The text of a log: every record is a time stamp (the format in src/context.cpp:166 gives 21 characters and a blank), the line, an arrow,
    the answer and a newline (src/context.cpp:167-170).  Nothing is said about which time the stamp tells. *)
Inductive written : list (bytes * bytes) -> bytes -> Prop :=
| written_none : written [] []
| written_more stamp t ans l text : List.length stamp = 22 -> ~ In NEWLINE stamp -> written l text ->
    written ((t, ans) :: l) (stamp ++ t ++ B " -> " ++ ans ++ [NEWLINE] ++ text).
(** What is written: to the log file if there is one, else to the standard output. *)
Definition log_of (c : context) : list (bytes * bytes) := if log_is_open c then logfile c else stdout c.

(** The line asks for a Vector<Float> to be sorted. *)
Definition sorts_floats (c : context) (line : bytes) : Prop :=
  exists n args v, statement line n (B "sort") args /\ lookup c n = Some (IVector (B "Float") v).
