(** Specification of the time stamps (C68): the Gregorian calendar, day by day. *)
From Coq Require Import String List Ascii ZArith Sorting.Sorted.
From Verif Require Import Spec_Grammar Spec_Text Spec_Number Spec_Names.
Import ListNotations.
Open Scope list_scope.
Open Scope Z_scope.

Definition leap (y : Z) : Prop := (4 | y) /\ (~ (100 | y) \/ (400 | y)).
Inductive month_length (y : Z) : Z -> Z -> Prop :=
| long_month m : In m [1; 3; 5; 7; 8; 10; 12] -> month_length y m 31
| short_month m : In m [4; 6; 9; 11] -> month_length y m 30
| february : ~ leap y -> month_length y 2 28
| february_leap : leap y -> month_length y 2 29.
(** [calendar n y m d]: [n] days after 1970-01-01 it is the [d]th day of month [m] of year [y]. *)
Inductive calendar : Z -> Z -> Z -> Z -> Prop :=
| calendar_epoch : calendar 0 1970 1 1
| calendar_day n y m d k : calendar n y m d -> month_length y m k -> d < k -> calendar (n + 1) y m (d + 1)
| calendar_month n y m d : calendar n y m d -> month_length y m d -> m < 12 -> calendar (n + 1) y (m + 1) 1
| calendar_year n y : calendar n y 12 31 -> calendar (n + 1) (y + 1) 1 1.

(** [n] in exactly [k] decimal digits. *)
Definition padded (k : nat) (n : Z) (t : bytes) : Prop := digits t /\ length t = k /\ digits_value t = n.

(** [stamp t st]: [st] is the time stamp of the second [t] of local time (0 is 1970-01-01 00:00:00). *)
Inductive stamp : Z -> bytes -> Prop :=
| stamp_of day hour minute second year month dom ty tmo td th tmi ts :
    calendar day year month dom -> 0 <= hour < 24 -> 0 <= minute < 60 -> 0 <= second < 60 ->
    padded 4 year ty -> padded 2 month tmo -> padded 2 dom td -> padded 2 hour th -> padded 2 minute tmi -> padded 2 second ts ->
    stamp (86400 * day + 3600 * hour + 60 * minute + second)
          (B "[" ++ ty ++ B "-" ++ tmo ++ B "-" ++ td ++ B " " ++ th ++ B ":" ++ tmi ++ B ":" ++ ts ++ B "]").
(** The years 1970 to 9999. *)
Definition four_digit_time (t : Z) : Prop := 0 <= t < 253402300800.

(** The text of a log with these stamps: stamp, blank, line, arrow, answer and newline of every record. *)
Inductive stamped : list bytes -> list (bytes * bytes) -> bytes -> Prop :=
| stamped_none : stamped [] [] []
| stamped_more st sts line ans l text : stamped sts l text ->
    stamped (st :: sts) ((line, ans) :: l) (st ++ B " " ++ line ++ B " -> " ++ ans ++ [NEWLINE] ++ text).
