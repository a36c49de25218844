(** Model of the time stamps of the log: src/context.cpp:163-172.

    [time], [localtime] and [strftime] are the C library's; they are modelled by their contract: [localtime] converts seconds since
    1970-01-01 00:00:00 UTC to the Gregorian calendar after adding the offset of the time zone (no leap seconds, as POSIX demands),
    and returns NULL if the year does not fit an [int]; [strftime] writes nothing usable if the text and its terminating zero do not
    fit the buffer.  Local times before 1970 are not modelled. *)
From Verif Require Import Bytes StrUtils Outcome Num Context.
From Coq Require Import Lia.
Open Scope Z_scope.

(** [struct tm], with the year itself instead of its distance to 1900 and months from 1. *)
Record tm := { tm_year : Z; tm_mon : Z; tm_mday : Z; tm_hour : Z; tm_min : Z; tm_sec : Z }.

Definition leap_year (y : Z) : bool := (y mod 4 =? 0) && (negb (y mod 100 =? 0) || (y mod 400 =? 0)).
Definition year_days (y : Z) : Z := if leap_year y then 366 else 365.
Definition month_days (y m : Z) : Z :=
  if m =? 2 then (if leap_year y then 29 else 28)
  else if (m =? 4) || (m =? 6) || (m =? 9) || (m =? 11) then 30 else 31.
Fixpoint find_year (fuel : nat) (y days : Z) : Z * Z :=
  match fuel with
  | O => (y, days)
  | S f => if days <? year_days y then (y, days) else find_year f (y + 1) (days - year_days y)
  end.
Fixpoint find_month (fuel : nat) (y m days : Z) : Z * Z :=
  match fuel with
  | O => (m, days)
  | S f => if days <? month_days y m then (m, days) else find_month f y (m + 1) (days - month_days y m)
  end.

(** src/context.cpp:166: [localtime(&now)]; [zone] gives the offset of local time, in seconds east of UTC, at every moment.  [None] is NULL. *)
Definition localtime (zone : Z -> Z) (now : Z) : option tm :=
  let t := now + zone now in
  let days := t / 86400 in
  let rest := t mod 86400 in
  let (y, d) := find_year (S (Z.to_nat days)) 1970 days in
  let (m, d') := find_month 12 y 1 d in
  if y - 1900 <? 2 ^ 31
  then Some {| tm_year := y; tm_mon := m; tm_mday := d' + 1; tm_hour := rest / 3600; tm_min := rest mod 3600 / 60; tm_sec := rest mod 60 |}
  else None.

(** [%m], [%d], [%H], [%M], [%S] *)
Definition two_digits (n : Z) : str := if n <? 10 then "0"%char :: to_string n else to_string n.
(** src/context.cpp:166: [strftime(timestamp, max, "[%F %T]", tm)]; [%F] is [%Y-%m-%d], [%T] is [%H:%M:%S].  [None]: it did not fit. *)
Definition strftime (max : nat) (x : tm) : option str :=
  let text := ($"[" ++ to_string (tm_year x) ++ $"-" ++ two_digits (tm_mon x) ++ $"-" ++ two_digits (tm_mday x) ++ $" " ++
               two_digits (tm_hour x) ++ $":" ++ two_digits (tm_min x) ++ $":" ++ two_digits (tm_sec x) ++ $"]")%list in
  if (length text + 1 <=? max)%nat then Some text else None.

(** src/context.cpp:164-166; [None]: NULL is passed to [strftime], or an indeterminate buffer is printed. *)
Definition timestamp (zone : Z -> Z) (now : Z) : option str :=
  match localtime zone now with Some x => strftime 32 x | None => None end.

(** src/context.cpp:167-170: the text of one record; the record is what [write_log] appends (Context.v). *)
Definition log_record (zone : Z -> Z) (now : Z) (r : str * str) : option str :=
  match timestamp zone now with
  | Some st => Some (st ++ $" " ++ fst r ++ $" -> " ++ snd r ++ [c_nl])%list
  | None => None
  end.
(** What the records, written at the given times, add to the file. *)
Fixpoint log_text (zone : Z -> Z) (times : list Z) (records : list (str * str)) : option str :=
  match times, records with
  | now :: times', r :: records' =>
      match log_record zone now r, log_text zone times' records' with
      | Some a, Some b => Some (a ++ b)%list
      | _, _ => None
      end
  | _, _ => Some []
  end.
