(** What the generated ledgers are supposed to contain, in terms of dates. A time is a number of seconds, it lies on
    day [day_no t] at clock time [clock t]; [weekday], [civil] of a day are those of S_Date / M_Date (C19). *)
From Verif Require Import Base S_Date M_Date M_Gen.

(** the Sunday on or before a day *)
Definition week_start (d : Z) : Z := d - weekday d.
(** months counted from year 0 *)
Definition month_number (d : Z) : Z := 12 * year_of d + month_of d - 1.
(** the day of the month meant by a number: 3 is the third, -1 the last day; other numbers mean no day *)
Definition is_named (y m d p : Z) : Prop := (1 <= p /\ d = p) \/ (p <= -1 /\ d = month_days y m + 1 + p).
