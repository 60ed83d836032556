(** The calendar: when a date was, and how it is written. *)
From Coq Require Import ZArith.
From Verif Require Import Base DecText.
Open Scope string_scope.
Open Scope N_scope.

(** Every fourth year is a leap year, but for the hundreds that are no four hundreds. *)
Definition leap (y : N) : Prop := (N.divide 4 y /\ ~ N.divide 100 y) \/ N.divide 400 y.

Inductive month_length (y : N) : N -> N -> Prop :=
| long m : In m [1; 3; 5; 7; 8; 10; 12] -> month_length y m 31
| short m : In m [4; 6; 9; 11] -> month_length y m 30
| february : ~ leap y -> month_length y 2 28
| leap_february : leap y -> month_length y 2 29.

(** [date_day y m d n]: the [d]th of month [m] of the year [y] is [n] days after the first of
    January 1970: counted day by day. *)
Inductive date_day : N -> N -> N -> N -> Prop :=
| first_day : date_day 1970 1 1 0
| next_day y m d n k : date_day y m d n -> month_length y m k -> d < k -> date_day y m (d + 1) (n + 1)
| next_month y m d n : date_day y m d n -> month_length y m d -> m < 12 -> date_day y (m + 1) 1 (n + 1)
| next_year y d n : date_day y 12 d n -> month_length y 12 d -> date_day (y + 1) 1 1 (n + 1).

(** Two digits; a month's name. *)
Definition two_digits (n : N) : string := (if n <? 10 then "0" else "") ++ dec n.
Definition month_name (m : N) (t : string) : Prop :=
  In (m, t) [(1, "Jan"); (2, "Feb"); (3, "Mar"); (4, "Apr"); (5, "May"); (6, "Jun");
             (7, "Jul"); (8, "Aug"); (9, "Sep"); (10, "Oct"); (11, "Nov"); (12, "Dec")].

(** [t] is the date and time of the second [ts], in Greenwich. *)
Definition date_of (ts : N) (t : string) : Prop :=
  exists y m d n name hh mm ss, date_day y m d n /\ month_name m name
  /\ hh < 24 /\ mm < 60 /\ ss < 60 /\ ts = n * 86400 + hh * 3600 + mm * 60 + ss
  /\ t = name ++ " " ++ two_digits d ++ ", " ++ dec y ++ " " ++ two_digits hh ++ ":" ++ two_digits mm ++ ":" ++ two_digits ss ++ " UTC".
