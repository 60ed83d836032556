(** pkg/rangedbui/functions.go:23-25 [formatDate] with the layout of
    templates/layout/records.gohtml:24, over the Go 1.16 library's time.go and format.go. *)
From Coq Require Import ZArith.
From Verif Require Import Base DecText.
Open Scope string_scope.
Open Scope Z_scope.

(** time.go:411-447: seconds are counted in uint64 from the first of January of the year
    -292277022399; 1970 is that many seconds later. *)
Definition zero_year : Z := -292277022399.
Definition unix_to_absolute : Z := 9223372028715321600.

(** functions.go:24 [int64(timestamp)], time.go [Unix], [abs]. *)
Definition to_int64 (n : N) : Z := if (n <? 2 ^ 63)%N then Z.of_N n else Z.of_N n - 2 ^ 64.
Definition absolute (sec : Z) : Z := (sec + unix_to_absolute) mod 2 ^ 64.

(** time.go:1087-1092 [isLeap]; 1053-1066 [daysBefore]. *)
Definition is_leap (y : Z) : bool := (y mod 4 =? 0) && (negb (y mod 100 =? 0) || (y mod 400 =? 0)).
Definition days_before : list Z := [0; 31; 59; 90; 120; 151; 181; 212; 243; 273; 304; 334; 365].

(** time.go:975-1024 [absDate], up to the day of the year: [n >> 2] cuts the fourth
    century of a cycle and the fourth year of four. *)
Definition year_and_day (abs : Z) : Z * Z :=
  let d := abs / 86400 in
  let n := d / 146097 in let y := 400 * n in let d := d - 146097 * n in
  let n := d / 36524 in let n := n - n / 4 in let y := y + 100 * n in let d := d - 36524 * n in
  let n := d / 1461 in let y := y + 4 * n in let d := d - 1461 * n in
  let n := d / 365 in let n := n - n / 4 in let y := y + n in let d := d - 365 * n in
  (y + zero_year, d).
(** time.go:1026-1051: month and day. *)
Definition month_and_day (leap : bool) (yday : Z) : Z * Z :=
  if leap && (yday =? 59) then (2, 29)
  else
    let day := if leap && (59 <? yday) then yday - 1 else yday in
    let month := day / 31 in
    let next := nth (Z.to_nat (month + 1)) days_before 0 in
    if next <=? day then (month + 2, day - next + 1)
    else (month + 1, day - nth (Z.to_nat month) days_before 0 + 1).

(** format.go [appendInt]: zeros up to the width. *)
Fixpoint zeros (n : nat) : string := match n with O => "" | S k => String "0" (zeros k) end.
Definition padded (width : nat) (x : Z) : string :=
  let t := dec (Z.to_N (Z.abs x)) in
  (if x <? 0 then "-" else "") ++ zeros (width - String.length t) ++ t.
Definition short_months : list string := ["Jan"; "Feb"; "Mar"; "Apr"; "May"; "Jun"; "Jul"; "Aug"; "Sep"; "Oct"; "Nov"; "Dec"].

(** "Jan 02, 2006 15:04:05 UTC"; time.go [absClock] for the time of day. *)
Definition format_date (timestamp : N) : string :=
  let abs := absolute (to_int64 timestamp) in
  let (year, yday) := year_and_day abs in
  let (month, day) := month_and_day (is_leap year) yday in
  let sec := abs mod 86400 in
  nth (Z.to_nat (month - 1)) short_months "" ++ " " ++ padded 2 day ++ ", " ++ padded 4 year ++ " "
  ++ padded 2 (sec / 3600) ++ ":" ++ padded 2 (sec mod 3600 / 60) ++ ":" ++ padded 2 (sec mod 60) ++ " UTC".
