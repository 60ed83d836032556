(** C108: the dates shown on the pages of the web UI. *)
From Coq Require Import ZArith.
From Verif Require Import Base DecText Dates DatesSpec DatesProofs.
Open Scope string_scope.
Open Scope N_scope.

(** The date of the calendar.  Missing: timestamps from 9223372044994230016 on (in the year
    292277026854), which no clock shows. *)
Theorem C108_date_partial : forall ts, ts < 9223372044994230016 -> date_of ts (format_date ts).
Proof. exact shown_date. Qed.
Print Assumptions C108_date_partial.

(** A date stands for one second only ... *)
Theorem C108_one_second : forall ts ts' t, date_of ts t -> date_of ts' t -> ts = ts'.
Proof. exact date_text. Qed.
Print Assumptions C108_one_second.

(** ... so different times look different. *)
Theorem C108_distinct_partial : forall ts ts', ts < 9223372044994230016 -> ts' < 9223372044994230016 -> format_date ts = format_date ts' -> ts = ts'.
Proof. intros ts ts' H H' E. apply (date_text ts ts' (format_date ts)); [now apply shown_date|rewrite E; now apply shown_date]. Qed.
Print Assumptions C108_distinct_partial.

(** Larger timestamps are shown as dates before 1970. *)
Theorem C108_large_refuted : exists ts, ts < 2 ^ 64 /\ ~ date_of ts (format_date ts).
Proof.
  exists (2 ^ 64 - 1). split; [reflexivity|]. replace (format_date (2 ^ 64 - 1)) with "Dec 31, 1969 23:59:59 UTC" by (vm_compute; reflexivity).
  intros (y & m & d & n & name & hh & mm & ss & D & M & _ & _ & _ & _ & E). apply date_closed in D as (A1 & A2 & A3 & _).
  assert (R : month_name 12 "Dec") by (unfold month_name; cbn; tauto).
  change "Dec 31, 1969 23:59:59 UTC" with ("Dec" ++ " " ++ two_digits 31 ++ ", " ++ dec 1969 ++ " 23:59:59 UTC") in E.
  destruct (name_inj _ _ _ _ _ _ R M E) as [<- F]. injection F as F.
  change (ml (leap_year y) 12) with 31 in A3.
  change "31, 1969 23:59:59 UTC" with (two_digits 31 ++ ", " ++ dec 1969 ++ " 23:59:59 UTC") in F. apply two_digits_inj in F as [<- F]; [|reflexivity|lia]. injection F as F. change "1969 23:59:59 UTC" with (dec 1969 ++ " 23:59:59 UTC") in F.
  pose proof (f_equal (digits 0) F) as K. rewrite !digits_dec in K by (intros c rest Q; injection Q as <- _; reflexivity). injection K as K _. lia.
Qed.
Print Assumptions C108_large_refuted.

(** The second of the tests, two leap days, the last day of a year that is no leap year, and
    a year of five digits. *)
Example C108_inhabited :
  format_date 1576892379 = "Dec 21, 2019 01:39:39 UTC" /\ format_date 951782400 = "Feb 29, 2000 00:00:00 UTC"
  /\ format_date 1709251199 = "Feb 29, 2024 23:59:59 UTC" /\ format_date 4133980799 = "Dec 31, 2100 23:59:59 UTC"
  /\ format_date 253402300800 = "Jan 01, 10000 00:00:00 UTC"
  /\ date_of 951782400 "Feb 29, 2000 00:00:00 UTC" /\ ~ date_of 951782401 "Feb 29, 2000 00:00:00 UTC"
  /\ leap 2000 /\ ~ leap 2100.
Proof.
  assert (A : date_of 951782400 "Feb 29, 2000 00:00:00 UTC").
  { replace "Feb 29, 2000 00:00:00 UTC" with (format_date 951782400) by (vm_compute; reflexivity). apply C108_date_partial. reflexivity. }
  do 5 (split; [vm_compute; reflexivity|]). split; [exact A|]. split; [intros H; discriminate (C108_one_second _ _ _ A H)|].
  split; [apply leap_spec; reflexivity|rewrite <- leap_spec; discriminate].
Qed.
