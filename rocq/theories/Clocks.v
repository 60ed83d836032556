(** The clocks of pkg/clock/provider that a store can be given. *)
From Verif Require Import Base.

(** sequentialclock/sequential_clock.go:7-19: one second later at every call. *)
Definition sequential : N := 0.
Definition sequential_now (seconds : N) : N * N := (seconds, seconds + 1).

(** seededclock/seeded_clock.go:7-31: the given times over and over. *)
Record seeded := mk_seeded { times : list N; index : nat }.
Definition seeded_new (ts : list N) : seeded :=
  mk_seeded (match ts with [] => [0] | _ => ts end) 0.
Definition seeded_now (s : seeded) : N * seeded :=
  let i := if Nat.leb (length (times s)) (index s) then 0%nat else index s in
  (nth i (times s) 0, mk_seeded (times s) (S i)).

(** What [n] calls of Now return. *)
Fixpoint ticks {C} (now : C -> N * C) (s : C) (n : nat) : list N :=
  match n with O => [] | S k => let (t, s') := now s in t :: ticks now s' k end.
