(** Independent vocabulary: numbers written in decimal. *)
From Verif Require Import Base.
Open Scope N_scope.

(** A numeral: digits only, read in base ten. *)
Definition digit_value (a : ascii) : N := N_of_ascii a - 48.
Fixpoint decimal_digits (s : string) : Prop :=
  match s with
  | EmptyString => True
  | String a rest => (48 <= N_of_ascii a /\ N_of_ascii a <= 57) /\ decimal_digits rest
  end.
Fixpoint base_ten (acc : N) (s : string) : N :=
  match s with EmptyString => acc | String a rest => base_ten (10 * acc + digit_value a) rest end.

(** The text is a decimal numeral for the number, which fits in 64 bits. *)
Definition numeral (s : string) (n : N) : Prop :=
  s <> ""%string /\ decimal_digits s /\ base_ten 0 s = n /\ n < 2 ^ 64.
