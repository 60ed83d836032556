(** Decimal numerals as Go's fmt verb %d writes unsigned numbers, and reading them. *)
From Coq Require Import DecimalString DecimalN.
From Coq Require Decimal.
From Verif Require Import Base.

(** fmt.Sprintf("%d", n) *)
Definition dec (n : N) : string := NilEmpty.string_of_uint (N.to_uint n).

Definition digit (a : ascii) : option N :=
  let n := N_of_ascii a in if (48 <=? n) && (n <=? 57) then Some (n - 48) else None.

(** The number the digits at the front of [s] continue [a] to. *)
Fixpoint digits (a : N) (s : string) : N * string :=
  match s with
  | EmptyString => (a, s)
  | String c rest => match digit c with Some d => digits (10 * a + d) rest | None => (a, s) end
  end.

Fixpoint all_digits (s : string) : Prop :=
  match s with EmptyString => True | String c rest => digit c <> None /\ all_digits rest end.

Fixpoint uval (a : N) (u : Decimal.uint) : N :=
  match u with
  | Decimal.Nil => a
  | Decimal.D0 u => uval (10 * a) u
  | Decimal.D1 u => uval (10 * a + 1) u
  | Decimal.D2 u => uval (10 * a + 2) u
  | Decimal.D3 u => uval (10 * a + 3) u
  | Decimal.D4 u => uval (10 * a + 4) u
  | Decimal.D5 u => uval (10 * a + 5) u
  | Decimal.D6 u => uval (10 * a + 6) u
  | Decimal.D7 u => uval (10 * a + 7) u
  | Decimal.D8 u => uval (10 * a + 8) u
  | Decimal.D9 u => uval (10 * a + 9) u
  end.

Lemma acc_uval u : forall p, Npos (Pos.of_uint_acc u p) = uval (Npos p) u.
Proof.
  induction u; intros p; cbn [Pos.of_uint_acc uval]; auto; rewrite IHu; f_equal; lia.
Qed.
Lemma of_uint_uval u : N.of_uint u = uval 0 u.
Proof. unfold N.of_uint. induction u; cbn [Pos.of_uint uval]; auto; rewrite ?acc_uval; try reflexivity. Qed.

Lemma uval_to n : uval 0 (N.to_uint n) = n.
Proof. rewrite <- of_uint_uval. apply Unsigned.of_to. Qed.

Lemma digits_uint u s : forall a, (forall c rest, s = String c rest -> digit c = None) ->
  digits a (NilEmpty.string_of_uint u ++ s) = (uval a u, s).
Proof.
  intros a Hs. revert a. induction u; intros a; cbn [NilEmpty.string_of_uint append digits uval];
    try (change (digit _) with (Some 0); cbn; fail).
  - destruct s as [|c rest]; cbn; auto. now rewrite (Hs c rest).
  - change (digit "0"%char) with (Some 0). cbn iota. rewrite N.add_0_r. apply IHu.
  - change (digit "1"%char) with (Some 1). apply IHu.
  - change (digit "2"%char) with (Some 2). apply IHu.
  - change (digit "3"%char) with (Some 3). apply IHu.
  - change (digit "4"%char) with (Some 4). apply IHu.
  - change (digit "5"%char) with (Some 5). apply IHu.
  - change (digit "6"%char) with (Some 6). apply IHu.
  - change (digit "7"%char) with (Some 7). apply IHu.
  - change (digit "8"%char) with (Some 8). apply IHu.
  - change (digit "9"%char) with (Some 9). apply IHu.
Qed.

Lemma digits_dec n s : (forall c rest, s = String c rest -> digit c = None) -> digits 0 (dec n ++ s) = (n, s).
Proof. intros H. unfold dec. rewrite digits_uint by auto. now rewrite uval_to. Qed.

Lemma dec_all n : all_digits (dec n).
Proof. unfold dec. induction (N.to_uint n); cbn; auto; split; auto; discriminate. Qed.

Lemma to_uint_nonnil n : N.to_uint n <> Decimal.Nil.
Proof.
  destruct n; [discriminate|]. intros E.
  assert (H : N.of_uint (N.to_uint (Npos p)) = 0) by now rewrite E. rewrite Unsigned.of_to in H. discriminate.
Qed.
Lemma dec_head n : exists c rest, dec n = String c rest /\ digit c <> None.
Proof. unfold dec. pose proof (to_uint_nonnil n). destruct (N.to_uint n); try contradiction; cbn; eexists _, _; split; try reflexivity; discriminate. Qed.

Lemma dec_inj n m : dec n = dec m -> n = m.
Proof.
  intros E. assert (H : digits 0 (dec n ++ "") = digits 0 (dec m ++ "")) by now rewrite E.
  rewrite !digits_dec in H by discriminate. congruence.
Qed.
