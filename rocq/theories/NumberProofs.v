(** The model's reading of numbers is that of NumberSpec. *)
From Verif Require Import Base DecText Text NumberSpec.
Open Scope string_scope.
Open Scope N_scope.

Lemma digits_reads s : forall acc v, digits acc s = (v, "") <-> decimal_digits s /\ base_ten acc s = v.
Proof.
  induction s as [|a s IH]; intros acc v; cbn [digits decimal_digits base_ten].
  - split; [intros E; injection E as ->; auto|intros [_ ->]; reflexivity].
  - unfold digit, digit_value. destruct ((48 <=? N_of_ascii a) && (N_of_ascii a <=? 57)) eqn:E.
    + rewrite IH. apply andb_prop in E as [E1 E2]. apply N.leb_le in E1, E2. tauto.
    + split; [discriminate|]. intros [[[K1 K2] _] _]. apply N.leb_le in K1, K2. rewrite K1, K2 in E. discriminate.
Qed.

Lemma parse_reads s n : parse_uint s = Some n <-> numeral s n.
Proof.
  unfold parse_uint, numeral. change two64 with (2 ^ 64). destruct s as [|a s]; [split; [discriminate|intros [K _]; congruence]|].
  destruct (digits 0 (String a s)) as [v rest] eqn:E. split.
  - destruct rest; [|discriminate]. destruct (N.ltb_spec v (2 ^ 64)) as [L|L]; [|discriminate]. intros K. injection K as <-.
    apply digits_reads in E as [E1 E2]. repeat split; auto; try discriminate; now destruct E1.
  - intros (_ & K1 & K2 & K3). pose proof (proj2 (digits_reads (String a s) 0 n) (conj K1 K2)) as F. rewrite F in E. injection E as <- <-.
    apply N.ltb_lt in K3. now rewrite K3.
Qed.
Lemma parse_reads_not s : parse_uint s = None <-> forall n, ~ numeral s n.
Proof.
  split.
  - intros H n K. apply parse_reads in K. congruence.
  - intros H. destruct (parse_uint s) as [n|] eqn:E; [|reflexivity]. apply parse_reads in E. now apply H in E.
Qed.
