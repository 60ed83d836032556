(** Printing and reading JSON texts. *)
From Coq Require Import ZArith PeanoNat.
From Verif Require Import Base DecText Text Json JsonProofs JsonText JsonTextSpec.
Open Scope string_scope.
Open Scope N_scope.

(** * Bytes *)

Lemma between_spec lo hi n : between lo hi n = true <-> lo <= n <= hi.
Proof. unfold between. rewrite andb_true_iff, !N.leb_le. reflexivity. Qed.

Lemma byte_bound a : N_of_ascii a < 256.
Proof. apply N_ascii_bounded. Qed.

Lemma byte_back n : n < 256 -> N_of_ascii (ascii_of_N n) = n.
Proof. apply N_ascii_embedding. Qed.

Lemma rune2 a b x y : rune_len (String a (String b x)) = 2%nat -> rune_len (String a (String b y)) = 2%nat.
Proof.
  cbn [rune_len]. intros H.
  destruct (N_of_ascii a <? 128); [discriminate|].
  destruct (between 194 223 _); [exact H|].
  destruct x as [|c x]; [discriminate|].
  destruct (between 224 239 _).
  { destruct (_ && _) in H; discriminate. }
  destruct x as [|d x]; [discriminate|]. destruct (_ && _) in H; discriminate.
Qed.

Lemma rune3 a b c x y : rune_len (String a (String b (String c x))) = 3%nat -> rune_len (String a (String b (String c y))) = 3%nat.
Proof.
  cbn [rune_len]. intros H.
  destruct (N_of_ascii a <? 128); [discriminate|].
  destruct (between 194 223 _). { destruct (cont _); discriminate. }
  destruct (between 224 239 _); [exact H|].
  destruct x as [|d x]; [discriminate|]. destruct (_ && _) in H; discriminate.
Qed.

Lemma rune4 a b c d x y : rune_len (String a (String b (String c (String d x)))) = 4%nat ->
  rune_len (String a (String b (String c (String d y)))) = 4%nat.
Proof. cbn [rune_len]. auto. Qed.

Lemma rune1 a x : rune_len (String a x) = 1%nat <-> N_of_ascii a < 128.
Proof.
  rewrite <- N.ltb_lt. cbn [rune_len]. split; intros H.
  - destruct (N_of_ascii a <? 128); [reflexivity|].
    destruct x as [|b x]; [discriminate|].
    destruct (between 194 223 _). { destruct (cont _); discriminate. }
    destruct x as [|c x]; [discriminate|].
    destruct (between 224 239 _). { destruct (_ && _) in H; discriminate. }
    destruct x as [|d x]; [discriminate|]. destruct (_ && _) in H; discriminate.
  - rewrite H. reflexivity.
Qed.

Lemma rune_shape s : match rune_len s with
  | 2%nat => exists a b x, s = String a (String b x)
  | 3%nat => exists a b c x, s = String a (String b (String c x))
  | 4%nat => exists a b c d x, s = String a (String b (String c (String d x)))
  | S (S (S (S (S _)))) => False
  | _ => True
  end.
Proof.
  destruct s as [|a s]; [exact Logic.I|]. cbn [rune_len].
  destruct (N_of_ascii a <? 128); [exact Logic.I|].
  destruct s as [|b s]; [exact Logic.I|].
  destruct (between 194 223 _). { destruct (cont _); [eauto|exact Logic.I]. }
  destruct s as [|c s]; [exact Logic.I|].
  destruct (between 224 239 _). { destruct (_ && _); [eauto 6|exact Logic.I]. }
  destruct s as [|d s]; [exact Logic.I|]. destruct (_ && _); [eauto 8|exact Logic.I].
Qed.

(** What becomes of a byte string on its way through a JSON text. *)
Fixpoint repair (s : string) : string :=
  match s with
  | EmptyString => ""
  | String a r =>
      match rune_len s, r with
      | 1%nat, _ => String a (repair r)
      | 2%nat, String b r2 => String a (String b (repair r2))
      | 3%nat, String b (String c r3) => String a (String b (String c (repair r3)))
      | 4%nat, String b (String c (String d r4)) => String a (String b (String c (String d (repair r4))))
      | _, _ => replacement ++ repair r
      end
  end.

Lemma then_some t x r : then_ t (Some (x, r)) = Some (t ++ x, r).
Proof. reflexivity. Qed.

Lemma escape_back a r : N_of_ascii a < 128 -> string_body (escape_byte a ++ r) = then_ (String a "") (string_body r).
Proof.
  intros H. destruct a as [[] [] [] [] [] [] [] []]; try (exfalso; revert H; vm_compute; discriminate);
    cbn [escape_byte]; vm_compute (escape_byte _); reflexivity.
Qed.

Lemma high_not a : 128 <= N_of_ascii a ->
  Ascii.eqb a quote_char = false /\ Ascii.eqb a backslash = false /\ (N_of_ascii a <? 32) = false.
Proof.
  intros H. repeat split.
  - apply Ascii.eqb_neq. intros ->. vm_compute in H. auto.
  - apply Ascii.eqb_neq. intros ->. vm_compute in H. auto.
  - apply N.ltb_ge. lia.
Qed.

Lemma high2 a b r : rune_len (String a (String b r)) = 2%nat ->
  string_body (String a (String b r)) = then_ (String a (String b "")) (string_body r).
Proof.
  intros H. assert (Hh : 128 <= N_of_ascii a).
  { destruct (N.lt_ge_cases (N_of_ascii a) 128) as [L|L]; [|exact L].
    apply (proj2 (rune1 a (String b r))) in L. congruence. }
  destruct (high_not _ Hh) as (E1 & E2 & E3).
  cbn [string_body]. rewrite E1, E2, E3, H. reflexivity.
Qed.
Lemma high3 a b c r : rune_len (String a (String b (String c r))) = 3%nat ->
  string_body (String a (String b (String c r))) = then_ (String a (String b (String c ""))) (string_body r).
Proof.
  intros H. assert (Hh : 128 <= N_of_ascii a).
  { destruct (N.lt_ge_cases (N_of_ascii a) 128) as [L|L]; [|exact L].
    apply (proj2 (rune1 a (String b (String c r)))) in L. congruence. }
  destruct (high_not _ Hh) as (E1 & E2 & E3).
  cbn [string_body]. rewrite E1, E2, E3, H. reflexivity.
Qed.
Lemma high4 a b c d r : rune_len (String a (String b (String c (String d r)))) = 4%nat ->
  string_body (String a (String b (String c (String d r)))) = then_ (String a (String b (String c (String d "")))) (string_body r).
Proof.
  intros H. assert (Hh : 128 <= N_of_ascii a).
  { destruct (N.lt_ge_cases (N_of_ascii a) 128) as [L|L]; [|exact L].
    apply (proj2 (rune1 a (String b (String c (String d r))))) in L. congruence. }
  destruct (high_not _ Hh) as (E1 & E2 & E3).
  cbn [string_body]. rewrite E1, E2, E3, H. reflexivity.
Qed.

Lemma quote_back_all n : forall s t, (String.length s <= n)%nat ->
  string_body (quote_body s ++ String quote_char t) = Some (repair s, t).
Proof.
  induction n as [|n IH]; intros s t Hn.
  { destruct s; [reflexivity|cbn in Hn; lia]. }
  destruct s as [|a r]; [reflexivity|]. cbn [String.length] in Hn.
  pose proof (rune_shape (String a r)) as Hs.
  cbn [quote_body repair].
  destruct (rune_len (String a r)) as [|[|[|[|[|k]]]]] eqn:E; try contradiction.
  - rewrite app_assoc_s. cbn [append]. 
    change (string_body _) with (then_ (utf8 65533) (string_body (quote_body r ++ String quote_char t))).
    rewrite IH by lia. reflexivity.
  - rewrite app_assoc_s, escape_back by (apply rune1 in E; exact E).
    rewrite IH by lia. reflexivity.
  - destruct Hs as (a' & b & x & Hs). injection Hs as <- ->.
    cbn [append String.length] in *. rewrite high2 by (eapply rune2; exact E).
    rewrite IH by lia. reflexivity.
  - destruct Hs as (a' & b & c & x & Hs). injection Hs as <- ->. cbn [String.length] in Hn.
    destruct (_ && _ && _) eqn:L.
    + apply andb_true_iff in L as [L L3]. apply andb_true_iff in L as [L1 L2].
      apply N.eqb_eq in L1, L2. apply between_spec in L3.
      assert (Ha : a = "226"%char) by (rewrite <- (ascii_N_embedding a), L1; reflexivity).
      assert (Hb : b = "128"%char) by (rewrite <- (ascii_N_embedding b), L2; reflexivity).
      assert (Hc : c = "168"%char \/ c = "169"%char).
      { assert (N_of_ascii c = 168 \/ N_of_ascii c = 169) as [Q|Q] by lia;
          [left|right]; rewrite <- (ascii_N_embedding c), Q; reflexivity. }
      subst a b. rewrite app_assoc_s. cbn [append].
      destruct Hc; subst c; cbn [append].
      * change (string_body _) with (then_ (utf8 8232) (string_body (quote_body x ++ String quote_char t))).
        rewrite IH by lia. reflexivity.
      * change (string_body _) with (then_ (utf8 8233) (string_body (quote_body x ++ String quote_char t))).
        rewrite IH by lia. reflexivity.
    + cbn [append]. rewrite high3 by (eapply rune3; exact E). rewrite IH by lia. reflexivity.
  - destruct Hs as (a' & b & c & d & x & Hs). injection Hs as <- ->. cbn [String.length] in Hn.
    cbn [append]. rewrite high4 by (eapply rune4; exact E). rewrite IH by lia. reflexivity.
Qed.

Lemma quote_back s t : string_body (quote_body s ++ String quote_char t) = Some (repair s, t).
Proof. apply (quote_back_all (String.length s)). lia. Qed.

(** * Well-formed texts *)

Lemma utf8_rune u t : scalar u -> rune_len (utf8 u ++ t) = String.length (utf8 u)
  /\ (forall x, repair (utf8 u ++ x) = utf8 u ++ repair x).
Proof.
  intros Hu. unfold scalar in Hu. unfold utf8.
  destruct (u <? 128) eqn:E1; [apply N.ltb_lt in E1|apply N.ltb_ge in E1].
  { assert (R : forall x, rune_len (String (ascii_of_N u) x) = 1%nat) by (intros x; apply rune1; rewrite byte_back; lia).
    cbn [append String.length]. split; [apply R|intros x]. cbn [repair]. rewrite R. reflexivity. }
  destruct (u <? 2048) eqn:E2; [apply N.ltb_lt in E2|apply N.ltb_ge in E2].
  { assert (B1 : 2 <= u / 64 < 32).
    { split; [apply N.div_le_lower_bound; lia|apply N.div_lt_upper_bound; lia]. }
    assert (B2 : u mod 64 < 64) by (apply N.mod_lt; lia).
    generalize dependent (u mod 64). generalize dependent (u / 64). intros q B1 m B2.
    assert (R : forall x, rune_len (String (ascii_of_N (192 + q)) (String (ascii_of_N (128 + m)) x)) = 2%nat).
    { intros x. cbn [rune_len]. rewrite !byte_back by lia.
      replace (192 + q <? 128) with false by (symmetry; apply N.ltb_ge; lia).
      replace (between 194 223 (192 + q)) with true by (symmetry; apply between_spec; lia).
      unfold cont. replace (between 128 191 (128 + m)) with true by (symmetry; apply between_spec; lia). reflexivity. }
    cbn [append String.length]. split; [apply R|intros x]. cbn [repair]. rewrite R. reflexivity. }
  destruct (u <? 65536) eqn:E3; [apply N.ltb_lt in E3|apply N.ltb_ge in E3].
  { assert (B1 : u / 4096 < 16) by (apply N.div_lt_upper_bound; lia).
    assert (B2 : u mod 64 < 64) by (apply N.mod_lt; lia).
    assert (B3 : u / 64 mod 64 < 64) by (apply N.mod_lt; lia).
    assert (D : u / 64 = 64 * (u / 4096) + u / 64 mod 64).
    { replace (u / 4096) with (u / 64 / 64) by (rewrite N.div_div by lia; reflexivity). apply N.div_mod. lia. }
    assert (D2 : u = 64 * (u / 64) + u mod 64) by (apply N.div_mod; lia).
    remember (u mod 64) as m eqn:X1; clear X1. remember (u / 64 mod 64) as m2 eqn:X2; clear X2. remember (u / 4096) as q4 eqn:X3; clear X3.
    assert (R : forall x, rune_len (String (ascii_of_N (224 + q4)) (String (ascii_of_N (128 + m2)) (String (ascii_of_N (128 + m)) x))) = 3%nat).
    { intros x. cbn [rune_len]. rewrite !byte_back by lia.
      replace (224 + q4 <? 128) with false by (symmetry; apply N.ltb_ge; lia).
      replace (between 194 223 (224 + q4)) with false by (symmetry; apply not_true_iff_false; rewrite between_spec; lia).
      replace (between 224 239 (224 + q4)) with true by (symmetry; apply between_spec; lia).
      match goal with |- context [between ?lo ?hi (128 + m2)] => replace (between lo hi (128 + m2)) with true end.
      2:{ symmetry. apply between_spec.
          destruct (N.eqb_spec (224 + q4) 224); destruct (N.eqb_spec (224 + q4) 240);
          destruct (N.eqb_spec (224 + q4) 237); destruct (N.eqb_spec (224 + q4) 244); lia. }
      unfold cont. replace (between 128 191 (128 + m)) with true by (symmetry; apply between_spec; lia). reflexivity. }
    cbn [append String.length]. split; [apply R|intros x]. cbn [repair]. rewrite R. reflexivity. }
  { assert (B1 : u / 262144 < 5) by (apply N.div_lt_upper_bound; lia).
    assert (B2 : u mod 64 < 64) by (apply N.mod_lt; lia).
    assert (B3 : u / 64 mod 64 < 64) by (apply N.mod_lt; lia).
    assert (B4 : u / 4096 mod 64 < 64) by (apply N.mod_lt; lia).
    assert (D0 : u / 4096 = 64 * (u / 262144) + u / 4096 mod 64).
    { replace (u / 262144) with (u / 4096 / 64) by (rewrite N.div_div by lia; reflexivity). apply N.div_mod. lia. }
    assert (D : u / 64 = 64 * (u / 4096) + u / 64 mod 64).
    { replace (u / 4096) with (u / 64 / 64) by (rewrite N.div_div by lia; reflexivity). apply N.div_mod. lia. }
    assert (D2 : u = 64 * (u / 64) + u mod 64) by (apply N.div_mod; lia).
    remember (u mod 64) as m eqn:X1; clear X1. remember (u / 64 mod 64) as m2 eqn:X2; clear X2. remember (u / 4096 mod 64) as m4 eqn:X3; clear X3. remember (u / 262144) as q6 eqn:X4; clear X4.
    assert (R : forall x, rune_len (String (ascii_of_N (240 + q6)) (String (ascii_of_N (128 + m4)) (String (ascii_of_N (128 + m2)) (String (ascii_of_N (128 + m)) x)))) = 4%nat).
    { intros x. cbn [rune_len]. rewrite !byte_back by lia.
      replace (240 + q6 <? 128) with false by (symmetry; apply N.ltb_ge; lia).
      replace (between 194 223 (240 + q6)) with false by (symmetry; apply not_true_iff_false; rewrite between_spec; lia).
      replace (between 224 239 (240 + q6)) with false by (symmetry; apply not_true_iff_false; rewrite between_spec; lia).
      replace (between 240 244 (240 + q6)) with true by (symmetry; apply between_spec; lia).
      match goal with |- context [between ?lo ?hi (128 + m4)] => replace (between lo hi (128 + m4)) with true end.
      2:{ symmetry. apply between_spec.
          destruct (N.eqb_spec (240 + q6) 224); destruct (N.eqb_spec (240 + q6) 240);
          destruct (N.eqb_spec (240 + q6) 237); destruct (N.eqb_spec (240 + q6) 244); lia. }
      unfold cont.
      replace (between 128 191 (128 + m2)) with true by (symmetry; apply between_spec; lia).
      replace (between 128 191 (128 + m)) with true by (symmetry; apply between_spec; lia). reflexivity. }
    cbn [append String.length]. split; [apply R|intros x]. cbn [repair]. rewrite R. reflexivity. }
Qed.

Lemma repair_text s : is_text s -> repair s = s.
Proof.
  intros (us & Hus & ->). induction Hus as [|u us Hu _ IH]; [reflexivity|].
  cbn [fold_right]. rewrite (proj2 (utf8_rune u "" Hu)), IH. reflexivity.
Qed.

Lemma text_back s t : is_text s -> string_body (quote_body s ++ String quote_char t) = Some (s, t).
Proof. intros H. rewrite quote_back, repair_text by exact H. reflexivity. Qed.

(** * Numbers *)

Definition no_digit (t : string) : Prop := match t with EmptyString => True | String c _ => is_digit c = false end.

Lemma ends_no_digit t : ends_number t -> no_digit t.
Proof. destruct t; cbn; tauto. Qed.

Lemma digits_ext s t : forall d r, take_digits s = (d, r) -> r <> "" \/ no_digit t -> take_digits (s ++ t) = (d, r ++ t).
Proof.
  induction s as [|a s IH]; intros d r H Hr.
  - injection H as <- <-. destruct Hr as [Hr|Hr]; [congruence|]. destruct t as [|c t]; [reflexivity|].
    cbn in Hr |- *. rewrite Hr. reflexivity.
  - cbn [take_digits append] in *. destruct (is_digit a) eqn:E.
    + destruct (take_digits s) as [d' r'] eqn:Es. injection H as <- <-.
      rewrite (IH d' r' eq_refl Hr). reflexivity.
    + injection H as <- <-. reflexivity.
Qed.

Lemma int_ext s t d r : int_part s = Some (d, r) -> r <> "" \/ no_digit t -> int_part (s ++ t) = Some (d, r ++ t).
Proof.
  destruct s as [|a s]; [discriminate|]. cbn [int_part append].
  destruct (Ascii.eqb a "0"). { intros [= <- <-] _. reflexivity. }
  destruct (is_digit a); [|discriminate]. intros [= H] Hr.
  f_equal. apply (digits_ext (String a s) t d r H Hr).
Qed.

Lemma frac_ext s t d r : frac_part s = Some (d, r) -> r <> "" \/ ends_number t -> frac_part (s ++ t) = Some (d, r ++ t).
Proof.
  destruct s as [|a s]; cbn [frac_part append].
  - intros [= <- <-] [H|H]; [congruence|]. destruct t as [|c t]; [reflexivity|]. cbn in H |- *.
    destruct (Ascii.eqb_spec c "."); [tauto|reflexivity].
  - destruct (Ascii.eqb a "."). 2:{ intros [= <- <-] _. reflexivity. }
    destruct (take_digits s) as [d' r'] eqn:E. intros H Hr.
    destruct d' as [|c d']; [discriminate|]. injection H as <- <-.
    rewrite (digits_ext s t _ _ E) by (destruct Hr as [Hr|Hr]; [left|right; apply ends_no_digit]; assumption). reflexivity.
Qed.

Lemma exp_ext s t d r : exp_part s = Some (d, r) -> r <> "" \/ ends_number t -> exp_part (s ++ t) = Some (d, r ++ t).
Proof.
  destruct s as [|a s]; cbn [exp_part append].
  - intros [= <- <-] [H|H]; [congruence|]. destruct t as [|c t]; [reflexivity|]. cbn in H |- *.
    destruct (Ascii.eqb_spec c "e"); [tauto|]. destruct (Ascii.eqb_spec c "E"); [tauto|]. reflexivity.
  - destruct (_ || _). 2:{ intros [= <- <-] _. reflexivity. }
    destruct s as [|b s]; cbn [append].
    { cbn. discriminate. }
    set (p := if _ || _ then _ else _) at 1. set (q := if _ || _ then _ else _) at 1.
    assert (Hpq : q = (fst p, snd p ++ t)) by (unfold p, q; destruct (_ || _); reflexivity).
    rewrite Hpq. clearbody p. clear q Hpq. destruct p as [sg r1]. cbn [fst snd].
    destruct (take_digits r1) as [d' r'] eqn:E. intros H Hr.
    destruct d' as [|c d']; [discriminate|]. injection H as <- <-.
    rewrite (digits_ext r1 t _ _ E) by (destruct Hr as [Hr|Hr]; [left|right; apply ends_no_digit]; assumption). reflexivity.
Qed.

Lemma exp_end d r : exp_part "" = Some (d, r) -> r = "".
Proof. intros [= _ <-]. reflexivity. Qed.
Lemma frac_end d r : frac_part "" = Some (d, r) -> r = "".
Proof. intros [= _ <-]. reflexivity. Qed.

Lemma scan_ext s t n r : scan_number s = Some (n, r) -> r <> "" \/ ends_number t -> scan_number (s ++ t) = Some (n, r ++ t).
Proof.
  unfold scan_number. intros H Hr.
  assert (Hs : s <> "") by (intros ->; discriminate).
  assert (Ht : split_sign (s ++ t) = (fst (split_sign s), snd (split_sign s) ++ t)).
  { destruct s as [|a s]; [congruence|]. cbn. destruct (Ascii.eqb a "-"); reflexivity. }
  rewrite Ht. destruct (split_sign s) as [neg s1]. cbn [fst snd].
  destruct (int_part s1) as [[i s2]|] eqn:E1; [|discriminate].
  destruct (frac_part s2) as [[fr s3]|] eqn:E2; [|discriminate].
  destruct (exp_part s3) as [[ex s4]|] eqn:E3; [|discriminate].
  injection H as <- <-.
  assert (H3 : s3 <> "" \/ ends_number t).
  { destruct Hr as [Hr|Hr]; [left|right; exact Hr]. intros ->. apply exp_end in E3. congruence. }
  assert (H2 : s2 <> "" \/ ends_number t).
  { destruct H3 as [H3|H3]; [left|right; exact H3]. intros ->. apply frac_end in E2. congruence. }
  rewrite (int_ext s1 t _ _ E1) by (destruct H2 as [H2|H2]; [left|right; apply ends_no_digit]; assumption).
  rewrite (frac_ext s2 t _ _ E2 H3), (exp_ext s3 t _ _ E3 Hr). reflexivity.
Qed.

Lemma is_digit_digit a : is_digit a = true <-> digit a <> None.
Proof. destruct a as [[] [] [] [] [] [] [] []]; vm_compute; split; congruence. Qed.

Lemma take_all d : all_digits d -> take_digits d = (d, "").
Proof.
  induction d as [|a d IH]; [reflexivity|]. cbn [all_digits take_digits]. intros [Ha Hd].
  apply is_digit_digit in Ha. rewrite Ha, IH by exact Hd. reflexivity.
Qed.

Lemma dec_lead n c r : dec n = String c r -> c = "0"%char -> r = "".
Proof.
  unfold dec. intros H ->.
  assert (Hn : N.to_uint n = Decimal.unorm (N.to_uint n)).
  { rewrite <- DecimalN.Unsigned.to_of, DecimalN.Unsigned.of_to. reflexivity. }
  destruct (N.to_uint n) as [|u|u|u|u|u|u|u|u|u|u]; cbn in H; try discriminate.
  injection H as <-. unfold Decimal.unorm in Hn. cbn [Decimal.nzhead] in Hn.
  destruct (Decimal.nzhead u) eqn:E; try discriminate.
  - injection Hn as ->. reflexivity.
  - exfalso. exact (DecimalFacts.nzhead_nonzero _ _ E).
Qed.

Lemma int_part_text i : (i = "0" \/ exists c r, i = String c r /\ all_digits i /\ c <> "0"%char) -> int_part i = Some (i, "").
Proof.
  intros [->|(c & r & -> & Hd & Hc)]; [reflexivity|]. cbn [int_part].
  apply Ascii.eqb_neq in Hc. rewrite Hc. rewrite (take_all _ Hd).
  replace (is_digit c) with true by (symmetry; apply is_digit_digit; apply Hd). reflexivity.
Qed.

Lemma dec_int n : dec n = "0" \/ exists c r, dec n = String c r /\ all_digits (dec n) /\ c <> "0"%char.
Proof.
  destruct (dec_head n) as (c & r & E & _). destruct (ascii_dec c "0") as [->|Hc].
  - left. rewrite E, (dec_lead _ _ _ E eq_refl). reflexivity.
  - right. exists c, r. rewrite E at 1. split; [reflexivity|]. split; [apply dec_all|exact Hc].
Qed.

Lemma digits_value n : fst (digits 0 (dec n)) = n.
Proof.
  pose proof (digits_dec n "") as H. rewrite app_nil_s in H. rewrite H; [reflexivity|].
  intros c rest Hc. discriminate.
Qed.

Lemma dec_not_minus n r : dec n <> String "-" r.
Proof. intros H. destruct (dec_head n) as (c & r' & E & Hd). rewrite E in H. injection H as -> ->. apply Hd. reflexivity. Qed.

Lemma int_back z : scan_number (print_int z) = Some (Int z, "").
Proof.
  assert (P : forall n, scan_number (dec n) = Some (Int (Z.of_N n), "")).
  { intros n. unfold scan_number.
    replace (split_sign (dec n)) with (false, dec n).
    2:{ destruct (dec n) as [|a r] eqn:E; [reflexivity|]. cbn. destruct (Ascii.eqb_spec a "-") as [->|]; [|reflexivity].
        exfalso. exact (dec_not_minus _ _ E). }
    rewrite (int_part_text _ (dec_int n)). cbn [frac_part exp_part]. rewrite digits_value. reflexivity. }
  unfold print_int. destruct z as [|p|p].
  - apply P.
  - rewrite P. rewrite Z2N.id by lia. reflexivity.
  - unfold scan_number. cbn [append split_sign]. rewrite Ascii.eqb_refl.
    rewrite (int_part_text _ (dec_int (Npos p))). cbn [frac_part exp_part]. rewrite digits_value. reflexivity.
Qed.

Lemma literal_back s : literal s -> scan_number s = Some (Lit s, "").
Proof.
  intros (neg & i & fr & ex & -> & Hi & Hf & He & Hx).
  assert (Hhead : exists c r, i = String c r /\ is_digit c = true).
  { destruct Hi as [->|(c & r & -> & Hd & _)]; [exists "0"%char, ""; split; reflexivity|].
    exists c, r. split; [reflexivity|]. apply is_digit_digit. apply Hd. }
  assert (Hs : split_sign ((if neg then "-" else "") ++ i ++ fr ++ ex) = (neg, i ++ fr ++ ex)).
  { destruct neg; [reflexivity|]. cbn [append]. destruct Hhead as (c & r & -> & Hc). cbn [append split_sign].
    destruct (Ascii.eqb_spec c "-") as [->|]; [discriminate|reflexivity]. }
  assert (Eex : exp_part ex = Some (ex, "")).
  { destruct He as [->|(e & sg & d & -> & He' & Hsg & Hd & Hne)]; [reflexivity|].
    unfold exp_part. replace (Ascii.eqb e "e" || Ascii.eqb e "E") with true by (destruct He'; subst e; reflexivity).
    assert (Q : match sg ++ d with
                | "" => ("", "")
                | String b r1 => if Ascii.eqb b "+" || Ascii.eqb b "-" then (String b "", r1) else ("", sg ++ d)
                end = (sg, d)).
    { destruct Hsg as [->|[->| ->]]; [|reflexivity|reflexivity]. cbn [append].
      destruct d as [|b d']; [congruence|]. destruct Hd as [Hb _]. apply is_digit_digit in Hb.
      destruct (Ascii.eqb_spec b "+") as [->|]; [discriminate|].
      destruct (Ascii.eqb_spec b "-") as [->|]; [discriminate|]. reflexivity. }
    rewrite Q, (take_all _ Hd). destruct d; [congruence|reflexivity]. }
  assert (Efr : frac_part (fr ++ ex) = Some (fr, ex)).
  { destruct Hf as [->|(d & -> & Hd & Hne)].
    - cbn [append]. destruct He as [->|(e & sg & d & -> & He' & _)]; [reflexivity|].
      cbn. destruct He'; subst e; reflexivity.
    - assert (F : frac_part ("." ++ d) = Some ("." ++ d, "")).
      { cbn. rewrite (take_all _ Hd). destruct d; [congruence|reflexivity]. }
      destruct He as [->|(e & sg & d' & -> & He' & _)].
      + rewrite app_nil_s. exact F.
      + cbn [append frac_part]. cbn [append frac_part] in F. rewrite Ascii.eqb_refl in *.
        rewrite (digits_ext d _ d "" (take_all _ Hd)). 2:{ right. cbn. destruct He'; subst e; reflexivity. }
        destruct d; [congruence|reflexivity]. }
  assert (Ei : int_part (i ++ fr ++ ex) = Some (i, fr ++ ex)).
  { change (fr ++ ex) with ("" ++ (fr ++ ex)) at 2. apply int_ext; [apply int_part_text; exact Hi|].
    right. destruct Hf as [->|(d & -> & _)]; [|reflexivity].
    cbn [append]. destruct He as [->|(e & sg & d & -> & He' & _)]; [exact Logic.I|].
    cbn. destruct He'; subst e; reflexivity. }
  unfold scan_number. rewrite Hs, Ei, Efr, Eex. f_equal. f_equal.
  destruct fr; [|reflexivity]. destruct ex; [|reflexivity].
  destruct Hx as [Hx|[Hx|Hx]]; try congruence.
  destruct neg; cbn [append] in Hx.
  - injection Hx as Hx. rewrite app_nil_s in Hx. subst i. reflexivity.
  - exfalso. destruct Hhead as (c & r & -> & Hc). cbn in Hx. injection Hx as -> _. discriminate.
Qed.

Lemma number_back n t : number n -> ends_number t -> scan_number (print_num n ++ t) = Some (n, t).
Proof.
  intros Hn Ht. change t with ("" ++ t) at 2. apply scan_ext; [|right; exact Ht].
  destruct n as [z|s]; [apply int_back|]. cbn in Hn. apply literal_back in Hn.
  destruct s; [discriminate|exact Hn].
Qed.

(** * More fuel, more text *)

Lemma value_mono f : forall g, (f <= g)%nat ->
  (forall d s x, value f d s = Some x -> value g d s = Some x)
  /\ (forall d s x, elements f d s = Some x -> elements g d s = Some x)
  /\ (forall d s x, members f d s = Some x -> members g d s = Some x).
Proof.
  induction f as [|f IH]; intros g Hg; [split; [|split]; intros; discriminate|].
  destruct g as [|g]; [lia|]. destruct (IH g ltac:(lia)) as (IHv & IHe & IHm).
  split; [|split]; intros d s x H; cbn [value elements members] in H |- *.
  - destruct (skip s) as [|c r]; [discriminate|].
    destruct (Ascii.eqb c quote_char); [exact H|].
    destruct (Ascii.eqb c "[").
    { destruct (d =? 0); [discriminate|]. destruct (skip r) as [|c2 r2]; [discriminate|].
      destruct (Ascii.eqb c2 "]"); [exact H|].
      destruct (elements f (d - 1) r) as [[l r']|] eqn:E; [|discriminate]. rewrite (IHe _ _ _ E). exact H. }
    destruct (Ascii.eqb c "{").
    { destruct (d =? 0); [discriminate|]. destruct (skip r) as [|c2 r2]; [discriminate|].
      destruct (Ascii.eqb c2 "}"); [exact H|].
      destruct (members f (d - 1) r) as [[l r']|] eqn:E; [|discriminate]. rewrite (IHm _ _ _ E). exact H. }
    exact H.
  - destruct (value f d s) as [[v r]|] eqn:E; [|discriminate]. rewrite (IHv _ _ _ E).
    destruct (skip r) as [|c r']; [discriminate|]. destruct (Ascii.eqb c ","); [|exact H].
    destruct (elements f d r') as [[l r'']|] eqn:E2; [|discriminate]. rewrite (IHe _ _ _ E2). exact H.
  - destruct (skip s) as [|q r]; [discriminate|]. destruct (Ascii.eqb q quote_char); [|discriminate].
    destruct (string_body r) as [[k r1]|]; [|discriminate]. destruct (skip r1) as [|c r2]; [discriminate|].
    destruct (Ascii.eqb c ":"); [|discriminate].
    destruct (value f d r2) as [[v r3]|] eqn:E; [|discriminate]. rewrite (IHv _ _ _ E).
    destruct (skip r3) as [|c' r4]; [discriminate|]. destruct (Ascii.eqb c' ","); [|exact H].
    destruct (members f d r4) as [[l r'']|] eqn:E2; [|discriminate]. rewrite (IHm _ _ _ E2). exact H.
Qed.

Lemma skip_ext s t c r : skip s = String c r -> skip (s ++ t) = String c (r ++ t).
Proof.
  induction s as [|a s IH]; [discriminate|]. cbn. destruct (blank a); [exact IH|]. intros [= -> ->]. reflexivity.
Qed.

Lemma expect_ext w : forall s t r, expect w s = Some r -> expect w (s ++ t) = Some (r ++ t).
Proof.
  induction w as [|a w IH]; intros s t r H; cbn in *; [injection H as <-; reflexivity|].
  destruct s as [|b s]; [discriminate|]. cbn. destruct (Ascii.eqb a b); [|discriminate]. apply IH. exact H.
Qed.

(** Bytes above 0x7f do not end a string. *)
Fixpoint high (s : string) : Prop := match s with EmptyString => True | String a r => 128 <= N_of_ascii a /\ high r end.
Lemma high_open s : high s -> string_body s = None.
Proof.
  assert (G : forall n s, (String.length s <= n)%nat -> high s -> string_body s = None).
  { induction n as [|n IH]; intros u Hn Hh; [destruct u; [reflexivity|cbn in Hn; lia]|].
    destruct u as [|a r]; [reflexivity|]. cbn [String.length high] in *. destruct Hh as [Ha Hr].
    destruct (high_not _ Ha) as (E1 & E2 & E3). cbn [string_body]. rewrite E1, E2, E3.
    destruct (rune_len (String a r)) as [|[|[|[|[|k]]]]].
    - rewrite IH by (assumption || lia). reflexivity.
    - rewrite IH by (assumption || lia). reflexivity.
    - destruct r as [|b r]; [reflexivity|]. cbn [String.length high] in *. rewrite IH by (tauto || lia). reflexivity.
    - destruct r as [|b [|c r]]; [reflexivity| |]; cbn [String.length high] in *; rewrite IH by (cbn; tauto || lia); reflexivity.
    - destruct r as [|b [|c [|d r]]]; [reflexivity| | |]; cbn [String.length high] in *; rewrite IH by (cbn; tauto || lia); reflexivity.
    - rewrite IH by (assumption || lia). reflexivity. }
  apply (G (String.length s)). lia.
Qed.

Lemma rune_ext a s t : rune_len (String a s ++ t) = rune_len (String a s) \/ high (String a s).
Proof.
  cbn [append rune_len high]. destruct (N_of_ascii a <? 128) eqn:E; [left; reflexivity|]. apply N.ltb_ge in E.
  destruct s as [|b s]; [right; cbn; tauto|]. cbn [append].
  destruct (between 194 223 _) eqn:E2; [left; reflexivity|].
  destruct s as [|c s]; cbn [append].
  { destruct t as [|c t]; [left; reflexivity|].
    destruct (N.lt_ge_cases (N_of_ascii b) 128) as [L|L]; [|right; cbn; tauto].
    left. replace (between (if N_of_ascii a =? 224 then 160 else if N_of_ascii a =? 240 then 144 else 128)
             (if N_of_ascii a =? 237 then 159 else if N_of_ascii a =? 244 then 143 else 191) (N_of_ascii b)) with false.
    2:{ symmetry. apply not_true_iff_false. rewrite between_spec.
        destruct (N_of_ascii a =? 224); [lia|]. destruct (N_of_ascii a =? 240); lia. }
    rewrite andb_false_r. cbn [andb]. destruct (between 224 239 _); [reflexivity|]. destruct t; reflexivity. }
  destruct (between 224 239 _) eqn:E3; [left; reflexivity|].
  destruct s as [|d s]; cbn [append]; [|left; reflexivity].
  destruct t as [|d t]; [left; reflexivity|].
  destruct (N.lt_ge_cases (N_of_ascii b) 128) as [L|L].
  { left. replace (between (if N_of_ascii a =? 224 then 160 else if N_of_ascii a =? 240 then 144 else 128)
             (if N_of_ascii a =? 237 then 159 else if N_of_ascii a =? 244 then 143 else 191) (N_of_ascii b)) with false.
    2:{ symmetry. apply not_true_iff_false. rewrite between_spec.
        destruct (N_of_ascii a =? 224); [lia|]. destruct (N_of_ascii a =? 240); lia. }
    rewrite andb_false_r. reflexivity. }
  destruct (N.lt_ge_cases (N_of_ascii c) 128) as [L'|L']; [|right; cbn; tauto].
  left. unfold cont at 1. replace (between 128 191 (N_of_ascii c)) with false.
  2:{ symmetry. apply not_true_iff_false. rewrite between_spec. lia. }
  rewrite andb_false_r. reflexivity.
Qed.

Lemma low_ext s t : low_half (s ++ t) = low_half s \/ string_body s = None.
Proof.
  destruct s as [|x s]; [right; reflexivity|]. destruct s as [|y s].
  { cbn [append]. destruct (Ascii.eqb_spec x backslash) as [->|Hx]; [right; reflexivity|].
    left. cbn. apply Ascii.eqb_neq in Hx. rewrite Hx. cbn.
    destruct t as [|a [|b [|c [|d [|e t]]]]]; reflexivity. }
  destruct (Ascii.eqb_spec x backslash) as [->|Hx].
  2:{ left. apply Ascii.eqb_neq in Hx. cbn. rewrite Hx. cbn.
      destruct s as [|a [|b [|c [|d s]]]]; cbn; destruct t as [|a' [|b' [|c' [|d' t]]]]; reflexivity. }
  destruct (Ascii.eqb_spec y "u") as [->|Hy].
  2:{ left. apply Ascii.eqb_neq in Hy. cbn [low_half append]. rewrite Hy, andb_false_r.
      destruct s as [|a [|b [|c [|d s]]]]; cbn; destruct t as [|a' [|b' [|c' [|d' t]]]]; reflexivity. }
  destruct s as [|a [|b [|c [|d s]]]]; try (right; reflexivity). left. reflexivity.
Qed.

Lemma then_inv t o x r : then_ t o = Some (x, r) -> exists y, o = Some (y, r) /\ x = t ++ y.
Proof. destruct o as [[y r']|]; [|discriminate]. cbn. intros [= <- <-]. eauto. Qed.

Lemma string_ext_all n : forall s t x r, (String.length s <= n)%nat -> string_body s = Some (x, r) -> string_body (s ++ t) = Some (x, r ++ t).
Proof.
  induction n as [|n IH]; intros s t x r Hn H; [destruct s; [discriminate|cbn in Hn; lia]|].
  destruct s as [|a s]; [discriminate|]. cbn [String.length] in Hn.
  assert (Hr : rune_len (String a s ++ t) = rune_len (String a s)).
  { destruct (rune_ext a s t) as [E|E]; [exact E|]. apply high_open in E. congruence. }
  cbn [append] in Hr |- *. cbn [string_body] in H |- *.
  destruct (Ascii.eqb a quote_char). { injection H as <- <-. reflexivity. }
  destruct (Ascii.eqb a backslash).
  { destruct s as [|e s]; [discriminate|]. cbn [append String.length] in *.
    destruct (Ascii.eqb e "u").
    - destruct s as [|h1 [|h2 [|h3 [|h4 s]]]]; try discriminate. cbn [append String.length] in *.
      destruct (hex4 h1 h2 h3 h4) as [u|]; [|discriminate].
      destruct (between 55296 57343 u).
      + destruct (low_ext s t) as [E|E].
        2:{ exfalso. destruct (low_half s) eqn:El.
            - destruct s as [|x1 [|x2 [|x3 [|x4 [|x5 [|x6 s]]]]]]; try discriminate.
              destruct (u <? 56320).
              + cbn in El. destruct (Ascii.eqb x1 backslash) eqn:B1; [|discriminate]. destruct (Ascii.eqb x2 "u") eqn:B2; [|discriminate].
                cbn [andb] in El. destruct (hex4 x3 x4 x5 x6) as [w|] eqn:B3; [|discriminate].
                destruct (between 56320 57343 w) eqn:B4; [|discriminate]. injection El as ->.
                cbn [string_body] in E. apply Ascii.eqb_eq in B1 as Q. subst x1. change (Ascii.eqb backslash quote_char) with false in E.
                cbn [Ascii.eqb] in E. rewrite B2, B3 in E. rewrite Ascii.eqb_refl in E.
                apply between_spec in B4. replace (between 55296 57343 n0) with true in E by (symmetry; apply between_spec; lia).
                apply then_inv in H as (y & Hy & _).
                destruct (low_half s) eqn:El2.
                * replace (n0 <? 56320) with false in E by (symmetry; apply N.ltb_ge; lia). rewrite Hy in E. discriminate.
                * rewrite Hy in E. discriminate.
              + rewrite E in H. discriminate.
            - rewrite E in H. discriminate. }
        rewrite E. destruct (low_half s) as [low|] eqn:El.
        * destruct (u <? 56320).
          -- destruct s as [|x1 [|x2 [|x3 [|x4 [|x5 [|x6 s]]]]]]; try discriminate. cbn [append String.length] in *.
             apply then_inv in H as (y & Hy & ->). rewrite (IH s t y r ltac:(lia) Hy). reflexivity.
          -- apply then_inv in H as (y & Hy & ->). rewrite (IH s t y r ltac:(lia) Hy). reflexivity.
        * apply then_inv in H as (y & Hy & ->). rewrite (IH s t y r ltac:(lia) Hy). reflexivity.
      + apply then_inv in H as (y & Hy & ->). rewrite (IH s t y r ltac:(lia) Hy). reflexivity.
    - destruct (simple_escape e); [|discriminate].
      apply then_inv in H as (y & Hy & ->). rewrite (IH s t y r ltac:(lia) Hy). reflexivity. }
  destruct (N_of_ascii a <? 32); [discriminate|]. rewrite Hr. clear Hr.
  pose proof (rune_shape (String a s)) as Hs.
  destruct (rune_len (String a s)) as [|[|[|[|[|k]]]]]; try contradiction.
  - apply then_inv in H as (y & Hy & ->). rewrite (IH s t y r ltac:(lia) Hy). reflexivity.
  - apply then_inv in H as (y & Hy & ->). rewrite (IH s t y r ltac:(lia) Hy). reflexivity.
  - destruct Hs as (a' & b & s' & Hs). injection Hs as <- ->. cbn [append String.length] in *.
    apply then_inv in H as (y & Hy & ->). rewrite (IH s' t y r ltac:(lia) Hy). reflexivity.
  - destruct Hs as (a' & b & c & s' & Hs). injection Hs as <- ->. cbn [append String.length] in *.
    apply then_inv in H as (y & Hy & ->). rewrite (IH s' t y r ltac:(lia) Hy). reflexivity.
  - destruct Hs as (a' & b & c & d & s' & Hs). injection Hs as <- ->. cbn [append String.length] in *.
    apply then_inv in H as (y & Hy & ->). rewrite (IH s' t y r ltac:(lia) Hy). reflexivity.
Qed.

Lemma string_ext s t x r : string_body s = Some (x, r) -> string_body (s ++ t) = Some (x, r ++ t).
Proof. apply (string_ext_all (String.length s)). lia. Qed.

Definition is_num (j : json) : bool := match j with JNum _ => true | _ => false end.

Lemma value_ext f : 
  (forall d s t v r, value f d s = Some (v, r) -> r <> "" \/ is_num v = false \/ ends_number t -> value f d (s ++ t) = Some (v, r ++ t))
  /\ (forall d s t v r, elements f d s = Some (v, r) -> elements f d (s ++ t) = Some (v, r ++ t))
  /\ (forall d s t v r, members f d s = Some (v, r) -> members f d (s ++ t) = Some (v, r ++ t)).
Proof.
  induction f as [|f (IHv & IHe & IHm)]; [split; [|split]; intros; discriminate|].
  split; [|split]; intros d s t v r H; [intros Hr| |]; cbn [value elements members] in H |- *.
  - destruct (skip s) as [|c s1] eqn:Es; [discriminate|]. rewrite (skip_ext _ t _ _ Es).
    destruct (Ascii.eqb c quote_char).
    { destruct (string_body s1) as [[x r']|] eqn:E; [|discriminate]. injection H as <- <-.
      rewrite (string_ext _ t _ _ E). reflexivity. }
    destruct (Ascii.eqb c "[").
    { destruct (d =? 0); [discriminate|]. destruct (skip s1) as [|c2 r2] eqn:E2; [discriminate|].
      rewrite (skip_ext _ t _ _ E2). destruct (Ascii.eqb c2 "]"). { injection H as <- <-. reflexivity. }
      destruct (elements f (d - 1) s1) as [[l r']|] eqn:E; [|discriminate]. injection H as <- <-.
      rewrite (IHe _ _ t _ _ E). reflexivity. }
    destruct (Ascii.eqb c "{").
    { destruct (d =? 0); [discriminate|]. destruct (skip s1) as [|c2 r2] eqn:E2; [discriminate|].
      rewrite (skip_ext _ t _ _ E2). destruct (Ascii.eqb c2 "}"). { injection H as <- <-. reflexivity. }
      destruct (members f (d - 1) s1) as [[l r']|] eqn:E; [|discriminate]. injection H as <- <-.
      rewrite (IHm _ _ t _ _ E). reflexivity. }
    destruct (Ascii.eqb c "n").
    { destruct (expect "ull" s1) as [r'|] eqn:E; [|discriminate]. injection H as <- <-. rewrite (expect_ext _ _ t _ E). reflexivity. }
    destruct (Ascii.eqb c "t").
    { destruct (expect "rue" s1) as [r'|] eqn:E; [|discriminate]. injection H as <- <-. rewrite (expect_ext _ _ t _ E). reflexivity. }
    destruct (Ascii.eqb c "f").
    { destruct (expect "alse" s1) as [r'|] eqn:E; [|discriminate]. injection H as <- <-. rewrite (expect_ext _ _ t _ E). reflexivity. }
    destruct (scan_number (String c s1)) as [[n r']|] eqn:E; [|discriminate]. injection H as <- <-.
    change (String c (s1 ++ t)) with (String c s1 ++ t). rewrite (scan_ext _ t _ _ E); [reflexivity|].
    destruct Hr as [Hr|[Hr|Hr]]; [left; exact Hr|discriminate|right; exact Hr].
  - destruct (value f d s) as [[x s1]|] eqn:E; [|discriminate].
    destruct (skip s1) as [|c s2] eqn:E2; [discriminate|].
    rewrite (IHv _ _ t _ _ E) by (left; intros ->; discriminate). rewrite (skip_ext _ t _ _ E2).
    destruct (Ascii.eqb c ",").
    { destruct (elements f d s2) as [[l r']|] eqn:E3; [|discriminate]. injection H as <- <-.
      rewrite (IHe _ _ t _ _ E3). reflexivity. }
    destruct (Ascii.eqb c "]"); [|discriminate]. injection H as <- <-. reflexivity.
  - destruct (skip s) as [|q s1] eqn:Es; [discriminate|]. rewrite (skip_ext _ t _ _ Es).
    destruct (Ascii.eqb q quote_char); [|discriminate].
    destruct (string_body s1) as [[k s2]|] eqn:Ek; [|discriminate]. rewrite (string_ext _ t _ _ Ek).
    destruct (skip s2) as [|c s3] eqn:E2; [discriminate|]. rewrite (skip_ext _ t _ _ E2).
    destruct (Ascii.eqb c ":"); [|discriminate].
    destruct (value f d s3) as [[x s4]|] eqn:E; [|discriminate].
    destruct (skip s4) as [|c' s5] eqn:E4; [discriminate|].
    rewrite (IHv _ _ t _ _ E) by (left; intros ->; discriminate). rewrite (skip_ext _ t _ _ E4).
    destruct (Ascii.eqb c' ",").
    { destruct (members f d s5) as [[l r']|] eqn:E5; [|discriminate]. injection H as <- <-.
      rewrite (IHm _ _ t _ _ E5). reflexivity. }
    destruct (Ascii.eqb c' "}"); [|discriminate]. injection H as <- <-. reflexivity.
Qed.

(** * Printing and reading back *)

Fixpoint arr_tail (l : list json) : string := match l with [] => "]" | y :: r => "," ++ print y ++ arr_tail r end.
Fixpoint obj_tail (l : list (string * json)) : string :=
  match l with [] => "}" | (k', y) :: r => "," ++ quote k' ++ ":" ++ print y ++ obj_tail r end.
Lemma print_arr x l : print (JArr (x :: l)) = "[" ++ print x ++ arr_tail l.
Proof. reflexivity. Qed.
Lemma print_obj k x l : print (JObj ((k, x) :: l)) = "{" ++ quote k ++ ":" ++ print x ++ obj_tail l.
Proof. reflexivity. Qed.

Lemma digit_head c : is_digit c = true -> blank c = false /\ c <> "]"%char /\ c <> "}"%char /\ Ascii.eqb c quote_char = false
  /\ Ascii.eqb c "[" = false /\ Ascii.eqb c "{" = false /\ Ascii.eqb c "n" = false /\ Ascii.eqb c "t" = false /\ Ascii.eqb c "f" = false.
Proof.
  intros H. destruct c as [[] [] [] [] [] [] [] []]; try (exfalso; revert H; vm_compute; discriminate);
    repeat split; try reflexivity; discriminate.
Qed.

Lemma num_head n : number n -> exists c r, print_num n = String c r /\ (c = "-"%char \/ is_digit c = true).
Proof.
  assert (D : forall n, exists c r, dec n = String c r /\ is_digit c = true).
  { intros m. destruct (dec_head m) as (c & r & E & Hc). exists c, r. split; [exact E|]. apply is_digit_digit. exact Hc. }
  intros Hn. destruct n as [z|s]; cbn [print_num].
  - unfold print_int. destruct z as [|p|p].
    + destruct (D (Z.to_N 0)) as (c & r & E & Hc). exists c, r. auto.
    + destruct (D (Z.to_N (Z.pos p))) as (c & r & E & Hc). exists c, r. auto.
    + cbn [append]. eauto.
  - destruct Hn as (neg & i & fr & ex & -> & Hi & _).
    assert (Hhead : exists c r, i = String c r /\ is_digit c = true).
    { destruct Hi as [->|(c & r & -> & Hd & _)]; [exists "0"%char, ""; split; reflexivity|].
      exists c, r. split; [reflexivity|]. apply is_digit_digit. apply Hd. }
    destruct Hhead as (c & r & -> & Hc). destruct neg; cbn [append]; eauto.
Qed.

Lemma print_head j : sound j -> exists c r, print j = String c r /\ blank c = false /\ c <> "]"%char /\ c <> "}"%char.
Proof.
  intros H. destruct H as [|b|n Hn|s Hs|l Hl|l Hl].
  - cbn. do 2 eexists. repeat split; discriminate.
  - destruct b; cbn; do 2 eexists; repeat split; discriminate.
  - destruct (num_head n Hn) as (c & r & E & Hc). cbn [print]. exists c, r. split; [exact E|]. destruct Hc as [->|Hc].
    + repeat split; discriminate.
    + apply digit_head in Hc. tauto.
  - cbn. do 2 eexists. repeat split; discriminate.
  - destruct l as [|x l]; cbn; do 2 eexists; repeat split; discriminate.
  - destruct l as [|[k x] l]; cbn; do 2 eexists; repeat split; discriminate.
Qed.

Lemma skip_head c r : blank c = false -> skip (String c r) = String c r.
Proof. cbn. intros ->. reflexivity. Qed.

Lemma in_max {A} (f : A -> N) l x : In x l -> f x <= fold_right N.max 0 (map f l).
Proof. induction l as [|y l IH]; cbn; [contradiction|]. intros [->|H]; [lia|]. specialize (IH H). lia. Qed.

Lemma print_nonempty j : sound j -> (1 <= String.length (print j))%nat.
Proof. intros H. destruct (print_head j H) as (c & r & -> & _). cbn. lia. Qed.

Lemma value_back j : sound j -> forall d f t, nesting j <= d -> (2 * String.length (print j) <= f)%nat ->
  (is_num j = true -> ends_number t) -> value f d (print j ++ t) = Some (j, t).
Proof.
  induction j as [| |n|s|l IH|l IH] using json_ind'; intros Hj d f t Hd Hf Ht.
  - destruct f as [|f]; [cbn in Hf; lia|]. reflexivity.
  - destruct f as [|f]; [destruct b; cbn in Hf; lia|]. destruct b; reflexivity.
  - inversion Hj as [| |n' Hn| | |]; subst. pose proof (print_nonempty _ Hj) as Hl.
    destruct f as [|f]; [lia|]. cbn [value].
    pose proof (number_back n t Hn (Ht eq_refl)) as B.
    destruct (num_head n Hn) as (c & r & E & Hc). cbn [print]. rewrite E in *. cbn [append] in *.
    rewrite skip_head by (destruct Hc as [->|Hc]; [reflexivity|apply digit_head in Hc; tauto]).
    rewrite B.
    destruct Hc as [->|Hc]; [reflexivity|]. apply digit_head in Hc as (_ & _ & _ & -> & -> & -> & -> & -> & ->). reflexivity.
  - inversion Hj as [| | |s' Hs| |]; subst. destruct f as [|f]; [cbn in Hf; lia|].
    cbn [print value]. unfold quote. cbn [append]. rewrite skip_head by reflexivity.
    change (Ascii.eqb quote_char quote_char) with true. cbn [append].
    rewrite app_assoc_s. cbn [append]. rewrite (text_back s t Hs). reflexivity.
  - inversion Hj as [| | | |l' Hl|]; subst. destruct f as [|f]; [destruct l; cbn in Hf; lia|].
    cbn [nesting] in Hd. destruct l as [|x l].
    { cbn. replace (d =? 0) with false by (symmetry; apply N.eqb_neq; lia). reflexivity. }
    rewrite print_arr in *. cbn [append String.length] in *. cbn [value]. rewrite skip_head by reflexivity.
    change (Ascii.eqb "[" quote_char) with false. change (Ascii.eqb "[" "[") with true. cbv iota.
    replace (d =? 0) with false by (symmetry; apply N.eqb_neq; lia).
    assert (Hx : sound x) by (apply Hl; left; reflexivity).
    destruct (print_head x Hx) as (c & r & E & Hb & Hc & _).
    replace (skip ((print x ++ arr_tail l) ++ t)) with (String c ((r ++ arr_tail l) ++ t)) by (rewrite E; cbn; rewrite Hb; reflexivity).
    apply Ascii.eqb_neq in Hc. rewrite Hc.
    assert (G : forall l x g, Forall (fun j => sound j -> forall d f t, nesting j <= d -> (2 * String.length (print j) <= f)%nat ->
                   (is_num j = true -> ends_number t) -> value f d (print j ++ t) = Some (j, t)) (x :: l) ->
                 (forall y, In y (x :: l) -> sound y /\ nesting y <= d - 1) ->
                 (2 * String.length (print x ++ arr_tail l) + 1 <= g)%nat ->
                 elements g (d - 1) ((print x ++ arr_tail l) ++ t) = Some ((x :: l)%list, t)).
    { clear. induction l as [|y l IHl]; intros x g Hall Hs Hg; inversion Hall as [|? ? Hx Hall']; subst;
        destruct g as [|g]; try lia; cbn [elements]; rewrite app_assoc_s; rewrite app_length_s in Hg;
        destruct (Hs x (or_introl eq_refl)) as [Sx Nx]; pose proof (print_nonempty _ Sx) as Px.
      - rewrite Hx; [reflexivity|exact Sx|exact Nx|lia|]. intros _. cbn. repeat split; discriminate.
      - rewrite Hx; [|exact Sx|exact Nx|lia|intros _; cbn; repeat split; discriminate].
        cbn [arr_tail append]. rewrite skip_head by reflexivity. rewrite Ascii.eqb_refl.
        rewrite IHl; [reflexivity|exact Hall'|intros z Hz; apply Hs; right; exact Hz|].
        cbn [arr_tail append String.length] in Hg. rewrite app_length_s in *. lia. }
    rewrite G; [reflexivity|exact IH| |rewrite app_length_s in *; lia].
    intros y Hy. split; [apply Hl; exact Hy|]. pose proof (in_max nesting _ _ Hy). lia.
  - inversion Hj as [| | | | |l' Hl]; subst. destruct f as [|f]; [destruct l as [|[? ?] ?]; cbn in Hf; lia|].
    cbn [nesting] in Hd. destruct l as [|[k x] l].
    { cbn. replace (d =? 0) with false by (symmetry; apply N.eqb_neq; lia). reflexivity. }
    rewrite print_obj in *. cbn [append String.length] in *. cbn [value]. rewrite skip_head by reflexivity.
    change (Ascii.eqb "{" quote_char) with false. change (Ascii.eqb "{" "[") with false. change (Ascii.eqb "{" "{") with true. cbv iota.
    replace (d =? 0) with false by (symmetry; apply N.eqb_neq; lia).
    replace (skip ((quote k ++ String ":" (print x ++ obj_tail l)) ++ t)) with ((quote k ++ String ":" (print x ++ obj_tail l)) ++ t) by reflexivity.
    unfold quote at 1. cbn [append]. change (Ascii.eqb quote_char "}") with false. cbv iota.
    assert (G : forall l k x g, Forall (fun p => sound (snd p) -> forall d f t, nesting (snd p) <= d -> (2 * String.length (print (snd p)) <= f)%nat ->
                   (is_num (snd p) = true -> ends_number t) -> value f d (print (snd p) ++ t) = Some (snd p, t)) ((k, x) :: l) ->
                 (forall k' y, In (k', y) ((k, x) :: l) -> is_text k' /\ sound y /\ nesting y <= d - 1) ->
                 (2 * String.length (quote k ++ String ":" (print x ++ obj_tail l)) + 1 <= g)%nat ->
                 members g (d - 1) ((quote k ++ String ":" (print x ++ obj_tail l)) ++ t) = Some (((k, x) :: l)%list, t)).
    { clear. induction l as [|[k' y] l IHl]; intros k x g Hall Hs Hg; inversion Hall as [|? ? Hx Hall']; subst;
        destruct g as [|g]; try lia; cbn [members];
        destruct (Hs k x (or_introl eq_refl)) as (Tk & Sx & Nx); pose proof (print_nonempty _ Sx) as Px;
        unfold quote; cbn [append]; rewrite skip_head by reflexivity; change (Ascii.eqb quote_char quote_char) with true; cbv iota;
        rewrite !app_assoc_s; cbn [append]; rewrite (text_back k _ Tk); cbn [append];
        rewrite skip_head by reflexivity; change (Ascii.eqb ":" ":") with true; cbv iota;
        rewrite app_assoc_s; cbn [snd] in Hx;
        rewrite app_length_s in Hg; cbn [String.length] in Hg; rewrite app_length_s in Hg.
      - rewrite Hx; [reflexivity|exact Sx|exact Nx|lia|]. intros _. cbn. repeat split; discriminate.
      - rewrite Hx; [|exact Sx|exact Nx|lia|intros _; cbn; repeat split; discriminate].
        cbn [obj_tail append]. rewrite skip_head by reflexivity. rewrite Ascii.eqb_refl.
        change (quote_char) with quote_char. 
        specialize (IHl k' y g Hall' ltac:(intros k0 z Hz; apply Hs; right; exact Hz)).
        cbn [obj_tail append String.length] in Hg, IHl |- *.
        rewrite IHl; [reflexivity|lia]. }
    rewrite G; [reflexivity|exact IH| |lia].
    intros k' y Hy. destruct (Hl _ _ Hy) as [H1 H2]. repeat split; [exact H1|exact H2|].
    pose proof (in_max (fun p => nesting (snd p)) _ _ Hy) as Q. cbn [snd] in Q. lia.
Qed.

Lemma read_back j t : sound j -> nesting j <= max_nesting -> (is_num j = true -> ends_number t) ->
  read_value (print j ++ t) = Some (j, t).
Proof. intros Hj Hn Ht. unfold read_value. apply value_back; auto. rewrite app_length_s. lia. Qed.

Lemma num_prefix f g d p q n r v r' : value f d p = Some (JNum n, r) -> value g d (p ++ q) = Some (v, r') -> is_num v = true.
Proof.
  destruct f as [|f]; [discriminate|]. destruct g as [|g]; [discriminate|]. cbn [value].
  destruct (skip p) as [|c s] eqn:E; [discriminate|]. rewrite (skip_ext _ q _ _ E).
  destruct (Ascii.eqb c quote_char). { destruct (string_body s) as [[? ?]|]; discriminate. }
  destruct (Ascii.eqb c "[").
  { destruct (d =? 0); [discriminate|]. destruct (skip s); [discriminate|]. destruct (Ascii.eqb _ _); [discriminate|].
    destruct (elements f _ _) as [[? ?]|]; discriminate. }
  destruct (Ascii.eqb c "{").
  { destruct (d =? 0); [discriminate|]. destruct (skip s); [discriminate|]. destruct (Ascii.eqb _ _); [discriminate|].
    destruct (members f _ _) as [[? ?]|]; discriminate. }
  destruct (Ascii.eqb c "n"). { destruct (expect _ s); discriminate. }
  destruct (Ascii.eqb c "t"). { destruct (expect _ s); discriminate. }
  destruct (Ascii.eqb c "f"). { destruct (expect _ s); discriminate. }
  intros _. destruct (scan_number _) as [[m r2]|]; [|discriminate]. intros [= <- _]. reflexivity.
Qed.

(** A value cut short is not a value. *)
Lemma value_cut j p q f : sound j -> nesting j <= max_nesting -> is_num j = false -> print j = p ++ q -> q <> "" ->
  value f max_nesting p = None.
Proof.
  intros Hj Hn Hnum E Hq. destruct (value f max_nesting p) as [[v r]|] eqn:R; [exfalso|reflexivity].
  pose (g := (2 * String.length (print j) + f)%nat).
  pose proof (value_back j Hj max_nesting g "" Hn ltac:(unfold g; lia) ltac:(congruence)) as B. rewrite app_nil_s, E in B.
  assert (R2 : value g max_nesting p = Some (v, r)).
  { assert (L : (f <= g)%nat) by (unfold g; lia). exact (proj1 (value_mono _ _ L) _ _ _ R). }
  destruct (is_num v) eqn:V.
  - destruct v as [| |n| | |]; try discriminate. rewrite (num_prefix _ _ _ _ _ _ _ _ _ R2 B) in Hnum. discriminate.
  - pose proof (proj1 (value_ext _) _ _ q _ _ R2 ltac:(right; left; exact V)) as X. rewrite X in B. injection B as -> B.
    destruct r; [cbn in B; congruence|discriminate].
Qed.

Lemma value_blank f d s s' : skip s = skip s' -> value f d s = value f d s'.
Proof. intros H. destruct f; [reflexivity|]. cbn [value]. rewrite H. reflexivity. Qed.
