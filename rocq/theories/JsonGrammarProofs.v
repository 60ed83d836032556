(** The JSON reader reads exactly what the grammar of JsonGrammar.v says. *)
From Coq Require Import ZArith PeanoNat ZifyN DecimalString DecimalN.
From Coq Require Decimal DecimalFacts.
From Verif Require Import Base Text DecText Json JsonSpec JsonProofs JsonText JsonTextSpec JsonTextProofs JsonGrammar.
Open Scope string_scope.
Open Scope N_scope.
Ltac Zify.zify_post_hook ::= Z.div_mod_to_equations.

(** * Characters *)

Lemma cont_bound n : cont n = true <-> 128 <= n <= 191.
Proof. apply between_spec. Qed.

Lemma rune_utf8 s k : rune_len s = S k -> exists u r, scalar u /\ s = utf8 u ++ r /\ String.length (utf8 u) = S k
  /\ (128 <= match s with String a _ => N_of_ascii a | "" => 0 end <-> 128 <= u).
Proof.
  destruct s as [|a r]; [discriminate|]. cbn [rune_len]. pose proof (byte_bound a) as Ba.
  assert (Ea : ascii_of_N (N_of_ascii a) = a) by apply ascii_N_embedding.
  destruct (N.ltb_spec (N_of_ascii a) 128) as [L|L].
  { intros [= <-]. exists (N_of_ascii a), r. split; [left; lia|]. unfold utf8.
    rewrite (proj2 (N.ltb_lt _ _) L), Ea. split; [reflexivity|]. split; [reflexivity|tauto]. }
  destruct r as [|b r2]; [discriminate|]. pose proof (byte_bound b) as Bb.
  assert (Eb : ascii_of_N (N_of_ascii b) = b) by apply ascii_N_embedding.
  destruct (between 194 223 (N_of_ascii a)) eqn:R2.
  { apply between_spec in R2. destruct (cont (N_of_ascii b)) eqn:Cb; [|discriminate]. apply cont_bound in Cb. intros [= <-].
    set (u := (N_of_ascii a - 192) * 64 + (N_of_ascii b - 128)). exists u, r2.
    assert (Hu : 128 <= u < 2048) by (unfold u; lia).
    assert (E1 : 192 + u / 64 = N_of_ascii a) by (unfold u; lia). assert (E2 : 128 + u mod 64 = N_of_ascii b) by (unfold u; lia).
    split; [left; lia|]. unfold utf8. rewrite (proj2 (N.ltb_ge u 128)), (proj2 (N.ltb_lt u 2048)), E1, E2, Ea, Eb by lia.
    split; [reflexivity|]. split; [reflexivity|lia]. }
  destruct r2 as [|c r3]; [discriminate|]. pose proof (byte_bound c) as Bc.
  assert (Ec : ascii_of_N (N_of_ascii c) = c) by apply ascii_N_embedding.
  set (second := between _ _ (N_of_ascii b)).
  destruct (between 224 239 (N_of_ascii a)) eqn:R3.
  { apply between_spec in R3. destruct second eqn:Sb; [|discriminate]. cbn [andb]. destruct (cont (N_of_ascii c)) eqn:Cc; [|discriminate].
    apply cont_bound in Cc. intros [= <-]. unfold second in Sb. apply between_spec in Sb.
    set (u := (N_of_ascii a - 224) * 4096 + (N_of_ascii b - 128) * 64 + (N_of_ascii c - 128)). exists u, r3.
    assert (Hb : 128 <= N_of_ascii b <= 191 /\ (N_of_ascii a = 224 -> 160 <= N_of_ascii b) /\ (N_of_ascii a = 237 -> N_of_ascii b <= 159)).
    { destruct (N.eqb_spec (N_of_ascii a) 224), (N.eqb_spec (N_of_ascii a) 240), (N.eqb_spec (N_of_ascii a) 237), (N.eqb_spec (N_of_ascii a) 244); lia. }
    clear Sb second. destruct Hb as (Hb & H224 & H237).
    assert (Hu : 2048 <= u < 65536) by (unfold u; destruct (N.eq_dec (N_of_ascii a) 224); lia).
    assert (Hs : scalar u) by (unfold scalar, u; destruct (N.eq_dec (N_of_ascii a) 237); lia).
    assert (E1 : 224 + u / 4096 = N_of_ascii a) by (unfold u; lia).
    assert (E2 : 128 + u / 64 mod 64 = N_of_ascii b) by (unfold u; lia). assert (E3 : 128 + u mod 64 = N_of_ascii c) by (unfold u; lia).
    split; [exact Hs|]. unfold utf8. rewrite (proj2 (N.ltb_ge u 128)), (proj2 (N.ltb_ge u 2048)), (proj2 (N.ltb_lt u 65536)), E1, E2, E3, Ea, Eb, Ec by lia.
    split; [reflexivity|]. split; [reflexivity|lia]. }
  destruct r3 as [|d r4]; [discriminate|]. pose proof (byte_bound d) as Bd.
  assert (Ed : ascii_of_N (N_of_ascii d) = d) by apply ascii_N_embedding.
  destruct (between 240 244 (N_of_ascii a)) eqn:R4; [|discriminate]. apply between_spec in R4. cbn [andb].
  destruct second eqn:Sb; [|discriminate]. cbn [andb]. destruct (cont (N_of_ascii c)) eqn:Cc; [|discriminate]. cbn [andb].
  destruct (cont (N_of_ascii d)) eqn:Cd; [|discriminate]. apply cont_bound in Cc, Cd. intros [= <-]. unfold second in Sb. apply between_spec in Sb.
  set (u := (N_of_ascii a - 240) * 262144 + (N_of_ascii b - 128) * 4096 + (N_of_ascii c - 128) * 64 + (N_of_ascii d - 128)). exists u, r4.
  assert (Hb : 128 <= N_of_ascii b <= 191 /\ (N_of_ascii a = 240 -> 144 <= N_of_ascii b) /\ (N_of_ascii a = 244 -> N_of_ascii b <= 143)).
  { destruct (N.eqb_spec (N_of_ascii a) 224), (N.eqb_spec (N_of_ascii a) 240), (N.eqb_spec (N_of_ascii a) 237), (N.eqb_spec (N_of_ascii a) 244); lia. }
  clear Sb second. destruct Hb as (Hb & H240 & H244).
  assert (Hu : 65536 <= u < 1114112) by (unfold u; destruct (N.eq_dec (N_of_ascii a) 240), (N.eq_dec (N_of_ascii a) 244); lia).
  assert (E1 : 240 + u / 262144 = N_of_ascii a) by (unfold u; lia).
  assert (E2 : 128 + u / 4096 mod 64 = N_of_ascii b) by (unfold u; lia).
  assert (E3 : 128 + u / 64 mod 64 = N_of_ascii c) by (unfold u; lia). assert (E4 : 128 + u mod 64 = N_of_ascii d) by (unfold u; lia).
  split; [right; lia|]. unfold utf8. rewrite (proj2 (N.ltb_ge u 128)), (proj2 (N.ltb_ge u 2048)), (proj2 (N.ltb_ge u 65536)), E1, E2, E3, E4, Ea, Eb, Ec, Ed by lia.
  split; [reflexivity|]. split; [reflexivity|lia].
Qed.

(** The bytes of a character above 127 are above 127. *)
Lemma utf8_high u : scalar u -> 128 <= u -> high (utf8 u).
Proof.
  intros Hs Hu. unfold scalar in Hs. unfold utf8. rewrite (proj2 (N.ltb_ge u 128)) by lia.
  destruct (N.ltb_spec u 2048); [|destruct (N.ltb_spec u 65536)]; cbn [high]; rewrite !N_ascii_embedding by lia; repeat split; lia.
Qed.
Lemma utf8_low u : u < 128 -> utf8 u = String (ascii_of_N u) "".
Proof. intros H. unfold utf8. now rewrite (proj2 (N.ltb_lt _ _) H). Qed.
Lemma utf8_nonempty u : utf8 u <> "".
Proof. unfold utf8. destruct (u <? 128), (u <? 2048), (u <? 65536); discriminate. Qed.

Lemma body_char u x : scalar u -> 32 <= u -> u <> 34 -> u <> 92 -> string_body (utf8 u ++ x) = then_ (utf8 u) (string_body x).
Proof.
  intros Hs H32 H34 H92. destruct (N.lt_ge_cases u 128) as [L|L].
  - rewrite utf8_low by exact L. cbn [append string_body].
    assert (N_of_ascii (ascii_of_N u) = u) as E by (apply N_ascii_embedding; lia).
    destruct (Ascii.eqb_spec (ascii_of_N u) quote_char) as [K|_]; [exfalso; rewrite K in E; now apply H34|].
    destruct (Ascii.eqb_spec (ascii_of_N u) backslash) as [K|_]; [exfalso; rewrite K in E; now apply H92|].
    rewrite E, (proj2 (N.ltb_ge u 32)) by lia.
    rewrite (proj2 (rune1 (ascii_of_N u) x)) by (rewrite E; exact L). reflexivity.
  - pose proof (proj1 (utf8_rune u x Hs)) as R. pose proof (utf8_high u Hs L) as Hh.
    destruct (utf8 u) as [|a [|b [|c [|d [|e r]]]]] eqn:E; cbn [append String.length] in *.
    + now apply utf8_nonempty in E.
    + exfalso. apply rune1 in R. cbn in Hh. lia.
    + now rewrite high2.
    + now rewrite high3.
    + now rewrite high4.
    + exfalso. unfold utf8 in E. destruct (u <? 128), (u <? 2048), (u <? 65536); discriminate.
Qed.

(** * Hexadecimal digits *)

Lemma hex_value_digit a : match hex_value a with
  | Some v => exists n, v = N.of_nat n /\ hex_digit a n
  | None => forall n, ~ hex_digit a n end.
Proof.
  assert (T : forall n, hex_digit a n -> (n < 16)%nat).
  { intros n [H|H]; destruct (Nat.lt_ge_cases n 16) as [|L]; try assumption; exfalso;
      do 16 (destruct n as [|n]; [lia|]); discriminate H. }
  destruct (hex_value a) as [v|] eqn:E.
  - exists (N.to_nat v). split; [lia|].
    destruct a as [[] [] [] [] [] [] [] []]; vm_compute in E; try discriminate E; injection E as <-; unfold hex_digit; vm_compute; auto.
  - intros n H. pose proof (T n H) as L.
    destruct H as [H|H]; do 16 (destruct n as [|n]; [vm_compute in H; injection H as <-; vm_compute in E; discriminate E|]); lia.
Qed.
Lemma hex_digit_value a n : hex_digit a n -> hex_value a = Some (N.of_nat n).
Proof.
  intros H. destruct H as [H|H]; do 16 (destruct n as [|n]; [vm_compute in H; injection H as <-; reflexivity|]); discriminate H.
Qed.
Lemma hex4_text a b c d u : hex4 a b c d = Some u <-> hex_text (String a (String b (String c (String d "")))) u.
Proof.
  unfold hex4. split.
  - pose proof (hex_value_digit a) as Ha. pose proof (hex_value_digit b) as Hb. pose proof (hex_value_digit c) as Hc. pose proof (hex_value_digit d) as Hd.
    destruct (hex_value a) as [w|]; [|discriminate]. destruct (hex_value b) as [x|]; [|discriminate].
    destruct (hex_value c) as [y|]; [|discriminate]. destruct (hex_value d) as [z|]; [|discriminate].
    intros [= <-]. destruct Ha as (i & -> & Ha), Hb as (j & -> & Hb), Hc as (k & -> & Hc), Hd as (l & -> & Hd).
    exists a, b, c, d, i, j, k, l. repeat (split; [reflexivity || assumption|]). lia.
  - intros (a' & b' & c' & d' & i & j & k & l & E & Ha & Hb & Hc & Hd & ->). injection E as <- <- <- <-.
    rewrite (hex_digit_value _ _ Ha), (hex_digit_value _ _ Hb), (hex_digit_value _ _ Hc), (hex_digit_value _ _ Hd). f_equal. lia.
Qed.
Lemma hex_shape h u : hex_text h u -> exists a b c d, h = String a (String b (String c (String d ""))) /\ hex4 a b c d = Some u.
Proof.
  intros H. destruct H as (a & b & c & d & i & j & k & l & -> & H). exists a, b, c, d. split; [reflexivity|].
  apply hex4_text. exists a, b, c, d, i, j, k, l. split; [reflexivity|exact H].
Qed.
Lemma hex_not_quote a n : hex_digit a n -> a <> quote_char.
Proof. intros H ->. apply hex_digit_value in H. discriminate. Qed.

(** * Strings *)

Lemma low_half_text s low : low_half s = Some low <-> exists h r, s = u_escape ++ h ++ r /\ hex_text h low /\ 56320 <= low < 57344.
Proof.
  split.
  - destruct s as [|x [|y [|a [|b [|c [|d r]]]]]]; try discriminate. cbn [low_half].
    destruct (Ascii.eqb_spec x backslash) as [->|]; [|discriminate]. destruct (Ascii.eqb_spec y "u") as [->|]; [|discriminate]. cbn [andb].
    destruct (hex4 a b c d) as [u|] eqn:E; [|discriminate]. destruct (between 56320 57343 u) eqn:B; [|discriminate].
    apply between_spec in B. intros [= <-]. apply hex4_text in E. exists (String a (String b (String c (String d "")))), r.
    split; [reflexivity|]. split; [exact E|lia].
  - intros (h & r & -> & H & B). destruct (hex_shape h low H) as (a & b & c & d & -> & E). cbn. rewrite E.
    now rewrite (proj2 (between_spec 56320 57343 low)) by lia.
Qed.

(** A character that begins in a string ends in it. *)
Lemma char_within u raw t r : scalar u -> 128 <= u -> raw ++ String quote_char t = utf8 u ++ r -> exists r', raw = utf8 u ++ r'.
Proof.
  intros Hs Hu. pose proof (utf8_high u Hs Hu) as H. revert raw. induction (utf8 u) as [|a s IH]; intros raw E; [now exists raw|].
  destruct raw as [|b raw]; cbn [append] in E.
  - injection E as <- _. cbn in H. destruct H as [H _]. vm_compute in H. now destruct H.
  - injection E as -> E. destruct (IH ltac:(apply H) raw E) as (r' & ->). now exists r'.
Qed.

Lemma string_reads v raw : string_text v raw -> forall t, string_body (raw ++ String quote_char t) = Some (v, t).
Proof.
  intros H. induction H as [|u v raw Hs H32 H34 H92 _ IH|a b v raw Hab _ IH|h u v raw Hh Hs _ IH|h1 h2 hi lo v raw H1 H2 Bh Bl _ IH|h u v raw Hh Bu Hno _ IH|a v raw Ha Hno _ IH]; intros t.
  - reflexivity.
  - rewrite app_assoc_s, body_char, IH by assumption. reflexivity.
  - cbn [append]. cbn [In] in Hab. repeat (destruct Hab as [Hab|Hab]; [injection Hab as <- <-; cbn -[string_body]; cbn [string_body Ascii.eqb Bool.eqb quote_char backslash]; cbv beta iota; rewrite IH; reflexivity|]). contradiction.
  - destruct (hex_shape h u Hh) as (a & b & c & d & -> & E). rewrite !app_assoc_s. cbn [u_escape append].
    change (string_body (String "092" (String "u" (String a (String b (String c (String d (raw ++ String quote_char t))))))))
      with (match hex4 a b c d with None => None | Some u => if between 55296 57343 u then
              match low_half (raw ++ String quote_char t) with
              | Some low => if u <? 56320 then match raw ++ String quote_char t with
                  | String _ (String _ (String _ (String _ (String _ (String _ r3))))) => then_ (utf8 (65536 + (u - 55296) * 1024 + (low - 56320))) (string_body r3)
                  | _ => None end else then_ replacement (string_body (raw ++ String quote_char t))
              | None => then_ replacement (string_body (raw ++ String quote_char t)) end
            else then_ (utf8 u) (string_body (raw ++ String quote_char t)) end).
    rewrite E. replace (between 55296 57343 u) with false; [now rewrite IH|].
    symmetry. apply not_true_iff_false. rewrite between_spec. unfold scalar in Hs. lia.
  - destruct (hex_shape h1 hi H1) as (a & b & c & d & -> & E). destruct (hex_shape h2 lo H2) as (a' & b' & c' & d' & -> & E').
    rewrite !app_assoc_s. cbn [u_escape append].
    set (rest := raw ++ String quote_char t) in *.
    change (string_body (String "092" (String "u" (String a (String b (String c (String d (String "092" (String "u" (String a' (String b' (String c' (String d' rest)))))))))))))
      with (match hex4 a b c d with None => None | Some u => if between 55296 57343 u then
              match low_half (String "092" (String "u" (String a' (String b' (String c' (String d' rest)))))) with
              | Some low => if u <? 56320 then then_ (utf8 (65536 + (u - 55296) * 1024 + (low - 56320))) (string_body rest)
                            else then_ replacement (string_body (String "092" (String "u" (String a' (String b' (String c' (String d' rest)))))))
              | None => then_ replacement (string_body (String "092" (String "u" (String a' (String b' (String c' (String d' rest))))))) end
            else then_ (utf8 u) (string_body (String "092" (String "u" (String a' (String b' (String c' (String d' rest)))))) ) end).
    rewrite E, (proj2 (between_spec 55296 57343 hi)) by lia.
    rewrite (proj2 (low_half_text (String "092" (String "u" (String a' (String b' (String c' (String d' rest)))))) lo)).
    2:{ exists (String a' (String b' (String c' (String d' "")))), rest. split; [reflexivity|]. split; [exact H2|lia]. }
    rewrite (proj2 (N.ltb_lt hi 56320)) by lia. unfold rest. now rewrite IH.
  - destruct (hex_shape h u Hh) as (a & b & c & d & -> & E). rewrite !app_assoc_s. cbn [u_escape append].
    change (string_body (String "092" (String "u" (String a (String b (String c (String d (raw ++ String quote_char t))))))))
      with (match hex4 a b c d with None => None | Some u => if between 55296 57343 u then
              match low_half (raw ++ String quote_char t) with
              | Some low => if u <? 56320 then match raw ++ String quote_char t with
                  | String _ (String _ (String _ (String _ (String _ (String _ r3))))) => then_ (utf8 (65536 + (u - 55296) * 1024 + (low - 56320))) (string_body r3)
                  | _ => None end else then_ replacement (string_body (raw ++ String quote_char t))
              | None => then_ replacement (string_body (raw ++ String quote_char t)) end
            else then_ (utf8 u) (string_body (raw ++ String quote_char t)) end).
    rewrite E, (proj2 (between_spec 55296 57343 u)) by lia.
    destruct (low_half (raw ++ String quote_char t)) as [low|] eqn:El; [|now rewrite IH].
    destruct (N.ltb_spec u 56320) as [L|L]; [|now rewrite IH]. exfalso.
    apply low_half_text in El as (h2 & r & Er & H2 & B2). destruct (hex_shape h2 low H2) as (a' & b' & c' & d' & -> & E').
    destruct (proj1 (hex4_text a' b' c' d' low) E') as (? & ? & ? & ? & i & j & k & l & Eh & D1 & D2 & D3 & D4 & _). injection Eh as <- <- <- <-.
    apply hex_not_quote in D1, D2, D3, D4. cbn [u_escape append] in Er.
    destruct raw as [|x1 raw]; cbn [append] in Er; injection Er as ? Er; [discriminate|].
    destruct raw as [|x2 raw]; cbn [append] in Er; injection Er as ? Er; [discriminate|].
    destruct raw as [|x3 raw]; cbn [append] in Er; injection Er as ? Er; [congruence|].
    destruct raw as [|x4 raw]; cbn [append] in Er; injection Er as ? Er; [congruence|].
    destruct raw as [|x5 raw]; cbn [append] in Er; injection Er as ? Er; [congruence|].
    destruct raw as [|x6 raw]; cbn [append] in Er; injection Er as ? Er; [congruence|].
    subst. apply (Hno L (String a' (String b' (String c' (String d' "")))) low raw H2 ltac:(lia)). reflexivity.
  - cbn [append]. destruct (high_not a Ha) as (Q1 & Q2 & Q3).
    assert (R : rune_len (String a (raw ++ String quote_char t)) = 0%nat).
    { destruct (rune_len (String a (raw ++ String quote_char t))) as [|k] eqn:R; [reflexivity|]. exfalso.
      destruct (rune_utf8 _ _ R) as (u & r & Hs & Eu & _ & Hu). apply Hu in Ha.
      change (String a (raw ++ String quote_char t)) with (String a raw ++ String quote_char t) in Eu.
      destruct (char_within u (String a raw) t r Hs Ha Eu) as (r' & Er). exact (Hno u r' Hs Er). }
    cbn [string_body]. rewrite Q1, Q2, Q3. rewrite R. now rewrite IH.
Qed.
