(** Text encodings are undone by their decoders. *)
From Coq Require Import ZArith PeanoNat ZifyN.
From Verif Require Import Base Text JsonText JsonTextSpec JsonTextProofs Encodings.
Open Scope string_scope.
Open Scope N_scope.
Ltac Zify.zify_post_hook ::= Z.div_mod_to_equations.

(** * Base64 *)

Definition all_below (n : nat) (p : N -> bool) : bool := forallb p (map N.of_nat (seq 0 n)).
Lemma all_below_spec n p : all_below n p = true -> forall v, v < N.of_nat n -> p v = true.
Proof.
  unfold all_below. rewrite forallb_forall. intros H v Hv. apply H. apply in_map_iff. exists (N.to_nat v).
  split; [apply N2Nat.id|]. apply in_seq. lia.
Qed.

Lemma symbol_back v : v < 64 -> symbol_value (symbol v) = Some v.
Proof.
  intros H. assert (T : all_below 64 (fun v => match symbol_value (symbol v) with Some w => N.eqb w v | None => false end) = true) by (vm_compute; reflexivity).
  pose proof (all_below_spec _ _ T v H) as E. cbn beta in E. destruct (symbol_value (symbol v)) as [w|]; [|discriminate].
  apply N.eqb_eq in E. subst w. reflexivity.
Qed.
Lemma symbol_plain v : v < 64 -> line_break (symbol v) = false.
Proof.
  intros H. assert (T : all_below 64 (fun v => negb (line_break (symbol v))) = true) by (vm_compute; reflexivity).
  pose proof (all_below_spec _ _ T v H) as E. cbn beta in E. destruct (line_break _); [discriminate|reflexivity].
Qed.

Lemma byte_is a n : n mod 256 = N_of_ascii a -> byte_of n = a.
Proof. intros H. unfold byte_of. rewrite H. apply ascii_N_embedding. Qed.

Lemma sextets n : n < 16777216 -> n / 262144 < 64 /\ n / 4096 mod 64 < 64 /\ n / 64 mod 64 < 64 /\ n mod 64 < 64
  /\ ((n / 262144 * 64 + n / 4096 mod 64) * 64 + n / 64 mod 64) * 64 + n mod 64 = n.
Proof.
  intros H.
  replace (n / 262144) with (n / 64 / 64 / 64) by (rewrite !N.div_div by lia; reflexivity).
  replace (n / 4096) with (n / 64 / 64) by (rewrite !N.div_div by lia; reflexivity).
  pose proof (N.div_mod n 64 ltac:(lia)). pose proof (N.mod_lt n 64 ltac:(lia)).
  pose proof (N.div_mod (n / 64) 64 ltac:(lia)). pose proof (N.mod_lt (n / 64) 64 ltac:(lia)).
  pose proof (N.div_mod (n / 64 / 64) 64 ltac:(lia)). pose proof (N.mod_lt (n / 64 / 64) 64 ltac:(lia)).
  generalize dependent (n / 64 / 64 / 64). generalize dependent (n / 64 / 64 mod 64). generalize dependent (n / 64 / 64).
  generalize dependent (n / 64 mod 64). generalize dependent (n / 64). generalize dependent (n mod 64). intros.
  repeat split; try assumption; lia.
Qed.

Lemma twelve n : n / 262144 * 64 + n / 4096 mod 64 = n / 4096.
Proof.
  replace (n / 262144) with (n / 4096 / 64) by (rewrite !N.div_div by lia; reflexivity).
  rewrite (N.div_mod (n / 4096) 64) at 3 by lia. lia.
Qed.
Lemma eighteen n : (n / 262144 * 64 + n / 4096 mod 64) * 64 + n / 64 mod 64 = n / 64.
Proof.
  rewrite twelve. replace (n / 4096) with (n / 64 / 64) by (rewrite !N.div_div by lia; reflexivity).
  rewrite (N.div_mod (n / 64) 64) at 3 by lia. lia.
Qed.

Lemma bytes2 x y : x < 256 -> y < 256 -> (x * 65536 + y * 256) / 65536 mod 256 = x /\ (x * 65536 + y * 256) / 256 mod 256 = y.
Proof. intros Hx Hy. split; lia. Qed.
Lemma bytes3 x y z : x < 256 -> y < 256 -> z < 256 -> (x * 65536 + y * 256 + z) / 65536 mod 256 = x
  /\ (x * 65536 + y * 256 + z) / 256 mod 256 = y /\ (x * 65536 + y * 256 + z) mod 256 = z.
Proof. intros Hx Hy Hz. repeat split; lia. Qed.

Lemma three_ind (P : string -> Prop) : P "" -> (forall a, P (String a "")) -> (forall a b, P (String a (String b ""))) ->
  (forall a b c r, P r -> P (String a (String b (String c r)))) -> forall s, P s.
Proof.
  intros H0 H1 H2 H3 s. assert (G : forall n s, (String.length s <= n)%nat -> P s).
  { induction n as [|n IH]; intros [|a [|b [|c r]]] Hn; auto; cbn [String.length] in Hn; try lia. apply H3. apply IH. lia. }
  apply (G _ s (Nat.le_refl _)).
Qed.

Lemma breaks_base64 pad s : no_breaks (base64 pad s) = base64 pad s.
Proof.
  induction s as [|a|a b|a b c r IH] using three_ind.
  - reflexivity.
  - cbn [base64]. pose proof (byte_bound a). destruct (sextets (N_of_ascii a * 65536) ltac:(lia)) as (B1 & B2 & _).
    cbn [no_breaks]. rewrite !symbol_plain by assumption. destruct pad; reflexivity.
  - cbn [base64]. pose proof (byte_bound a). pose proof (byte_bound b).
    destruct (sextets (N_of_ascii a * 65536 + N_of_ascii b * 256) ltac:(lia)) as (B1 & B2 & B3 & _).
    cbn [no_breaks]. rewrite !symbol_plain by assumption. destruct pad; reflexivity.
  - cbn [base64]. pose proof (byte_bound a). pose proof (byte_bound b). pose proof (byte_bound c).
    destruct (sextets (three a b c) ltac:(unfold three; lia)) as (B1 & B2 & B3 & B4 & _).
    unfold quad. cbn [no_breaks append]. rewrite !symbol_plain by assumption. rewrite IH. reflexivity.
Qed.

Lemma quanta_back pad s : quanta pad (base64 pad s) = Some s.
Proof.
  induction s as [|a|a b|a b c r IH] using three_ind.
  - reflexivity.
  - cbn [base64]. pose proof (byte_bound a) as Ha.
    assert (E : byte_of ((N_of_ascii a * 65536 / 262144 * 64 + N_of_ascii a * 65536 / 4096 mod 64) / 16) = a).
    { apply byte_is. rewrite twelve, N.div_div by lia. change (4096 * 16) with 65536. rewrite N.div_mul by lia. apply N.mod_small. exact Ha. }
    destruct (sextets (N_of_ascii a * 65536) ltac:(lia)) as (B1 & B2 & _).
    destruct pad; cbn [quanta]; rewrite !symbol_back by assumption; [|rewrite E; reflexivity].
    change (symbol_value "=") with (@None N). cbn. rewrite E. reflexivity.
  - cbn [base64]. pose proof (byte_bound a) as Ha. pose proof (byte_bound b) as Hb.
    set (n := N_of_ascii a * 65536 + N_of_ascii b * 256).
    destruct (sextets n ltac:(unfold n; lia)) as (B1 & B2 & B3 & B4 & B5).
    assert (E1 : byte_of (((n / 262144 * 64 + n / 4096 mod 64) * 64 + n / 64 mod 64) / 1024) = a).
    { apply byte_is. rewrite eighteen, N.div_div by lia. change (64 * 1024) with 65536. apply bytes2; assumption. }
    assert (E2 : byte_of (((n / 262144 * 64 + n / 4096 mod 64) * 64 + n / 64 mod 64) / 4) = b).
    { apply byte_is. rewrite eighteen, N.div_div by lia. change (64 * 4) with 256. apply bytes2; assumption. }
    destruct pad; cbn [quanta]; rewrite !symbol_back by assumption; [|rewrite E1, E2; reflexivity].
    change (symbol_value "=") with (@None N). cbv beta iota zeta. change (true && Ascii.eqb "=" "=") with true. cbv iota. rewrite E1, E2. reflexivity.
  - cbn [base64]. pose proof (byte_bound a) as Ha. pose proof (byte_bound b) as Hb. pose proof (byte_bound c) as Hc.
    set (n := three a b c). destruct (sextets n ltac:(unfold n, three; lia)) as (B1 & B2 & B3 & B4 & B5).
    assert (E1 : byte_of (n / 65536) = a) by (apply byte_is; apply bytes3; assumption).
    assert (E2 : byte_of (n / 256) = b) by (apply byte_is; apply bytes3; assumption).
    assert (E3 : byte_of n = c) by (apply byte_is; apply bytes3; assumption).
    unfold quad. cbn [append quanta]. rewrite !symbol_back by assumption. cbv zeta. rewrite B5, IH, E1, E2, E3. reflexivity.
Qed.

Lemma base64_back pad s : unbase64 pad (base64 pad s) = Some s.
Proof. unfold unbase64. rewrite breaks_base64. apply quanta_back. Qed.

(** ** The streaming encoder *)

Lemma groups_rest s : forall t pad, base64 pad (s ++ t) = fst (groups s) ++ base64 pad (snd (groups s) ++ t).
Proof.
  induction s as [|a|a b|a b c r IH] using three_ind; intros t pad; try reflexivity.
  cbn [groups append base64]. destruct (groups r) as [out rest] eqn:E. cbn [fst snd] in *. rewrite IH, app_assoc_s. reflexivity.
Qed.
Lemma run_rest chunks : forall kept pad, base64 pad (kept ++ List.fold_right append "" chunks)
  = fst (encoder_run kept chunks) ++ base64 pad (snd (encoder_run kept chunks)).
Proof.
  induction chunks as [|c rest IH]; intros kept pad; [cbn; rewrite app_nil_s; reflexivity|].
  cbn [fold_right encoder_run]. unfold encoder_write. rewrite <- app_assoc_s, groups_rest.
  destruct (groups (kept ++ c)) as [out k]. cbn [fst snd]. rewrite IH. destruct (encoder_run k rest) as [out' k'].
  cbn [fst snd]. rewrite app_assoc_s. reflexivity.
Qed.
Lemma stream_whole pad chunks : base64_stream pad chunks = base64 pad (List.fold_right append "" chunks).
Proof.
  unfold base64_stream.
  pose proof (run_rest chunks "" pad) as H. cbn [append] in H. rewrite H.
  destruct (encoder_run "" chunks) as [out kept]. reflexivity.
Qed.

(** * Hexadecimal *)

Lemma hex_digit_back v : v < 16 -> hex_value (lower_hex v) = Some v.
Proof.
  intros H. assert (T : all_below 16 (fun v => match hex_value (lower_hex v) with Some w => N.eqb w v | None => false end) = true) by (vm_compute; reflexivity).
  pose proof (all_below_spec _ _ T v H) as E. cbn beta in E. destruct (hex_value (lower_hex v)) as [w|]; [|discriminate].
  apply N.eqb_eq in E. subst w. reflexivity.
Qed.
Lemma hex_digit_inj v w : v < 16 -> w < 16 -> lower_hex v = lower_hex w -> v = w.
Proof. intros Hv Hw E. apply hex_digit_back in Hv, Hw. rewrite E in Hv. congruence. Qed.

Lemma hex_length s : String.length (hex_text s) = (2 * String.length s)%nat.
Proof. induction s as [|a s IH]; [reflexivity|]. cbn [hex_text String.length]. rewrite IH. lia. Qed.
Lemma nibbles a : N_of_ascii a / 16 < 16 /\ N_of_ascii a mod 16 < 16.
Proof. pose proof (byte_bound a). split; lia. Qed.
Lemma hex_inj s : forall t, hex_text s = hex_text t -> s = t.
Proof.
  induction s as [|a s IH]; intros [|b t] H; try discriminate; [reflexivity|]. cbn [hex_text] in H.
  injection H as H1 H2 H3. destruct (nibbles a) as [A1 A2]. destruct (nibbles b) as [B1 B2].
  apply hex_digit_inj in H1; [|assumption|assumption]. apply hex_digit_inj in H2; [|assumption|assumption].
  rewrite (IH _ H3). f_equal. rewrite <- (ascii_N_embedding a), <- (ascii_N_embedding b). f_equal. lia.
Qed.
Definition hex_char (a : ascii) : Prop := In a (list_ascii_of_string "0123456789abcdef").
Lemma hex_digit_char v : v < 16 -> hex_char (lower_hex v).
Proof.
  intros H. assert (T : all_below 16 (fun v => existsb (Ascii.eqb (lower_hex v)) (list_ascii_of_string "0123456789abcdef")) = true) by (vm_compute; reflexivity).
  pose proof (all_below_spec _ _ T v H) as E. cbn beta in E. apply existsb_exists in E as (x & Hx & E).
  apply Ascii.eqb_eq in E. rewrite E. exact Hx.
Qed.
Lemma hex_chars s : Forall hex_char (list_ascii_of_string (hex_text s)).
Proof.
  induction s as [|a s IH]; [constructor|]. cbn [hex_text list_ascii_of_string]. destruct (nibbles a).
  repeat (apply Forall_cons; [apply hex_digit_char; assumption|]). exact IH.
Qed.

(** * ROT13 *)

Lemma rot_rot a : N_of_ascii a < 128 -> rot (rot a) = a /\ N_of_ascii (rot a) < 128.
Proof.
  intros H. assert (T : all_below 128 (fun v => Ascii.eqb (rot (rot (ascii_of_N v))) (ascii_of_N v) && (N_of_ascii (rot (ascii_of_N v)) <? 128)) = true) by (vm_compute; reflexivity).
  pose proof (all_below_spec _ _ T (N_of_ascii a) H) as E. cbn beta in E. rewrite ascii_N_embedding in E.
  apply andb_true_iff in E as [E1 E2]. split; [apply Ascii.eqb_eq; exact E1|apply N.ltb_lt; exact E2].
Qed.

Lemma rot_twice_all n : forall s, (String.length s <= n)%nat -> rot13 (rot13 s) = repair s.
Proof.
  induction n as [|n IH]; intros s Hn; [destruct s; [reflexivity|cbn in Hn; lia]|].
  destruct s as [|a r]; [reflexivity|]. cbn [String.length] in Hn.
  pose proof (rune_shape (String a r)) as Hs. cbn [rot13 repair].
  destruct (rune_len (String a r)) as [|[|[|[|[|k]]]]] eqn:E; try contradiction.
  - change (rot13 (replacement ++ rot13 r)) with (replacement ++ rot13 (rot13 r)). rewrite IH by lia. reflexivity.
  - apply rune1 in E. destruct (rot_rot a E) as [E1 E2]. cbn [rot13].
    rewrite (proj2 (rune1 (rot a) (rot13 r)) E2), E1, IH by lia. reflexivity.
  - destruct Hs as (a' & b & x & Hs). injection Hs as <- ->. cbn [String.length rot13] in *. fold rot13.
    rewrite (rune2 a b x (rot13 x) E), IH by lia. reflexivity.
  - destruct Hs as (a' & b & c & x & Hs). injection Hs as <- ->. cbn [String.length] in *.
    cbn [rot13]. fold rot13. rewrite (rune3 a b c x (rot13 x) E), IH by lia. reflexivity.
  - destruct Hs as (a' & b & c & d & x & Hs). injection Hs as <- ->. cbn [String.length] in *.
    cbn [rot13]. fold rot13. rewrite (rune4 a b c d x (rot13 x) E), IH by lia. reflexivity.
Qed.
Lemma rot_twice s : rot13 (rot13 s) = repair s.
Proof. apply (rot_twice_all _ s (Nat.le_refl _)). Qed.

(** ** Repaired texts are texts *)

Lemma cont_spec n : cont n = true <-> 128 <= n <= 191.
Proof. apply between_spec. Qed.

Lemma cons_text u s : scalar u -> is_text s -> is_text (utf8 u ++ s).
Proof. intros Hu (us & Hus & ->). exists (u :: us). split; [constructor; assumption|reflexivity]. Qed.

Lemma char_is a n : n = N_of_ascii a -> ascii_of_N n = a.
Proof. intros ->. apply ascii_N_embedding. Qed.

Lemma text1 a s : N_of_ascii a < 128 -> is_text s -> is_text (String a s).
Proof.
  intros H Hs. replace (String a s) with (utf8 (N_of_ascii a) ++ s).
  - apply cons_text; [unfold scalar; lia|exact Hs].
  - unfold utf8. apply N.ltb_lt in H. rewrite H. cbn [append]. rewrite ascii_N_embedding. reflexivity.
Qed.
Lemma text2 a b x s : rune_len (String a (String b x)) = 2%nat -> is_text s -> is_text (String a (String b s)).
Proof.
  cbn [rune_len]. intros H Hs. destruct (N_of_ascii a <? 128) eqn:L; [discriminate|]. apply N.ltb_ge in L.
  destruct (between 194 223 _) eqn:B.
  - apply between_spec in B. destruct (cont (N_of_ascii b)) eqn:C; [|discriminate]. apply cont_spec in C.
    set (u := (N_of_ascii a - 192) * 64 + (N_of_ascii b - 128)).
    replace (String a (String b s)) with (utf8 u ++ s); [apply cons_text; [unfold scalar, u; lia|exact Hs]|].
    unfold utf8. replace (u <? 128) with false by (symmetry; apply N.ltb_ge; unfold u; lia).
    replace (u <? 2048) with true by (symmetry; apply N.ltb_lt; unfold u; lia). cbn [append].
    rewrite (char_is a), (char_is b); [reflexivity| |]; unfold u; lia.
  - destruct x as [|c x]; [discriminate|]. destruct (between 224 239 _). { destruct (_ && _) in H; discriminate. }
    destruct x as [|d x]; [discriminate|]. destruct (_ && _) in H; discriminate.
Qed.
Lemma text3 a b c x s : rune_len (String a (String b (String c x))) = 3%nat -> is_text s -> is_text (String a (String b (String c s))).
Proof.
  cbn [rune_len]. intros H Hs. destruct (N_of_ascii a <? 128) eqn:L; [discriminate|]. apply N.ltb_ge in L.
  destruct (between 194 223 _) eqn:B. { destruct (cont _); discriminate. }
  destruct (between 224 239 (N_of_ascii a)) eqn:B3.
  - apply between_spec in B3. destruct (_ && _) eqn:C in H; [|discriminate]. apply andb_true_iff in C as [C1 C2].
    apply cont_spec in C2. apply between_spec in C1.
    set (u := ((N_of_ascii a - 224) * 64 + (N_of_ascii b - 128)) * 64 + (N_of_ascii c - 128)).
    assert (S : 2048 <= u < 65536 /\ (u < 55296 \/ 57344 <= u) /\ 128 <= N_of_ascii b <= 191).
    { unfold u. destruct (N.eqb_spec (N_of_ascii a) 224); destruct (N.eqb_spec (N_of_ascii a) 240);
        destruct (N.eqb_spec (N_of_ascii a) 237); destruct (N.eqb_spec (N_of_ascii a) 244); lia. }
    replace (String a (String b (String c s))) with (utf8 u ++ s); [apply cons_text; [unfold scalar; lia|exact Hs]|].
    unfold utf8. replace (u <? 128) with false by (symmetry; apply N.ltb_ge; lia).
    replace (u <? 2048) with false by (symmetry; apply N.ltb_ge; lia).
    replace (u <? 65536) with true by (symmetry; apply N.ltb_lt; lia). cbn [append].
    rewrite (char_is a), (char_is b), (char_is c); [reflexivity| | |]; unfold u in *; clear C1; lia.
  - destruct x as [|d x]; [discriminate|]. destruct (_ && _) in H; discriminate.
Qed.
Lemma text4 a b c d x s : rune_len (String a (String b (String c (String d x)))) = 4%nat -> is_text s ->
  is_text (String a (String b (String c (String d s)))).
Proof.
  cbn [rune_len]. intros H Hs. destruct (N_of_ascii a <? 128) eqn:L; [discriminate|]. apply N.ltb_ge in L.
  destruct (between 194 223 _) eqn:B. { destruct (cont _); discriminate. }
  destruct (between 224 239 (N_of_ascii a)) eqn:B3. { destruct (_ && _) in H; discriminate. }
  destruct (_ && _ && _ && _) eqn:C in H; [|discriminate]. apply andb_true_iff in C as [C C4]. apply andb_true_iff in C as [C C3].
  apply andb_true_iff in C as [C1 C2]. apply cont_spec in C3, C4. apply between_spec in C1, C2.
  set (u := (((N_of_ascii a - 240) * 64 + (N_of_ascii b - 128)) * 64 + (N_of_ascii c - 128)) * 64 + (N_of_ascii d - 128)).
  assert (S : 65536 <= u < 1114112 /\ 128 <= N_of_ascii b <= 191).
  { unfold u. destruct (N.eqb_spec (N_of_ascii a) 224); destruct (N.eqb_spec (N_of_ascii a) 240);
      destruct (N.eqb_spec (N_of_ascii a) 237); destruct (N.eqb_spec (N_of_ascii a) 244); lia. }
  replace (String a (String b (String c (String d s)))) with (utf8 u ++ s); [apply cons_text; [unfold scalar; lia|exact Hs]|].
  unfold utf8. replace (u <? 128) with false by (symmetry; apply N.ltb_ge; lia).
  replace (u <? 2048) with false by (symmetry; apply N.ltb_ge; lia).
  replace (u <? 65536) with false by (symmetry; apply N.ltb_ge; lia). cbn [append]. clear C2.
  rewrite (char_is a), (char_is b), (char_is c), (char_is d); [reflexivity| | | |]; unfold u in *; lia.
Qed.

Lemma repair_is_text_all n : forall s, (String.length s <= n)%nat -> is_text (repair s).
Proof.
  induction n as [|n IH]; intros s Hn; [destruct s; [exists []; split; [constructor|reflexivity]|cbn in Hn; lia]|].
  destruct s as [|a r]; [exists []; split; [constructor|reflexivity]|]. cbn [String.length] in Hn.
  pose proof (rune_shape (String a r)) as Hs. cbn [repair].
  destruct (rune_len (String a r)) as [|[|[|[|[|k]]]]] eqn:E; try contradiction.
  - apply cons_text; [unfold scalar; lia|]. apply IH. lia.
  - apply rune1 in E. apply text1; [exact E|apply IH; lia].
  - destruct Hs as (a' & b & x & Hs). injection Hs as <- ->. cbn [String.length] in *. eapply text2; [exact E|apply IH; lia].
  - destruct Hs as (a' & b & c & x & Hs). injection Hs as <- ->. cbn [String.length] in *. eapply text3; [exact E|apply IH; lia].
  - destruct Hs as (a' & b & c & d & x & Hs). injection Hs as <- ->. cbn [String.length] in *. eapply text4; [exact E|apply IH; lia].
Qed.
Lemma repair_is_text s : is_text (repair s).
Proof. apply (repair_is_text_all _ s (Nat.le_refl _)). Qed.

Lemma rot_twice_iff s : rot13 (rot13 s) = s <-> is_text s.
Proof.
  rewrite rot_twice. split; [intros E; rewrite <- E; apply repair_is_text|apply repair_text].
Qed.
