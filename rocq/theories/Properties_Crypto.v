(** Properties C45, C46 and C76: encryption of texts. *)
From Coq Require Import PeanoNat.
From Verif Require Import Base Text Encodings EncodingsProofs Base64Spec Base64Proofs Crypto CryptoSpec CryptoProofs.
Open Scope string_scope.

(** * C45: decrypting what was encrypted with the same key yields the text, whatever its
    length and whatever random bytes were drawn *)

Theorem C45_cbc : forall seal_block open_block, block_cipher seal_block open_block ->
  forall key64 iv text, aes_key_text key64 -> String.length iv = 16%nat ->
  exists c, cbc_encrypt seal_block key64 (Some iv) text = Text c /\ cbc_decrypt open_block key64 c = Text text.
Proof.
  intros seal open Hl key64 iv text (key & Ek & Hk) Hv. apply unbase64_means in Ek. apply aes_key_size in Hk.
  exact (cbc_back seal open Hl key64 key iv text Ek Hk Hv).
Qed.
Print Assumptions C45_cbc.

Theorem C45_gcm : forall seal open, opens_sealed seal open ->
  forall key64 nonce text, aes_key_text key64 -> String.length nonce = 12%nat ->
  exists c, gcm_encrypt seal key64 (Some nonce) text = Text c /\ gcm_decrypt open key64 c = Text text.
Proof. intros. apply gcm_back; assumption. Qed.
Print Assumptions C45_gcm.

Theorem C45_chacha : forall seal open, opens_sealed seal open ->
  forall key64 nonce text, chacha_key_text key64 -> String.length nonce = 24%nat ->
  exists c, chacha_encrypt seal key64 (Some nonce) text = Text c /\ chacha_decrypt open key64 c = Text text.
Proof. intros. apply chacha_back; assumption. Qed.
Print Assumptions C45_chacha.

(** Encrypting fails exactly if the key is not one or no random bytes could be had, and
    never panics. *)
Theorem C45_encrypting_fails_only_for_want_of_key_or_randomness : forall seal_block seal key64 random text,
  (cbc_encrypt seal_block key64 random text = Failed <-> ~ aes_key_text key64 \/ random = None)
  /\ (gcm_encrypt seal key64 random text = Failed <-> ~ aes_key_text key64 \/ random = None)
  /\ (chacha_encrypt seal key64 random text = Failed <-> ~ chacha_key_text key64 \/ random = None)
  /\ cbc_encrypt seal_block key64 random text <> Panics
  /\ gcm_encrypt seal key64 random text <> Panics
  /\ chacha_encrypt seal key64 random text <> Panics.
Proof.
  intros sb s key64 r t. unfold cbc_encrypt, gcm_encrypt, chacha_encrypt.
  assert (A : aes_key_text key64 <-> match unbase64 true key64 with Some key => aes_key key = true | None => False end).
  { unfold aes_key_text. split.
    - intros (key & E & H). apply unbase64_means in E. rewrite E. now apply aes_key_size.
    - destruct (unbase64 true key64) as [key|] eqn:E; [|contradiction]. intros H. exists key. split; [now apply unbase64_means|now apply aes_key_size]. }
  assert (B : chacha_key_text key64 <-> match unbase64 true key64 with Some key => chacha_key key = true | None => False end).
  { unfold chacha_key_text, chacha_key. split.
    - intros (key & E & H). apply unbase64_means in E. rewrite E. now apply Nat.eqb_eq.
    - destruct (unbase64 true key64) as [key|] eqn:E; [|contradiction]. intros H. exists key. split; [now apply unbase64_means|now apply Nat.eqb_eq]. }
  rewrite A, B. destruct (unbase64 true key64) as [key|].
  - destruct (aes_key key), (chacha_key key), r;
      repeat split; try discriminate; try (intros; left; discriminate); try (intros; right; reflexivity); intros [H|H]; try congruence; try discriminate; exfalso; apply H; reflexivity.
  - repeat split; try discriminate; intros _; left; intros [].
Qed.
Print Assumptions C45_encrypting_fails_only_for_want_of_key_or_randomness.

(** Toy ciphers that obey the laws: a block cipher that adds the first byte of the key
    to every byte, and an authenticated cipher that checks a tag made of key and nonce. *)
Definition shift (up : bool) (key b : string) : string :=
  let k := match key with String a _ => N_of_ascii a | EmptyString => 0%N end in
  string_of_list_ascii (map (fun a => ascii_of_N ((N_of_ascii a + (if up then k else 256 - k)) mod 256)) (list_ascii_of_string b)).
Lemma shift_cipher : block_cipher (shift true) (shift false).
Proof.
  assert (L : forall b up key, String.length (shift up key b) = String.length b).
  { intros b up key. unfold shift. cbv zeta. set (f := fun a => _). induction b as [|a b IH]; cbn; congruence. }
  intros key b _ Hb. split; [rewrite L; exact Hb|].
  unfold shift. cbv zeta. set (k := match key with EmptyString => _ | String a _ => _ end).
  assert (K : (k < 256)%N) by (unfold k; destruct key as [|a ?]; [reflexivity|apply N_ascii_bounded]).
  clearbody k. clear Hb key L. induction b as [|a b IH]; [reflexivity|].
  cbn [list_ascii_of_string map string_of_list_ascii]. rewrite IH. f_equal.
  rewrite N_ascii_embedding by (apply N.mod_lt; discriminate).
  rewrite N.add_mod_idemp_l by discriminate. replace (N_of_ascii a + k + (256 - k))%N with (N_of_ascii a + 1 * 256)%N by lia.
  rewrite N.mod_add by discriminate. rewrite N.mod_small by apply N_ascii_bounded. apply ascii_N_embedding.
Qed.
Definition tag_seal (key nonce p : string) : string := p ++ "|" ++ key ++ "|" ++ nonce.
Definition tag_open (key nonce c : string) : option string :=
  let t := "|" ++ key ++ "|" ++ nonce in
  let n := (String.length c - String.length t)%nat in
  if String.eqb (first n c ++ t) c then Some (first n c) else None.
Lemma tag_opens_sealed : opens_sealed tag_seal tag_open.
Proof.
  intros key nonce p. unfold tag_open, tag_seal. cbv zeta. rewrite app_length_s.
  set (t := "|" ++ key ++ "|" ++ nonce). replace (String.length p + String.length t - String.length t)%nat with (String.length p) by lia.
  rewrite first_app, String.eqb_refl. reflexivity.
Qed.
Lemma tag_opens_only_sealed : opens_only_sealed tag_seal tag_open.
Proof.
  intros key nonce c p. unfold tag_open, tag_seal. cbv zeta. set (t := "|" ++ key ++ "|" ++ nonce).
  destruct (String.eqb_spec (first (String.length c - String.length t) c ++ t) c) as [E|]; [|discriminate].
  intros [= <-]. symmetry. exact E.
Qed.

Definition key16 : string := base64 true "sixteen bytes ok".
Definition key32 : string := base64 true "thirty-two bytes make a long key".
Example C45_example :
  key16 = "c2l4dGVlbiBieXRlcyBvaw==" /\ aes_key_text key16 /\ aes_key_text key32 /\ chacha_key_text key32
  /\ cbc_encrypt (shift true) key16 (Some "0123456789abcdef") "exactly 16 bytes"
     = Text "MDEyMzQ1Njc4OWFiY2RlZsi8xsOzzMKKfIK0c42Dc4hLH0lGFk9FDd8FF9YQBtYL"
  /\ cbc_decrypt (shift false) key16 "MDEyMzQ1Njc4OWFiY2RlZsi8xsOzzMKKfIK0c42Dc4hLH0lGFk9FDd8FF9YQBtYL" = Text "exactly 16 bytes"
  /\ gcm_encrypt tag_seal key16 (Some "twelve bytes") "" = Text "dHdlbHZlIGJ5dGVzfHNpeHRlZW4gYnl0ZXMgb2t8dHdlbHZlIGJ5dGVz"
  /\ chacha_encrypt tag_seal key16 (Some "twenty-four random bytes") "text" = Failed.
Proof.
  split; [vm_compute; reflexivity|].
  split; [exists "sixteen bytes ok"; split; [apply unbase64_means; vm_compute; reflexivity|left; reflexivity]|].
  split; [exists "thirty-two bytes make a long key"; split; [apply unbase64_means; vm_compute; reflexivity|right; right; reflexivity]|].
  split; [exists "thirty-two bytes make a long key"; split; [apply unbase64_means|]; vm_compute; reflexivity|].
  vm_compute. repeat split; reflexivity.
Qed.

(** * C46: decrypting a malformed text *)

(** AES-GCM never panics. *)
Theorem C46_gcm : forall open key64 c, gcm_decrypt open key64 c <> Panics.
Proof. exact gcm_quiet. Qed.
Print Assumptions C46_gcm.

(** XChaCha20-Poly1305 panics exactly on texts of 1 to 23 bytes under a usable key, so
    on all others it answers with a text or an error. *)
Theorem C46_chacha_partial : forall open key64 c,
  chacha_decrypt open key64 c = Panics
  <-> chacha_key_text key64 /\ exists b, means64 true c b /\ (0 < String.length b < 24)%nat.
Proof. exact chacha_panics. Qed.
Print Assumptions C46_chacha_partial.
Theorem C46_chacha_refuted : forall open key64, chacha_key_text key64 -> chacha_decrypt open key64 "AA==" = Panics.
Proof.
  intros open key64 H. apply chacha_panics. split; [exact H|]. exists (String "000" ""). split; [apply unbase64_means; vm_compute; reflexivity|cbn; lia].
Qed.
Print Assumptions C46_chacha_refuted.

(** AES-CBC, under a usable key, panics on every text of at least 16 bytes that is not
    made of blocks of 16, on every text of exactly 16 bytes, and on those whose last
    opened byte exceeds the length of what follows the first block; on all others it
    answers with a text or an error. *)
Theorem C46_cbc_partial : forall open_block key64 c,
  (forall k b, String.length b = 16%nat -> String.length (open_block k b) = 16%nat) ->
  (cbc_decrypt open_block key64 c = Panics
   <-> exists key b, means64 true key64 key /\ (String.length key = 16 \/ String.length key = 24 \/ String.length key = 32)%nat
       /\ means64 true c b /\ (16 <= String.length b)%nat
       /\ (Nat.modulo (String.length b) 16 <> 0%nat
           \/ String.length b = 16%nat
           \/ exists x u p v w q, b = x ++ (u ++ String p "") ++ v /\ String.length (u ++ String p "") = 16%nat /\ String.length v = 16%nat
                /\ open_block key v = w ++ String q ""
                /\ N.of_nat (String.length b - 16) < N.lxor (N_of_ascii q) (N_of_ascii p))).
Proof.
  intros open key64 c Ho.
  assert (L : forall key bs prev, Forall full bs -> full prev -> String.length (cbc_open open key prev bs) = (List.length bs * 16)%nat).
  { intros key bs. induction bs as [|b bs IH]; intros prev Hb Hp; [reflexivity|]. cbn [cbc_open List.length].
    inversion Hb as [|? ? Hb1 Hb2]; subst. rewrite app_length_s, xor_length, (Ho _ _ Hb1), (IH _ Hb2 Hb1) by (rewrite (Ho _ _ Hb1); symmetry; exact Hp). lia. }
  rewrite cbc_panics. split.
  - intros (key & b & Ek & Hk & Eb & Hl & D). exists key, b. rewrite aes_key_size in Hk. apply unbase64_means in Ek, Eb.
    split; [exact Ek|]. split; [exact Hk|]. split; [exact Eb|]. split; [exact Hl|].
    destruct D as [D|[D T]]; [left; exact D|]. right.
    apply Nat.mod_divide in D; [|lia]. destruct D as [n Hn].
    assert (Hm : String.length (behind 16 b) = ((n - 1) * 16)%nat) by (rewrite behind_length; lia).
    destruct (to_blocks_full _ _ Hm) as [F1 F2]. apply trim_panics in T.
    pose proof (L key _ (first 16 b) F1 (first_length 16 b Hl)) as Lo. destruct (blocks_concat _ F1) as [_ F5]. rewrite F2 in F5.
    destruct T as [T|(p & T1 & T2)].
    + left. rewrite T in Lo. cbn [String.length] in Lo. rewrite behind_length in F5. lia.
    + right. rewrite behind_length in F5.
      destruct (Nat.eq_dec (String.length b) 16) as [D16|D16].
      { exfalso. assert (H0 : String.length (behind 16 b) = 0%nat) by (rewrite behind_length; lia).
        destruct (behind 16 b); [|discriminate]. discriminate T1. }
      assert (H2 : String.length b = ((n - 2 + 2) * 16)%nat) by lia.
      set (k := (String.length b - 32)%nat). set (y := behind k b).
      assert (Ly : String.length y = 32%nat) by (unfold y; rewrite behind_length; unfold k; lia).
      destruct (ends (first 16 y) 15) as (u & a & Eu); [apply first_length; lia|].
      assert (Lv : String.length (behind 16 y) = 16%nat) by (rewrite behind_length; lia).
      destruct (ends (open key (behind 16 y)) 15 (Ho key _ Lv)) as (w & q & Ew).
      assert (Lu : String.length (u ++ String a "") = 16%nat) by (rewrite <- Eu; apply first_length; lia).
      assert (Eb2 : b = first k b ++ (u ++ String a "") ++ behind 16 y) by (rewrite <- Eu, first_behind; unfold y; now rewrite first_behind).
      exists (first k b), u, a, (behind 16 y), w, q.
      split; [exact Eb2|]. split; [exact Lu|]. split; [exact Lv|]. split; [exact Ew|].
      rewrite (cbc_last_any open key Ho b _ H2 _ _ _ _ _ _ _ Eb2 Lu Lv Ew eq_refl) in T1. injection T1 as <-.
      rewrite Lo in T2. unfold nat_of_ascii in T2. rewrite N_ascii_embedding in T2 by apply lxor_byte. lia.
  - intros (key & b & Ek & Hk & Eb & Hl & D). apply unbase64_means in Ek, Eb. exists key, b. rewrite aes_key_size.
    split; [exact Ek|]. split; [exact Hk|]. split; [exact Eb|]. split; [exact Hl|].
    destruct (Nat.eq_dec (Nat.modulo (String.length b) 16) 0) as [D0|D0]; [|left; exact D0]. right. split; [exact D0|].
    destruct D as [D|D]; [congruence|]. apply trim_panics.
    apply Nat.mod_divide in D0; [|lia]. destruct D0 as [n Hn].
    assert (Hm : String.length (behind 16 b) = ((n - 1) * 16)%nat) by (rewrite behind_length; lia).
    destruct (to_blocks_full _ _ Hm) as [F1 F2].
    pose proof (L key _ (first 16 b) F1 (first_length 16 b Hl)) as Lo. destruct (blocks_concat _ F1) as [_ F5]. rewrite F2, behind_length in F5.
    destruct D as [D|(x & u & p & v & w & q & Eb2 & Lu & Lv & Ew & T2)].
    + left. destruct (cbc_open open key (first 16 b) (to_blocks (behind 16 b))); [reflexivity|]. cbn [String.length] in Lo. lia.
    + right. assert (H2 : String.length b = ((n - 2 + 2) * 16)%nat).
      { pose proof (f_equal String.length Eb2) as E. rewrite !app_length_s in E. rewrite app_length_s in Lu. lia. }
      eexists. split; [exact (cbc_last_any open key Ho b _ H2 _ _ _ _ _ _ _ Eb2 Lu Lv Ew eq_refl)|].
      rewrite Lo. unfold nat_of_ascii. rewrite N_ascii_embedding by apply lxor_byte. lia.
Qed.
Print Assumptions C46_cbc_partial.
Theorem C46_cbc_refuted : forall open_block key64, aes_key_text key64 ->
  cbc_decrypt open_block key64 "MDEyMzQ1Njc4OWFiY2RlZg==" = Panics
  /\ cbc_decrypt open_block key64 "MDEyMzQ1Njc4OWFiY2RlZmc=" = Panics.
Proof.
  intros open key64 (key & Ek & Hk). apply unbase64_means in Ek. apply aes_key_size in Hk. split; apply cbc_panics.
  - exists key, "0123456789abcdef". do 3 (split; [assumption || (vm_compute; reflexivity)|]). split; [cbn; lia|].
    right. split; vm_compute; reflexivity.
  - exists key, "0123456789abcdefg". do 3 (split; [assumption || (vm_compute; reflexivity)|]). split; [cbn; lia|].
    left. vm_compute. discriminate.
Qed.
Print Assumptions C46_cbc_refuted.
(** A wrong key is enough. *)
Example C46_wrong_key :
  let other := base64 true "Sixteen bytes ok" in
  cbc_decrypt (shift false) other "MDEyMzQ1Njc4OWFiY2RlZsi8xsOzzMKKfIK0c42Dc4hLH0lGFk9FDd8FF9YQBtYL" = Panics
  /\ (forall k b, String.length b = 16%nat -> String.length (shift false k b) = 16%nat)
  /\ gcm_decrypt tag_open other "dHdlbHZlIGJ5dGVzfHNpeHRlZW4gYnl0ZXMgb2t8dHdlbHZlIGJ5dGVz" = Failed
  /\ gcm_decrypt tag_open key16 "AA==" = Failed /\ chacha_decrypt tag_open key32 "" = Failed.
Proof.
  split; [vm_compute; reflexivity|]. split.
  - intros k b H. rewrite <- H. unfold shift. cbv zeta. set (f := fun a => _). clearbody f. clear H. induction b as [|a b IH]; cbn; congruence.
  - vm_compute. repeat split; reflexivity.
Qed.

(** * C76: only texts that Encrypt can produce are accepted *)

Theorem C76_gcm : forall seal open, opens_only_sealed seal open -> forall key64 c text, gcm_decrypt open key64 c = Text text ->
  exists nonce c', String.length nonce = 12%nat
  /\ gcm_encrypt seal key64 (Some nonce) text = Text c' /\ exists b, means64 true c b /\ means64 true c' b.
Proof.
  intros seal open Hl key64 c text H. destruct (gcm_sealed _ _ _ _ _ Hl H) as (key & n & Ek & Hn & Ec).
  exists n, (base64 true (n ++ seal key n text)). split; [exact Hn|]. split; [|exists (n ++ seal key n text); split; apply unbase64_means; [exact Ec|apply base64_back]].
  unfold gcm_encrypt. rewrite Ek. unfold gcm_decrypt in H. rewrite Ek in H. destruct (unbase64 true c); [|discriminate].
  destruct (_ =? 0)%nat; [discriminate|]. destruct (aes_key key); [reflexivity|discriminate].
Qed.
Print Assumptions C76_gcm.

Theorem C76_chacha : forall seal open, opens_only_sealed seal open -> forall key64 c text, chacha_decrypt open key64 c = Text text ->
  exists nonce c', String.length nonce = 24%nat
  /\ chacha_encrypt seal key64 (Some nonce) text = Text c' /\ exists b, means64 true c b /\ means64 true c' b.
Proof.
  intros seal open Hl key64 c text H. destruct (chacha_sealed _ _ _ _ _ Hl H) as (key & n & Ek & Hn & Ec).
  exists n, (base64 true (n ++ seal key n text)). split; [exact Hn|]. split; [|exists (n ++ seal key n text); split; apply unbase64_means; [exact Ec|apply base64_back]].
  unfold chacha_encrypt. rewrite Ek. unfold chacha_decrypt in H. rewrite Ek in H. destruct (unbase64 true c); [|discriminate].
  destruct (_ =? 0)%nat; [discriminate|]. destruct (chacha_key key); [reflexivity|discriminate].
Qed.
Print Assumptions C76_chacha.

Example C76_example :
  opens_only_sealed tag_seal tag_open /\ opens_sealed tag_seal tag_open
  /\ gcm_decrypt tag_open key16 (base64 true ("twelve bytes" ++ tag_seal "sixteen bytes ok" "twelve bytes" "secret")) = Text "secret"
  /\ gcm_decrypt tag_open key16 (base64 true ("twelvE bytes" ++ tag_seal "sixteen bytes ok" "twelve bytes" "secret")) = Failed.
Proof. split; [exact tag_opens_only_sealed|]. split; [exact tag_opens_sealed|]. vm_compute. split; reflexivity. Qed.

(** AES-CBC carries no authentication: from any cipher text of a non-empty text one
    makes, without the key, another one that decrypts to a text with another first
    byte. *)
Theorem C76_cbc_refuted : forall seal_block open_block, block_cipher seal_block open_block ->
  forall key64 iv a text, aes_key_text key64 -> String.length iv = 16%nat ->
  exists c c' a', cbc_encrypt seal_block key64 (Some iv) (String a text) = Text c /\ c' <> c /\ a' <> a
  /\ cbc_decrypt open_block key64 c' = Text (String a' text).
Proof.
  intros seal open Hl key64 iv a text (key & Ek & Hk) Hv. apply unbase64_means in Ek. apply aes_key_size in Hk.
  destruct (cbc_malleable seal open Hl key64 key iv a text Ek Hk Hv) as (c & c' & H1 & H2 & H3).
  exists c, c', (flip a). split; [exact H1|]. split; [exact H2|]. split; [apply flip_differs|exact H3].
Qed.
Print Assumptions C76_cbc_refuted.

Example C76_cbc_example :
  cbc_decrypt (shift false) key16 (base64 true ("0023456789abcdef" ++ cbc_seal (shift true) "sixteen bytes ok" "0123456789abcdef" (to_blocks (pad_text "pay 1000"))))
  = Text "p`y 1000".
Proof. vm_compute. reflexivity. Qed.
