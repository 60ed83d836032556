(** Decrypting undoes encrypting. *)
From Coq Require Import PeanoNat ZArith.
From Verif Require Import Base Text Encodings EncodingsProofs Base64Spec Base64Proofs Crypto CryptoSpec.
Open Scope string_scope.

Lemma first_app s t : first (String.length s) (s ++ t) = s.
Proof. induction s as [|a s IH]; cbn; [reflexivity|]. rewrite IH. reflexivity. Qed.
Lemma behind_app s t : behind (String.length s) (s ++ t) = t.
Proof. induction s as [|a s IH]; cbn; [reflexivity|]. exact IH. Qed.
Lemma first_behind n : forall s, first n s ++ behind n s = s.
Proof. induction n as [|n IH]; intros [|a s]; try reflexivity. cbn. rewrite IH. reflexivity. Qed.
Lemma first_length n : forall s, (n <= String.length s)%nat -> String.length (first n s) = n.
Proof. induction n as [|n IH]; intros [|a s] H; cbn in *; try lia. rewrite IH by lia. reflexivity. Qed.
Lemma behind_length n : forall s, String.length (behind n s) = (String.length s - n)%nat.
Proof. induction n as [|n IH]; intros [|a s]; cbn; try reflexivity. apply IH. Qed.
Lemma repeat_length n a : String.length (repeat_byte n a) = n.
Proof. induction n as [|n IH]; cbn; congruence. Qed.

Lemma xor_length s : forall t, String.length s = String.length t -> String.length (xor_bytes s t) = String.length s.
Proof. induction s as [|a s IH]; intros [|b t] H; cbn in *; try lia. rewrite IH; lia. Qed.
Lemma lxor_byte a b : N.lxor (N_of_ascii a) (N_of_ascii b) < 256%N.
Proof.
  assert (A := N_ascii_bounded a). assert (B := N_ascii_bounded b).
  assert (L : forall x, x < 256 -> x = 0 \/ N.log2 x < 8).
  { intros x H. destruct (N.eq_dec x 0) as [->|Z]; [auto|]. right. apply N.log2_lt_pow2; [lia|exact H]. }
  destruct (N.eq_dec (N.lxor (N_of_ascii a) (N_of_ascii b)) 0) as [->|Z]; [lia|].
  change 256 with (2 ^ 8). apply N.log2_lt_pow2; [lia|].
  eapply N.le_lt_trans; [apply N.log2_lxor|]. apply N.max_lub_lt; [destruct (L _ A) as [->|]|destruct (L _ B) as [->|]]; cbn; lia.
Qed.
Lemma xor_byte_back a b : ascii_of_N (N.lxor (N_of_ascii (ascii_of_N (N.lxor (N_of_ascii a) (N_of_ascii b)))) (N_of_ascii b)) = a.
Proof.
  rewrite N_ascii_embedding by apply lxor_byte. rewrite N.lxor_assoc, N.lxor_nilpotent, N.lxor_0_r. apply ascii_N_embedding.
Qed.
Lemma xor_back s : forall t, String.length s = String.length t -> xor_bytes (xor_bytes s t) t = s.
Proof.
  induction s as [|a s IH]; intros [|b t] H; cbn [String.length] in H; try lia; [reflexivity|].
  cbn [xor_bytes]. rewrite xor_byte_back, IH by lia. reflexivity.
Qed.

(** * Padding *)

Definition pad_size (s : string) : nat := (block_size - Nat.modulo (String.length s) block_size)%nat.
Lemma pad_size_range s : (1 <= pad_size s <= 16)%nat.
Proof. unfold pad_size, block_size. pose proof (Nat.mod_upper_bound (String.length s) 16). lia. Qed.

Lemma padded_length s : String.length (pad_text s) = (String.length s + pad_size s)%nat.
Proof. unfold pad_text. fold (pad_size s). rewrite app_length_s, repeat_length. reflexivity. Qed.
Lemma padded_blocks s : exists n, String.length (pad_text s) = (n * 16)%nat /\ (1 <= n)%nat.
Proof.
  rewrite padded_length. unfold pad_size, block_size. exists (S (Nat.div (String.length s) 16)).
  pose proof (Nat.div_mod (String.length s) 16 ltac:(lia)). pose proof (Nat.mod_upper_bound (String.length s) 16). lia.
Qed.

Lemma last_app s t : t <> "" -> last_byte (s ++ t) = last_byte t.
Proof.
  intros Ht. induction s as [|a s IH]; [reflexivity|]. cbn [append last_byte]. rewrite IH.
  destruct (last_byte t) eqn:E; [reflexivity|]. destruct t as [|b t]; [congruence|]. cbn in E. destruct (last_byte t); discriminate.
Qed.
Lemma last_repeat n a : last_byte (repeat_byte (S n) a) = Some a.
Proof. induction n as [|n IH]; [reflexivity|]. cbn [repeat_byte last_byte] in *. rewrite IH. reflexivity. Qed.

Lemma trim_pad s : trim_text (pad_text s) = Text s.
Proof.
  unfold trim_text. pose proof (pad_size_range s) as B. rewrite padded_length.
  unfold pad_text. fold (pad_size s). destruct (pad_size s) as [|p] eqn:E; [lia|].
  rewrite last_app by discriminate. rewrite last_repeat.
  replace (nat_of_ascii (ascii_of_nat (S p))) with (S p) by (symmetry; apply nat_ascii_embedding; lia).
  destruct (Nat.ltb_spec (String.length s + S p) (S p)); [lia|].
  replace (String.length s + S p - S p)%nat with (String.length s) by lia. rewrite first_app. reflexivity.
Qed.

(** * Blocks *)

Definition full (b : string) : Prop := String.length b = 16%nat.
Lemma first_full b t : full b -> first block_size (b ++ t) = b.
Proof. unfold full, block_size. intros <-. apply first_app. Qed.
Lemma behind_full b t : full b -> behind block_size (b ++ t) = t.
Proof. unfold full, block_size. intros <-. apply behind_app. Qed.
Lemma blocks_full n : forall s, String.length s = (n * 16)%nat -> Forall full (blocks n s) /\ fold_right append "" (blocks n s) = s.
Proof.
  induction n as [|n IH]; intros s H; [destruct s; [split; [constructor|reflexivity]|discriminate]|].
  cbn [blocks fold_right]. destruct (IH (behind block_size s)) as [I1 I2].
  { rewrite behind_length. unfold block_size. lia. }
  split.
  - constructor; [|exact I1]. unfold full. rewrite first_length; [reflexivity|]. unfold block_size. lia.
  - rewrite I2. apply first_behind.
Qed.
Lemma to_blocks_full s n : String.length s = (n * 16)%nat -> Forall full (to_blocks s) /\ fold_right append "" (to_blocks s) = s.
Proof. intros H. unfold to_blocks, block_size. rewrite H, Nat.div_mul by lia. apply blocks_full. exact H. Qed.
Lemma blocks_concat bs : Forall full bs -> to_blocks (fold_right append "" bs) = bs /\ String.length (fold_right append "" bs) = (List.length bs * 16)%nat.
Proof.
  induction 1 as [|b bs Hb H [I1 I2]]; [split; reflexivity|]. cbn [fold_right].
  assert (L : String.length (b ++ fold_right append "" bs) = (S (List.length bs) * 16)%nat).
  { rewrite app_length_s, I2. unfold full in Hb. lia. }
  split; [|exact L]. unfold to_blocks, block_size in *. rewrite L, Nat.div_mul by lia. rewrite I2, Nat.div_mul in I1 by lia.
  cbn [blocks]. rewrite first_full, behind_full, I1 by exact Hb. reflexivity.
Qed.

Lemma aes_key_size k : aes_key k = true <-> (String.length k = 16 \/ String.length k = 24 \/ String.length k = 32)%nat.
Proof. unfold aes_key. rewrite !orb_true_iff, !Nat.eqb_eq. tauto. Qed.

Section Cbc.
Variable seal_block open_block : string -> string -> string.
Hypothesis Hlaw : block_cipher seal_block open_block.

Fixpoint chain (key prev : string) (bs : list string) : list string :=
  match bs with [] => [] | b :: rest => let c := seal_block key (xor_bytes b prev) in c :: chain key c rest end.
Lemma seal_chain key bs : forall prev, cbc_seal seal_block key prev bs = fold_right append "" (chain key prev bs).
Proof. induction bs as [|b bs IH]; intros prev; [reflexivity|]. cbn. rewrite IH. reflexivity. Qed.
Lemma chain_full key bs : aes_key key = true -> Forall full bs -> forall prev, full prev -> Forall full (chain key prev bs).
Proof.
  intros Hk. apply aes_key_size in Hk. induction 1 as [|b bs Hb H IH]; intros prev Hp; [constructor|].
  cbn [chain]. assert (L : full (seal_block key (xor_bytes b prev))).
  { apply Hlaw; [exact Hk|]. rewrite xor_length; unfold full in *; congruence. }
  constructor; [exact L|apply IH; exact L].
Qed.
Lemma chain_open key bs : aes_key key = true -> Forall full bs -> forall prev, full prev ->
  cbc_open open_block key prev (chain key prev bs) = fold_right append "" bs.
Proof.
  intros Hk. apply aes_key_size in Hk. induction 1 as [|b bs Hb H IH]; intros prev Hp; [reflexivity|].
  cbn [chain cbc_open fold_right].
  assert (X : String.length (xor_bytes b prev) = 16%nat) by (rewrite xor_length; unfold full in *; congruence).
  destruct (Hlaw key (xor_bytes b prev) Hk X) as [L E]. rewrite E, xor_back by (unfold full in *; congruence).
  rewrite IH by exact L. reflexivity.
Qed.

Lemma cbc_back key64 key v text : unbase64 true key64 = Some key -> aes_key key = true -> full v ->
  exists c, cbc_encrypt seal_block key64 (Some v) text = Text c /\ cbc_decrypt open_block key64 c = Text text.
Proof.
  intros Ek Hk Hv. unfold cbc_encrypt, cbc_decrypt. rewrite Ek, Hk. eexists. split; [reflexivity|].
  rewrite base64_back. destruct (padded_blocks text) as (n & Hn & Hn1).
  destruct (to_blocks_full (pad_text text) n Hn) as [F1 F2].
  pose proof (chain_full key _ Hk F1 v Hv) as F3. destruct (blocks_concat _ F3) as [F4 F5]. rewrite seal_chain.
  assert (L : String.length (v ++ fold_right append "" (chain key v (to_blocks (pad_text text)))) = (16 + List.length (chain key v (to_blocks (pad_text text))) * 16)%nat).
  { rewrite app_length_s, F5, Hv. reflexivity. }
  rewrite L. destruct (Nat.ltb_spec (16 + List.length (chain key v (to_blocks (pad_text text))) * 16) block_size) as [C|_]; [unfold block_size in C; lia|].
  cbn [negb]. cbv zeta. rewrite first_full, behind_full, F5 by exact Hv.
  unfold block_size. rewrite Nat.mod_mul by lia. cbn [Nat.eqb negb]. rewrite F4, chain_open by assumption.
  rewrite F2. apply trim_pad.
Qed.
End Cbc.

(** * Authenticated ciphers *)

Lemma gcm_back seal open key64 n text : opens_sealed seal open -> aes_key_text key64 -> String.length n = 12%nat ->
  exists c, gcm_encrypt seal key64 (Some n) text = Text c /\ gcm_decrypt open key64 c = Text text.
Proof.
  intros Hl (key & Ek & Hk) Hn. apply unbase64_means in Ek. apply aes_key_size in Hk. unfold gcm_encrypt, gcm_decrypt. rewrite Ek, Hk.
  eexists. split; [reflexivity|]. rewrite base64_back, app_length_s, Hn.
  destruct (Nat.eqb_spec (12 + String.length (seal key n text)) 0); [lia|]. cbn [negb].
  destruct (Nat.ltb_spec (12 + String.length (seal key n text)) 12); [lia|].
  rewrite <- Hn, first_app, behind_app, Hl. reflexivity.
Qed.
Lemma chacha_back seal open key64 n text : opens_sealed seal open -> chacha_key_text key64 -> String.length n = 24%nat ->
  exists c, chacha_encrypt seal key64 (Some n) text = Text c /\ chacha_decrypt open key64 c = Text text.
Proof.
  intros Hl (key & Ek & Hk) Hn. apply unbase64_means in Ek. unfold chacha_encrypt, chacha_decrypt, chacha_key. rewrite Ek, Hk.
  eexists. split; [reflexivity|]. rewrite base64_back, app_length_s, Hn.
  destruct (Nat.eqb_spec (24 + String.length (seal key n text)) 0); [lia|]. cbn [Nat.eqb negb].
  destruct (Nat.ltb_spec (24 + String.length (seal key n text)) 24); [lia|].
  rewrite <- Hn, first_app, behind_app, Hl. reflexivity.
Qed.

Lemma gcm_quiet open key64 c : gcm_decrypt open key64 c <> Panics.
Proof.
  unfold gcm_decrypt. destruct (unbase64 true key64); [|discriminate]. destruct (unbase64 true c); [|discriminate].
  destruct (_ =? 0)%nat; [discriminate|]. destruct (negb _); [discriminate|]. destruct (_ <? 12)%nat; [discriminate|].
  destruct (open _ _ _); discriminate.
Qed.
Lemma chacha_panics_on open key64 c : chacha_decrypt open key64 c = Panics <->
  (exists key, unbase64 true key64 = Some key /\ String.length key = 32%nat) /\ exists b, unbase64 true c = Some b /\ (0 < String.length b < 24)%nat.
Proof.
  unfold chacha_decrypt. split.
  - destruct (unbase64 true key64) as [key|]; [|discriminate]. destruct (unbase64 true c) as [b|]; [|discriminate].
    destruct (Nat.eqb_spec (String.length b) 0); [discriminate|]. unfold chacha_key.
    destruct (Nat.eqb_spec (String.length key) 32); [|discriminate]. cbn [negb].
    destruct (Nat.ltb_spec (String.length b) 24); [|destruct (open _ _ _); discriminate].
    intros _. split; [eauto|]. exists b. split; [reflexivity|lia].
  - intros ((key & -> & Hk) & b & -> & Hb). destruct (Nat.eqb_spec (String.length b) 0); [lia|].
    unfold chacha_key. rewrite Hk. cbn [Nat.eqb negb]. destruct (Nat.ltb_spec (String.length b) 24); [reflexivity|lia].
Qed.
Lemma chacha_panics open key64 c : chacha_decrypt open key64 c = Panics <->
  chacha_key_text key64 /\ exists b, means64 true c b /\ (0 < String.length b < 24)%nat.
Proof.
  rewrite chacha_panics_on. unfold chacha_key_text. split.
  - intros ((key & Ek & Hk) & b & Eb & Hb). apply unbase64_means in Ek, Eb. split; [exists key|exists b]; auto.
  - intros ((key & Ek & Hk) & b & Eb & Hb). apply unbase64_means in Ek, Eb. split; [exists key|exists b]; auto.
Qed.

Lemma trim_panics s : trim_text s = Panics <-> s = "" \/ exists p, last_byte s = Some p /\ (String.length s < nat_of_ascii p)%nat.
Proof.
  unfold trim_text. split.
  - destruct (last_byte s) as [p|] eqn:E.
    + destruct (Nat.ltb_spec (String.length s) (nat_of_ascii p)); [|discriminate]. right. eauto.
    + left. destruct s as [|a s]; [reflexivity|]. cbn in E. destruct (last_byte s); discriminate.
  - intros [->|(p & -> & H)]; [reflexivity|]. destruct (Nat.ltb_spec (String.length s) (nat_of_ascii p)); [reflexivity|lia].
Qed.

Lemma cbc_panics open_block key64 c : cbc_decrypt open_block key64 c = Panics <->
  exists key b, unbase64 true key64 = Some key /\ aes_key key = true /\ unbase64 true c = Some b /\ (16 <= String.length b)%nat
  /\ (Nat.modulo (String.length b) 16 <> 0%nat
      \/ Nat.modulo (String.length b) 16 = 0%nat /\ trim_text (cbc_open open_block key (first 16 b) (to_blocks (behind 16 b))) = Panics).
Proof.
  unfold cbc_decrypt, block_size.
  assert (M : forall b, (16 <= String.length b)%nat -> Nat.modulo (String.length (behind 16 b)) 16 = Nat.modulo (String.length b) 16).
  { intros b H. rewrite behind_length. replace (String.length b) with (String.length b - 16 + 1 * 16)%nat at 2 by lia.
    rewrite Nat.mod_add by lia. reflexivity. }
  split.
  - destruct (unbase64 true key64) as [key|]; [|discriminate]. destruct (unbase64 true c) as [b|]; [|discriminate].
    destruct (Nat.ltb_spec (String.length b) 16) as [|L]; [discriminate|]. destruct (aes_key key) eqn:K; [|discriminate].
    cbn [negb]. cbv zeta. rewrite M by exact L. intros H. exists key, b. repeat (split; [auto|]).
    destruct (Nat.eqb_spec (Nat.modulo (String.length b) 16) 0) as [E|E]; cbn [negb] in H; [right; split; assumption|left; exact E].
  - intros (key & b & -> & K & -> & L & H). destruct (Nat.ltb_spec (String.length b) 16); [lia|]. rewrite K. cbn [negb]. cbv zeta.
    rewrite M by exact L. destruct (Nat.eqb_spec (Nat.modulo (String.length b) 16) 0) as [E|E]; cbn [negb]; [|reflexivity].
    destruct H as [H|[_ H]]; [contradiction|exact H].
Qed.

(** What is accepted was sealed. *)
Lemma gcm_sealed seal open key64 c p : opens_only_sealed seal open -> gcm_decrypt open key64 c = Text p ->
  exists key n, unbase64 true key64 = Some key /\ String.length n = 12%nat /\ unbase64 true c = Some (n ++ seal key n p).
Proof.
  intros Hl. unfold gcm_decrypt. destruct (unbase64 true key64) as [key|]; [|discriminate]. destruct (unbase64 true c) as [b|]; [|discriminate].
  destruct (_ =? 0)%nat; [discriminate|]. destruct (negb _); [discriminate|]. destruct (Nat.ltb_spec (String.length b) 12); [discriminate|].
  destruct (open key (first 12 b) (behind 12 b)) as [q|] eqn:E; [|discriminate]. intros [= <-].
  exists key, (first 12 b). split; [reflexivity|]. split; [apply first_length; lia|]. rewrite <- (Hl _ _ _ _ E), first_behind. reflexivity.
Qed.
Lemma chacha_sealed seal open key64 c p : opens_only_sealed seal open -> chacha_decrypt open key64 c = Text p ->
  exists key n, unbase64 true key64 = Some key /\ String.length n = 24%nat /\ unbase64 true c = Some (n ++ seal key n p).
Proof.
  intros Hl. unfold chacha_decrypt. destruct (unbase64 true key64) as [key|]; [|discriminate]. destruct (unbase64 true c) as [b|]; [|discriminate].
  destruct (_ =? 0)%nat; [discriminate|]. destruct (negb _); [discriminate|]. destruct (Nat.ltb_spec (String.length b) 24); [discriminate|].
  destruct (open key (first 24 b) (behind 24 b)) as [q|] eqn:E; [|discriminate]. intros [= <-].
  exists key, (first 24 b). split; [reflexivity|]. split; [apply first_length; lia|]. rewrite <- (Hl _ _ _ _ E), first_behind. reflexivity.
Qed.

(** ** CBC: another initialization vector, another text *)

Definition flip (a : ascii) : ascii := ascii_of_N (N.lxor (N_of_ascii a) 1).
Lemma flip_differs a : flip a <> a.
Proof. destruct a as [[] [] [] [] [] [] [] []]; vm_compute; discriminate. Qed.
Lemma xor_flip a b : ascii_of_N (N.lxor (N_of_ascii a) (N_of_ascii (flip b))) = flip (ascii_of_N (N.lxor (N_of_ascii a) (N_of_ascii b))).
Proof.
  unfold flip. change 1%N with (N_of_ascii "001"). rewrite !N_ascii_embedding by apply lxor_byte. now rewrite N.lxor_assoc.
Qed.
Definition flip_first (s : string) : string := match s with String a r => String (flip a) r | EmptyString => "" end.


Section Cbc2.
Variable seal_block open_block : string -> string -> string.
Hypothesis Hlaw : block_cipher seal_block open_block.

Lemma cbc_malleable key64 key v a text : unbase64 true key64 = Some key -> aes_key key = true -> full v ->
  exists c c', cbc_encrypt seal_block key64 (Some v) (String a text) = Text c /\ c' <> c
  /\ cbc_decrypt open_block key64 c' = Text (String (flip a) text).
Proof.
  intros Ek Hk Hv. unfold cbc_encrypt, cbc_decrypt. rewrite Ek, Hk. eexists.
  set (body := cbc_seal seal_block key v (to_blocks (pad_text (String a text)))).
  exists (base64 true (flip_first v ++ body)). split; [reflexivity|]. split.
  { intros E. apply (f_equal (unbase64 true)) in E. rewrite !base64_back in E. injection E as E.
    destruct v as [|x v]; [discriminate|]. cbn in E. injection E as E. exact (flip_differs _ E). }
  rewrite base64_back. destruct (padded_blocks (String a text)) as (n & Hn & Hn1).
  destruct (to_blocks_full _ n Hn) as [F1 F2].
  pose proof (chain_full seal_block open_block Hlaw key _ Hk F1 v Hv) as F3. destruct (blocks_concat _ F3) as [F4 F5].
  unfold body. clear body. rewrite seal_chain.
  assert (Hv' : full (flip_first v)) by (destruct v; [discriminate|exact Hv]).
  rewrite app_length_s, F5, Hv'.
  destruct (Nat.ltb_spec (16 + List.length (chain seal_block key v (to_blocks (pad_text (String a text)))) * 16) block_size) as [C|_]; [unfold block_size in C; lia|].
  cbn [negb]. cbv zeta. rewrite first_full, behind_full, F5 by exact Hv'.
  unfold block_size. rewrite Nat.mod_mul by lia. cbn [Nat.eqb negb]. rewrite F4.
  assert (O : cbc_open open_block key (flip_first v) (chain seal_block key v (to_blocks (pad_text (String a text)))) = flip_first (pad_text (String a text))).
  { pose proof (chain_open seal_block open_block Hlaw key _ Hk F1 v Hv) as O. rewrite F2 in O.
    destruct (to_blocks (pad_text (String a text))) as [|b bs]; [cbn [fold_right] in F2; rewrite <- F2 in Hn; cbn [String.length] in Hn; lia|].
    cbn [chain cbc_open] in *. inversion F1 as [|? ? Hb _]; subst.
    assert (X : String.length (xor_bytes b v) = 16%nat) by (rewrite xor_length; unfold full in *; congruence).
    rewrite (proj2 (Hlaw key _ (proj1 (aes_key_size key) Hk) X)) in *.
    rewrite <- O. destruct v as [|x v]; [discriminate|]. destruct b as [|y b]; [discriminate|].
    cbn [xor_bytes flip_first append]. rewrite xor_flip. reflexivity. }
  rewrite O. pose proof (trim_pad (String a text)) as T. unfold trim_text in *.
  destruct (pad_text (String a text)) as [|y r] eqn:P; [discriminate|].
  assert (y = a) by (unfold pad_text in P; cbn [append] in P; congruence). subst y.
  cbn [flip_first last_byte] in *.
  assert (R : exists q, last_byte r = Some q).
  { destruct r as [|z r]; [cbn in Hn; lia|]. cbn [last_byte]. destruct (last_byte r); eauto. }
  destruct R as [q Eq]. rewrite Eq in *. cbn [String.length] in *.
  destruct (Nat.ltb_spec (S (String.length r)) (nat_of_ascii q)); [discriminate|].
  assert (T' : first (S (String.length r) - nat_of_ascii q) (String a r) = String a text) by congruence. clear T. f_equal.
  revert T'. generalize (S (String.length r) - nat_of_ascii q)%nat. intros [|k] T; cbn [first] in *; [discriminate T|]. injection T as T. rewrite T. reflexivity.
Qed.
End Cbc2.

Lemma ends s n : String.length s = S n -> exists u a, s = u ++ String a "".
Proof.
  revert n. induction s as [|c s IH]; intros n H; [discriminate|]. destruct s as [|d s]; [exists "", c; reflexivity|].
  destruct (IH _ eq_refl) as (u & a & ->). exists (String c u), a. reflexivity.
Qed.
Lemma xor_end : forall u w a b, String.length u = String.length w ->
  last_byte (xor_bytes (u ++ String a "") (w ++ String b "")) = Some (ascii_of_N (N.lxor (N_of_ascii a) (N_of_ascii b))).
Proof.
  induction u as [|c u IH]; intros [|d w] a b H; try discriminate; [reflexivity|]. cbn [append xor_bytes last_byte].
  rewrite IH by (now injection H). reflexivity.
Qed.
Lemma same_end : forall x y t u, String.length t = String.length u -> x ++ t = y ++ u -> x = y /\ t = u.
Proof.
  induction x as [|a x IH]; intros [|b y] t u L E; cbn [append] in E.
  - auto.
  - exfalso. apply (f_equal String.length) in E. cbn [String.length] in E. rewrite app_length_s in E. lia.
  - exfalso. apply (f_equal String.length) in E. cbn [String.length] in E. rewrite app_length_s in E. lia.
  - injection E as -> E. destruct (IH y t u L E) as [-> ->]. auto.
Qed.

(** The last opened byte: that of the last block, opened, against that of the block
    before it. *)
Lemma cbc_last open key (Ho : forall k b, String.length b = 16%nat -> String.length (open k b) = 16%nat) : forall bs v, Forall full bs -> full v -> bs <> [] ->
  exists x prev l, v ++ fold_right append "" bs = x ++ prev ++ l /\ full prev /\ full l
    /\ last_byte (cbc_open open key v bs) = last_byte (xor_bytes (open key l) prev).
Proof.
  induction bs as [|b bs IH]; intros v Hb Hv N; [congruence|]. inversion Hb as [|? ? Hb1 Hb2]; subst.
  destruct bs as [|b2 bs].
  - exists "", v, b. cbn [fold_right cbc_open append]. rewrite !app_nil_s. auto.
  - destruct (IH b Hb2 Hb1 ltac:(discriminate)) as (x & prev & l & E & Hp & Hl & Hq).
    exists (v ++ x), prev, l. split; [|split; [exact Hp|split; [exact Hl|]]].
    + change (fold_right append "" (b :: b2 :: bs)) with (b ++ fold_right append "" (b2 :: bs)). rewrite E. now rewrite !app_assoc_s.
    + change (cbc_open open key v (b :: b2 :: bs)) with (xor_bytes (open key b) v ++ cbc_open open key b (b2 :: bs)).
      rewrite last_app; [exact Hq|]. intros K. rewrite K in Hq. cbn [last_byte] in Hq.
      destruct (ends (open key l) 15 (Ho key l Hl)) as (u & a & Eu). destruct (ends prev 15 Hp) as (w & c & Ew).
      rewrite Eu, Ew, xor_end in Hq; [discriminate|].
      pose proof (Ho key l Hl) as L1. rewrite Eu, app_length_s in L1. unfold full in Hp. rewrite Ew, app_length_s in Hp. cbn [String.length] in L1, Hp. lia.
Qed.

(** The same, for any way to write the text as its beginning and two blocks. *)
Lemma cbc_last_any open key (Ho : forall k b, String.length b = 16%nat -> String.length (open k b) = 16%nat) b n : String.length b = ((n + 2) * 16)%nat ->
  forall x prev l u a w c, b = x ++ prev ++ l -> full prev -> full l -> open key l = u ++ String a "" -> prev = w ++ String c "" ->
  last_byte (cbc_open open key (first 16 b) (to_blocks (behind 16 b))) = Some (ascii_of_N (N.lxor (N_of_ascii a) (N_of_ascii c))).
Proof.
  intros Hn x prev l u a w c Eb Hp Hl Eu Ew.
  assert (Hm : String.length (behind 16 b) = ((n + 1) * 16)%nat) by (rewrite behind_length; lia).
  destruct (to_blocks_full _ _ Hm) as [F1 F2].
  assert (Hf : full (first 16 b)) by (apply first_length; lia).
  assert (N : to_blocks (behind 16 b) <> []) by (intros K; rewrite K in F2; cbn [fold_right] in F2; rewrite <- F2 in Hm; cbn [String.length] in Hm; lia).
  destruct (cbc_last open key Ho _ _ F1 Hf N) as (x' & prev' & l' & E & Hp' & Hl' & ->). rewrite F2, first_behind, Eb in E.
  unfold full in *. destruct (same_end x x' (prev ++ l) (prev' ++ l')) as [_ E2]; [rewrite !app_length_s; lia|exact E|].
  destruct (same_end prev prev' l l') as [-> ->]; [lia|exact E2|]. rewrite Eu, Ew. apply xor_end.
  pose proof (Ho key l' Hl') as L1. rewrite Eu, app_length_s in L1. rewrite Ew, app_length_s in Hp'. cbn [String.length] in L1, Hp'. lia.
Qed.
