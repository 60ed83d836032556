(** Encryption of texts: pkg/crypto/aes/cbc_pkcs5_padding.go, pkg/crypto/aes/gcm.go,
    pkg/crypto/xchacha20poly1305/xchacha20poly1305.go.  The ciphers themselves
    (crypto/aes, crypto/cipher's GCM, chacha20poly1305) are not part of /repo: they
    are parameters; the CBC mode, which only chains blocks, is modelled. *)
From Coq Require Import PeanoNat.
From Verif Require Import Base Encodings.
Open Scope string_scope.
Open Scope N_scope.

(** What a call returns: a text, an error, or a panic. *)
Inductive answer := Text (s : string) | Failed | Panics.

Definition bytes (s : string) : N := N.of_nat (String.length s).
Fixpoint first (n : nat) (s : string) : string :=
  match n, s with S n', String a r => String a (first n' r) | _, _ => "" end.
Fixpoint behind (n : nat) (s : string) : string :=
  match n, s with S n', String _ r => behind n' r | _, _ => s end.
Fixpoint last_byte (s : string) : option ascii :=
  match s with
  | EmptyString => None
  | String a r => match last_byte r with Some b => Some b | None => Some a end
  end.
Fixpoint repeat_byte (n : nat) (a : ascii) : string :=
  match n with O => "" | S n' => String a (repeat_byte n' a) end.
Fixpoint xor_bytes (s t : string) : string :=
  match s, t with
  | String a r, String b u => String (ascii_of_N (N.lxor (N_of_ascii a) (N_of_ascii b))) (xor_bytes r u)
  | _, _ => ""
  end.

(** aes.BlockSize. *)
Definition block_size : nat := 16.
(** aes.NewCipher: keys of 16, 24 or 32 bytes. *)
Definition aes_key (k : string) : bool :=
  (String.length k =? 16)%nat || (String.length k =? 24)%nat || (String.length k =? 32)%nat.
(** chacha20poly1305.NewX: keys of 32 bytes. *)
Definition chacha_key (k : string) : bool := (String.length k =? 32)%nat.

(** cbc_pkcs5_padding.go:101-105 [pkcs5Padding]. *)
Definition pad_text (s : string) : string :=
  let n := (block_size - Nat.modulo (String.length s) block_size)%nat in
  s ++ repeat_byte n (ascii_of_nat n).
(** cbc_pkcs5_padding.go:107-110 [pkcs5Trimming]: the last byte is not looked at
    further; indexing an empty slice panics, and so does a negative end. *)
Definition trim_text (s : string) : answer :=
  match last_byte s with
  | None => Panics
  | Some p =>
      if (String.length s <? nat_of_ascii p)%nat then Panics
      else Text (first (String.length s - nat_of_ascii p) s)
  end.

(** The blocks of a text whose length is a multiple of 16. *)
Fixpoint blocks (n : nat) (s : string) : list string :=
  match n with O => [] | S n' => first block_size s :: blocks n' (behind block_size s) end.
Definition to_blocks (s : string) : list string := blocks (Nat.div (String.length s) block_size) s.

Section Aes.
(** crypto/aes: one block, with a key. *)
Variable seal_block open_block : string -> string -> string.

(** crypto/cipher cbc.go [CryptBlocks] of the encrypter and the decrypter. *)
Fixpoint cbc_seal (key prev : string) (bs : list string) : string :=
  match bs with
  | [] => ""
  | b :: rest => let c := seal_block key (xor_bytes b prev) in c ++ cbc_seal key c rest
  end.
Fixpoint cbc_open (key prev : string) (bs : list string) : string :=
  match bs with
  | [] => ""
  | c :: rest => xor_bytes (open_block key c) prev ++ cbc_open key c rest
  end.

(** cbc_pkcs5_padding.go:52-72 [encrypt] and 25-34 [Encrypt]; [iv]: the 16 bytes read
    from the random source, if that succeeds. *)
Definition cbc_encrypt (key64 : string) (iv : option string) (text : string) : answer :=
  match unbase64 true key64 with
  | None => Failed
  | Some key =>
      if aes_key key then
        match iv with
        | None => Failed
        | Some v => Text (base64 true (v ++ cbc_seal key v (to_blocks (pad_text text))))
        end
      else Failed
  end.

(** cbc_pkcs5_padding.go:74-99 [decrypt] and 37-50 [Decrypt].  CryptBlocks panics if
    the input is not made of full blocks. *)
Definition cbc_decrypt (key64 text64 : string) : answer :=
  match unbase64 true key64, unbase64 true text64 with
  | Some key, Some c =>
      if (String.length c <? block_size)%nat then Failed
      else if negb (aes_key key) then Failed
      else
        let v := first block_size c in
        let body := behind block_size c in
        if negb (Nat.modulo (String.length body) block_size =? 0)%nat then Panics
        else trim_text (cbc_open key v (to_blocks body))
  | _, _ => Failed
  end.
End Aes.

Section Aead.
(** crypto/cipher's AEAD interface with no additional data: key, nonce, text. *)
Variable seal : string -> string -> string -> string.
Variable open : string -> string -> string -> option string.

(** gcm.go:55-73 [encrypt], 28-37 [Encrypt]; [nonce]: the 12 bytes read from the
    random source. *)
Definition gcm_encrypt (key64 : string) (nonce : option string) (text : string) : answer :=
  match unbase64 true key64 with
  | None => Failed
  | Some key =>
      if aes_key key then
        match nonce with
        | None => Failed
        | Some n => Text (base64 true (n ++ seal key n text))
        end
      else Failed
  end.

(** gcm.go:75-103 [decrypt], 40-53 [Decrypt]. *)
Definition gcm_decrypt (key64 text64 : string) : answer :=
  match unbase64 true key64, unbase64 true text64 with
  | Some key, Some c =>
      if (String.length c =? 0)%nat then Failed
      else if negb (aes_key key) then Failed
      else if (String.length c <? 12)%nat then Failed
      else match open key (first 12 c) (behind 12 c) with Some p => Text p | None => Failed end
  | _, _ => Failed
  end.

(** xchacha20poly1305.go:52-65 [encrypt], 25-34 [Encrypt]; the nonce has 24 bytes. *)
Definition chacha_encrypt (key64 : string) (nonce : option string) (text : string) : answer :=
  match unbase64 true key64 with
  | None => Failed
  | Some key =>
      if chacha_key key then
        match nonce with
        | None => Failed
        | Some n => Text (base64 true (n ++ seal key n text))
        end
      else Failed
  end.

(** xchacha20poly1305.go:67-86 [decrypt], 37-50 [Decrypt]: the length is not checked
    before slicing (78); the upper part of a slice that is too short panics. *)
Definition chacha_decrypt (key64 text64 : string) : answer :=
  match unbase64 true key64, unbase64 true text64 with
  | Some key, Some c =>
      if (String.length c =? 0)%nat then Failed
      else if negb (chacha_key key) then Failed
      else if (String.length c <? 24)%nat then Panics
      else match open key (first 24 c) (behind 24 c) with Some p => Text p | None => Failed end
  | _, _ => Failed
  end.
End Aead.
