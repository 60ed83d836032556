(** Independent vocabulary for statements about encryption. *)
From Verif Require Import Base Base64Spec.
Open Scope string_scope.

(** A block cipher: opening a sealed block yields the block, for keys of the sizes the
    cipher takes and blocks of 16 bytes. *)
Definition block_cipher (seal_block open_block : string -> string -> string) : Prop :=
  forall key b, (String.length key = 16 \/ String.length key = 24 \/ String.length key = 32)%nat -> String.length b = 16%nat ->
    String.length (seal_block key b) = 16%nat /\ open_block key (seal_block key b) = b.

(** An authenticated cipher opens what it sealed, with the same key and nonce... *)
Definition opens_sealed (seal : string -> string -> string -> string) (open : string -> string -> string -> option string) : Prop :=
  forall key nonce p, open key nonce (seal key nonce p) = Some p.
(** ... and nothing else. *)
Definition opens_only_sealed (seal : string -> string -> string -> string) (open : string -> string -> string -> option string) : Prop :=
  forall key nonce c p, open key nonce c = Some p -> c = seal key nonce p.

(** The text of a key: base64 (Base64Spec.v) of 16, 24 or 32 bytes for AES, of 32 for XChaCha20. *)
Definition aes_key_text (key64 : string) : Prop :=
  exists key, means64 true key64 key /\ (String.length key = 16 \/ String.length key = 24 \/ String.length key = 32)%nat.
Definition chacha_key_text (key64 : string) : Prop :=
  exists key, means64 true key64 key /\ String.length key = 32%nat.
