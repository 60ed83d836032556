(** Property C55: text encodings are lossless; and the MessagePack answers of the
    HTTP interface, which are sent in base64 (C53). *)
From Verif Require Import Base Text JsonText JsonTextSpec JsonTextProofs Msgpack MsgpackSpec MsgpackProofs Properties_Msgpack Encodings EncodingsProofs Base64Spec Base64Proofs.
Open Scope string_scope.
Open Scope N_scope.

(** ** Base64, padded (StdEncoding) and not (RawStdEncoding): decoding an encoded byte
    string yields that byte string. *)
Theorem C55_base64 : forall pad s, unbase64 pad (base64 pad s) = Some s.
Proof. exact base64_back. Qed.
Print Assumptions C55_base64.

(** The decoder accepts exactly the texts that stand for bytes (Base64Spec.v), and reads
    these bytes ... *)
Theorem C55_base64_decodes : forall padded text bytes, unbase64 padded text = Some bytes <-> means64 padded text bytes.
Proof. exact unbase64_means. Qed.
Print Assumptions C55_base64_decodes.

(** ... and the encoder writes the one without line breaks and with nothing but zeros in
    the bits left over. *)
Theorem C55_base64_encodes : forall padded bytes text, base64 padded bytes = text
  <-> (exists k, means64_with padded text bytes (repeat false k)) /\ visible text = list_ascii_of_string text.
Proof.
  intros padded bytes text. split.
  - intros <-. destruct (base64_means padded bytes) as (k & H & V). split; [now exists k|exact V].
  - intros ((k & H) & V). symmetry. exact (base64_only padded text bytes k H V).
Qed.
Print Assumptions C55_base64_encodes.

Example C55_base64_means_example :
  means64 true ("Zm9" ++ String "010" "vYg==") "foob" /\ means64 false "Zg" "f" /\ means64 false "Zv" "f"
  /\ (forall b, ~ means64 true "Zm9v Yg==" b) /\ (forall b, ~ means64 true "Zg=" b) /\ (forall b, ~ means64 false "Z" b).
Proof.
  repeat split; try (apply unbase64_means; vm_compute; reflexivity); intros b H; apply unbase64_means in H; discriminate H.
Qed.

(** However the bytes arrive at the encoder of an HTTP answer, the text sent decodes to
    all of them, in order. *)
Theorem C55_base64_stream : forall pad chunks,
  unbase64 pad (base64_stream pad chunks) = Some (fold_right append "" chunks).
Proof. intros pad chunks. rewrite stream_whole. apply base64_back. Qed.
Print Assumptions C55_base64_stream.

(** RFC 4648, section 10. *)
Example C55_base64_example :
  map (base64 true) [""; "f"; "fo"; "foo"; "foob"; "fooba"; "foobar"]
    = [""; "Zg=="; "Zm8="; "Zm9v"; "Zm9vYg=="; "Zm9vYmE="; "Zm9vYmFy"]
  /\ map (base64 false) ["f"; "fo"; "foo"] = ["Zg"; "Zm8"; "Zm9v"]
  /\ base64 true (String "255" (String "254" (String "000" ""))) = "//4A"
  /\ base64_stream false ["f"; ""; "oo"; "ba"] = "Zm9vYmE"
  /\ unbase64 true "Zg=" = None /\ unbase64 true "Zg" = None /\ unbase64 true "Z?==" = None.
Proof. vm_compute. repeat split; reflexivity. Qed.

(** The records of a MessagePack answer, whatever pieces the record writer writes. *)
Theorem C53_http_msgpack_partial : forall order types es chunks, any_order order -> Forall (mordinary types) es ->
  fold_right append "" chunks = fst (msgpack_write order (map MRec es)) ->
  exists body, means64 false (base64_stream false chunks) body /\ msgpack_read types body = map MRec es.
Proof.
  intros order types es chunks Ho H E. exists (fold_right append "" chunks). split; [apply unbase64_means; apply C55_base64_stream|].
  rewrite E. apply C53_msgpack_partial; assumption.
Qed.
Print Assumptions C53_http_msgpack_partial.

Example C53_http_msgpack_example :
  let chunks := [put_record backwards pinned; put_record backwards odd_mentry] in
  fold_right append "" chunks = fst (msgpack_write backwards (map MRec [pinned; odd_mentry]))
  /\ String.substring 0 12 (base64_stream false chunks) = "iqFu2SZ0aGlu".
Proof. vm_compute. split; reflexivity. Qed.

(** ** A short UUID is 32 lower-case hexadecimal characters that determine the UUID. *)
Theorem C55_short_uuid : forall u v, String.length u = 16%nat -> String.length v = 16%nat ->
  String.length (short_uuid u) = 32%nat
  /\ Forall (fun a => In a (list_ascii_of_string "0123456789abcdef")) (list_ascii_of_string (short_uuid u))
  /\ (short_uuid u = short_uuid v -> u = v).
Proof.
  intros u v Hu Hv. unfold short_uuid. rewrite hex_length, Hu. split; [reflexivity|]. split; [apply hex_chars|apply hex_inj].
Qed.
Print Assumptions C55_short_uuid.

Example C55_short_uuid_example :
  short_uuid (String "096" (String "240" (String "028" (String "197" (String "039" (String "132" (String "076" (String "222"
    (String "153" (String "083" (String "201" (String "152" (String "162" (String "192" (String "119" (String "167" ""))))))))))))))))
  = "60f01cc527844cde9953c998a2c077a7".
Proof. vm_compute. reflexivity. Qed.

(** ** ROT13 applied twice is the identity on well-formed UTF-8 texts, and on nothing
    else: the full claim, for every byte string, is refuted below. *)
Theorem C55_rot13_partial : forall s, is_text s -> rot13 (rot13 s) = s.
Proof. intros s. apply rot_twice_iff. Qed.
Print Assumptions C55_rot13_partial.

Theorem C55_rot13_refuted : forall s, ~ is_text s -> rot13 (rot13 s) <> s.
Proof. intros s H E. apply H. apply rot_twice_iff. exact E. Qed.
Print Assumptions C55_rot13_refuted.

Example C55_rot13_example :
  rot13 "Hello, World!" = "Uryyb, Jbeyq!" /\ is_text "Hello, World!"
  /\ ~ is_text (String "255" "") /\ rot13 (rot13 (String "255" "a")) = replacement ++ "a".
Proof.
  split; [vm_compute; reflexivity|]. split; [apply rot_twice_iff; vm_compute; reflexivity|].
  split; [|vm_compute; reflexivity]. intros H. apply rot_twice_iff in H. vm_compute in H. discriminate H.
Qed.
