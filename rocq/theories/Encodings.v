(** Text encodings: encoding/base64, encoding/hex and strings.Map as used by
    pkg/crypto/aes/gcm.go:29, 35, 46, pkg/rangedbapi/api.go:330-335,
    pkg/shortuuid/short_uuid.go and pkg/crypto/cryptotest/rot13_encryption.go.
    The libraries are not in /repo; the functions below are what those calls do
    (Go 1.16). *)
From Verif Require Import Base JsonText.
Open Scope string_scope.
Open Scope N_scope.

(** * Base64 *)

(** base64.go [encodeStd]. *)
Definition symbol (v : N) : ascii :=
  if v <? 26 then ascii_of_N (65 + v)
  else if v <? 52 then ascii_of_N (71 + v)
  else if v <? 62 then ascii_of_N (v - 4)
  else if v =? 62 then "+" else "/".
(** base64.go [decodeMap]. *)
Definition symbol_value (a : ascii) : option N :=
  let n := N_of_ascii a in
  if between 65 90 n then Some (n - 65)
  else if between 97 122 n then Some (n - 71)
  else if between 48 57 n then Some (n + 4)
  else if n =? 43 then Some 62
  else if n =? 47 then Some 63
  else None.

(** base64.go [Encode], with padding (StdEncoding) or without (RawStdEncoding). *)
Definition quad (n : N) : string :=
  String (symbol (n / 262144)) (String (symbol (n / 4096 mod 64)) (String (symbol (n / 64 mod 64)) (String (symbol (n mod 64)) ""))).
Definition three (a b c : ascii) : N := N_of_ascii a * 65536 + N_of_ascii b * 256 + N_of_ascii c.
Fixpoint base64 (pad : bool) (s : string) : string :=
  match s with
  | EmptyString => ""
  | String a EmptyString =>
      let n := N_of_ascii a * 65536 in
      String (symbol (n / 262144)) (String (symbol (n / 4096 mod 64)) (if pad then "==" else ""))
  | String a (String b EmptyString) =>
      let n := N_of_ascii a * 65536 + N_of_ascii b * 256 in
      String (symbol (n / 262144)) (String (symbol (n / 4096 mod 64)) (String (symbol (n / 64 mod 64)) (if pad then "=" else "")))
  | String a (String b (String c r)) => quad (three a b c) ++ base64 pad r
  end.

(** base64.go [decodeQuantum]: carriage returns and newlines are passed over
    everywhere. *)
Definition line_break (a : ascii) : bool := (N_of_ascii a =? 10) || (N_of_ascii a =? 13).
Fixpoint no_breaks (s : string) : string :=
  match s with
  | EmptyString => ""
  | String a r => if line_break a then no_breaks r else String a (no_breaks r)
  end.
Definition byte_of (n : N) : ascii := ascii_of_N (n mod 256).

(** base64.go [decodeQuantum], not strict: left-over bits of the last symbol are
    ignored.  A padded text must end behind its padding, an unpadded text may end
    after two or three symbols.  [None]: CorruptInputError. *)
Fixpoint quanta (pad : bool) (s : string) : option string :=
  match s with
  | EmptyString => Some ""
  | String a (String b r) =>
      match symbol_value a, symbol_value b with
      | Some w, Some x =>
          match r with
          | EmptyString => if pad then None else Some (String (byte_of ((w * 64 + x) / 16)) "")
          | String c r2 =>
              match symbol_value c with
              | Some y =>
                  match r2 with
                  | EmptyString =>
                      if pad then None
                      else let n := (w * 64 + x) * 64 + y in Some (String (byte_of (n / 1024)) (String (byte_of (n / 4)) ""))
                  | String d r3 =>
                      match symbol_value d with
                      | Some z =>
                          let n := ((w * 64 + x) * 64 + y) * 64 + z in
                          match quanta pad r3 with
                          | Some t => Some (String (byte_of (n / 65536)) (String (byte_of (n / 256)) (String (byte_of n) t)))
                          | None => None
                          end
                      | None =>
                          if pad && Ascii.eqb d "=" then
                            match r3 with
                            | EmptyString => let n := (w * 64 + x) * 64 + y in Some (String (byte_of (n / 1024)) (String (byte_of (n / 4)) ""))
                            | _ => None
                            end
                          else None
                      end
                  end
              | None =>
                  if pad && Ascii.eqb c "=" then
                    match r2 with
                    | String d EmptyString => if Ascii.eqb d "=" then Some (String (byte_of ((w * 64 + x) / 16)) "") else None
                    | _ => None
                    end
                  else None
              end
          end
      | _, _ => None
      end
  | String _ EmptyString => None
  end.
(** base64.go [DecodeString]. *)
Definition unbase64 (pad : bool) (s : string) : option string := quanta pad (no_breaks s).

(** base64.go [NewEncoder]: the writer api.go:332 puts in front of the response.  It
    keeps the bytes (up to two) that do not fill a group of three until more arrive;
    Close (api.go:335) writes them.  Simplification: the 1024-byte output buffer is
    left out, it does not change the bytes written. *)
Fixpoint groups (s : string) : string * string :=
  match s with
  | String a (String b (String c r)) => let (out, rest) := groups r in (quad (three a b c) ++ out, rest)
  | _ => ("", s)
  end.
Definition encoder_write (kept chunk : string) : string * string := groups (kept ++ chunk).
Fixpoint encoder_run (kept : string) (chunks : list string) : string * string :=
  match chunks with
  | [] => ("", kept)
  | c :: rest => let (out, k) := encoder_write kept c in let (out', k') := encoder_run k rest in (out ++ out', k')
  end.
Definition encoder_close (pad : bool) (kept : string) : string := base64 pad kept.
(** What api.go:330-335 sends when the record stream writer writes [chunks]. *)
Definition base64_stream (pad : bool) (chunks : list string) : string :=
  let (out, kept) := encoder_run "" chunks in out ++ encoder_close pad kept.

(** * Hexadecimal *)

(** hex.go [Encode]. *)
Fixpoint hex_text (s : string) : string :=
  match s with
  | EmptyString => ""
  | String a r => String (lower_hex (N_of_ascii a / 16)) (String (lower_hex (N_of_ascii a mod 16)) (hex_text r))
  end.
(** short_uuid.go:18-22 [String] of the 16 bytes of a UUID; hex.Encode would panic
    on a 33rd byte, but a UUID is an array of 16. *)
Definition short_uuid (uuid : string) : string := hex_text uuid.

(** * ROT13 *)

(** rot13_encryption.go:21-32 [rot] on a character below 128; the others are none of
    its letters. *)
Definition rot (a : ascii) : ascii :=
  let r := N_of_ascii a in
  let capital := between 65 90 r in
  if negb capital && ((r <? 97) || (122 <? r)) then a
  else
    let r1 := r + 13 in
    ascii_of_N (if (capital && (90 <? r1)) || (negb capital && (122 <? r1)) then r1 - 26 else r1).

(** rot13_encryption.go:13-19 [Encrypt], [Decrypt]: strings.Map character by
    character.  A byte that is not part of a well-formed character is mapped to
    U+FFFD. *)
Fixpoint rot13 (s : string) : string :=
  match s with
  | EmptyString => ""
  | String a r =>
      match rune_len s, r with
      | 1%nat, _ => String (rot a) (rot13 r)
      | 2%nat, String b r2 => String a (String b (rot13 r2))
      | 3%nat, String b (String c r3) => String a (String b (String c (rot13 r3)))
      | 4%nat, String b (String c (String d r4)) => String a (String b (String c (String d (rot13 r4))))
      | _, _ => replacement ++ rot13 r
      end
  end.
