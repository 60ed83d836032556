(** Independent vocabulary: how the path of a request line spells a path (RFC 3986, 2.1).
    Knows nothing of the model. *)
From Coq Require Import NArith.
From Verif Require Import Base.
Open Scope string_scope.
Open Scope N_scope.

(** The hexadecimal digits and their values. *)
Definition hex_digits : list (ascii * N) :=
  [("0"%char, 0); ("1"%char, 1); ("2"%char, 2); ("3"%char, 3); ("4"%char, 4); ("5"%char, 5); ("6"%char, 6); ("7"%char, 7);
   ("8"%char, 8); ("9"%char, 9);
   ("A"%char, 10); ("B"%char, 11); ("C"%char, 12); ("D"%char, 13); ("E"%char, 14); ("F"%char, 15);
   ("a"%char, 10); ("b"%char, 11); ("c"%char, 12); ("d"%char, 13); ("e"%char, 14); ("f"%char, 15)].

(** [spelled raw p]: a byte other than a percent sign spells itself, a percent sign and
    two digits the byte with that number. *)
Inductive spelled : string -> string -> Prop :=
| spelled_end : spelled "" ""
| spelled_plain a raw p : a <> "%"%char -> spelled raw p -> spelled (String a raw) (String a p)
| spelled_escape h l x y raw p : In (h, x) hex_digits -> In (l, y) hex_digits -> spelled raw p ->
    spelled (String "%" (String h (String l raw))) (String (ascii_of_N (16 * x + y)) p).

(** A percent sign that two digits do not follow. *)
Definition bad_escape (raw : string) : Prop :=
  exists before after, raw = before ++ String "%" after
    /\ ~ exists h l x y rest, after = String h (String l rest) /\ In (h, x) hex_digits /\ In (l, y) hex_digits.
