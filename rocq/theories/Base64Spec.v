(** What a base64 text stands for (RFC 4648, section 4), bit by bit. *)
From Coq Require Import String Ascii Arith Bool List.
Import ListNotations.
Open Scope string_scope.
Open Scope list_scope.

(** A letter of the alphabet is the six bits of its place in it. *)
Definition alphabet : string := "ABCDEFGHIJKLMNOPQRSTUVWXYZabcdefghijklmnopqrstuvwxyz0123456789+/".
Definition letter (a : ascii) (bits : list bool) : Prop :=
  exists i, String.get i alphabet = Some a /\ bits = map (Nat.testbit i) [5; 4; 3; 2; 1; 0].

(** The eight bits of a byte, largest first. *)
Definition byte_bits (a : ascii) : list bool :=
  let '(Ascii b0 b1 b2 b3 b4 b5 b6 b7) := a in [b7; b6; b5; b4; b3; b2; b1; b0].

(** Line feeds and carriage returns do not count. *)
Definition breaks_line (a : ascii) : bool := if in_dec ascii_dec a ["010"; "013"]%char then true else false.
Definition visible (s : string) : list ascii := filter (fun a => negb (breaks_line a)) (list_ascii_of_string s).

(** [padded]: with = signs up to a multiple of four characters, or without.  The last
    letter may hold bits that are not needed: fewer than six, [spare]. *)
Definition means64_with (padded : bool) (text bytes : string) (spare : list bool) : Prop :=
  exists letters bits fill,
    visible text = letters ++ fill /\ Forall2 letter letters bits
    /\ concat bits = concat (map byte_bits (list_ascii_of_string bytes)) ++ spare /\ length spare < 6
    /\ (if padded then In fill [[]; ["="]; ["="; "="]]%char /\ length (letters ++ fill) mod 4 = 0 else fill = []).
Definition means64 (padded : bool) (text bytes : string) : Prop := exists spare, means64_with padded text bytes spare.
