(** Independent vocabulary for the statements about what pages show. *)
From Verif Require Import Base DecText Text PathSpec.
Open Scope string_scope.
Open Scope N_scope.

(** How a browser reads a text or a quoted attribute value: decimal references and
    the references amp, lt, gt and quot stand for their characters; an ampersand
    that begins none of them stands for itself.  (HTML knows more names; none of
    them is needed here.) *)
Fixpoint read_refs (skip : nat) (s : string) : string :=
  match s with
  | EmptyString => EmptyString
  | String a rest =>
      match skip with
      | S k => read_refs k rest
      | O =>
          if Ascii.eqb a "&" then
            if String.prefix "amp;" rest then String "&" (read_refs 4 rest)
            else if String.prefix "lt;" rest then String "<" (read_refs 3 rest)
            else if String.prefix "gt;" rest then String ">" (read_refs 3 rest)
            else if String.prefix "quot;" rest then String """" (read_refs 5 rest)
            else match rest with
                 | String "#" (String x (String y (String ";" _))) =>
                     match digit x, digit y with
                     | Some p, Some q => String (ascii_of_N (10 * p + q)) (read_refs 4 rest)
                     | _, _ => String a (read_refs 0 rest)
                     end
                 | _ => String a (read_refs 0 rest)
                 end
          else String a (read_refs 0 rest)
      end
  end.
Definition read_html (s : string) : string := read_refs 0 s.

(** Nothing in the text starts or ends a tag or an attribute value. *)
Definition no_markup (s : string) : Prop :=
  lacks "<" s = true /\ lacks ">" s = true /\ lacks """" s = true /\ lacks "'" s = true.

Definition nul : ascii := "000".

(** A percent sign followed by two hexadecimal digits, somewhere in the text. *)
Definition has_escape (s : string) : Prop :=
  exists x h l y p q, s = x ++ String "%" (String h (String l y)) /\ In (h, p) hex_digits /\ In (l, q) hex_digits.

(** A number written in groups of three digits. *)
Fixpoint without (c : ascii) (s : string) : string :=
  match s with
  | EmptyString => EmptyString
  | String a rest => if Ascii.eqb a c then without c rest else String a (without c rest)
  end.
Definition grouped (s : string) : Prop :=
  exists first others, s = join "," (first :: others)
    /\ all_digits first /\ (1 <= String.length first <= 3)%nat
    /\ Forall (fun g => all_digits g /\ String.length g = 3%nat) others.
