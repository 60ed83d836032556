(** What readable JSON looks like. *)
From Verif Require Import Base Json JsonText JsonTextSpec JsonGrammar.
Open Scope string_scope.

(** A new line, indented by two spaces for each array and object that is open. *)
Fixpoint spaces (n : nat) : string := match n with O => "" | S k => String " " (spaces k) end.
Definition line (open : nat) : string := String "010" (spaces (2 * open)).

(** The layout of a value inside of [d] arrays and objects: items and members on lines of
    their own, one space behind the colon, nothing between the brackets of empty ones. *)
Inductive laid : nat -> json -> string -> Prop :=
| laid_null d : laid d JNull "null"
| laid_true d : laid d (JBool true) "true"
| laid_false d : laid d (JBool false) "false"
| laid_number d n : number n -> laid d (JNum n) (match n with Int z => print_int z | Lit s => s end)
| laid_string d v raw : string_text v raw -> laid d (JStr v) (quoted_text raw)
| laid_no_items d : laid d (JArr []) "[]"
| laid_items d l body : laid_list (S d) l body -> laid d (JArr l) ("[" ++ line (S d) ++ body ++ line d ++ "]")
| laid_no_members d : laid d (JObj []) "{}"
| laid_members d l body : laid_pairs (S d) l body -> laid d (JObj l) ("{" ++ line (S d) ++ body ++ line d ++ "}")
with laid_list : nat -> list json -> string -> Prop :=
| laid_last d x t : laid d x t -> laid_list d [x] t
| laid_next d x t l body : laid d x t -> laid_list d l body -> laid_list d (x :: l) (t ++ "," ++ line d ++ body)
with laid_pairs : nat -> list (string * json) -> string -> Prop :=
| laid_last_pair d k raw x t : string_text k raw -> laid d x t -> laid_pairs d [(k, x)] (quoted_text raw ++ ": " ++ t)
| laid_next_pair d k raw x t l body : string_text k raw -> laid d x t -> laid_pairs d l body ->
    laid_pairs d ((k, x) :: l) (quoted_text raw ++ ": " ++ t ++ "," ++ line d ++ body).

(** A JSON text, with white space around it, that says [j]. *)
Definition says (s : string) (j : json) : Prop :=
  exists w t w', s = w ++ t ++ w' /\ blanks w /\ text_of 10000 j t /\ blanks w'.

(** A text without the white space outside of its strings; [inside], [escape]: behind an
    opening quote, behind a backslash there. *)
Fixpoint bare (s : string) (inside escape : bool) : string :=
  match s with
  | EmptyString => ""
  | String c r =>
      if inside then String c (bare r (escape || negb (Ascii.eqb c "034")) (negb escape && Ascii.eqb c "092"))
      else if existsb (Ascii.eqb c) [" "; "009"; "010"; "013"]%char then bare r false false
      else String c (bare r (Ascii.eqb c "034") false)
  end.
