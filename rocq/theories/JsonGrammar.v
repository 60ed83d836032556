(** What a JSON text says: RFC 8259, and what Go makes of texts that break its rules for
    characters.  A relation between values and texts, apart from the reader and the
    printer of JsonText.v; of these only UTF-8 is used. *)
From Coq Require Import ZArith.
From Verif Require Import Base DecText Json JsonText JsonTextSpec.
Open Scope string_scope.
Open Scope N_scope.

(** White space. *)
Definition blanks (w : string) : Prop := Forall (fun a => In a [" "; "009"; "010"; "013"]%char) (list_ascii_of_string w).

(** Four hexadecimal digits. *)
Definition hex_digit (a : ascii) (n : nat) : Prop :=
  String.get n "0123456789abcdef" = Some a \/ String.get n "0123456789ABCDEF" = Some a.
Definition hex_text (h : string) (u : N) : Prop :=
  exists a b c d i j k l, h = String a (String b (String c (String d "")))
    /\ hex_digit a i /\ hex_digit b j /\ hex_digit c k /\ hex_digit d l
    /\ u = N.of_nat i * 4096 + N.of_nat j * 256 + N.of_nat k * 16 + N.of_nat l.

Definition u_escape : string := String "092" "u".

(** What stands between the quotes, and the string it says. *)
Inductive string_text : string -> string -> Prop :=
| said_nothing : string_text "" ""
| said_character u v raw : scalar u -> 32 <= u -> u <> 34 -> u <> 92 -> string_text v raw ->
    string_text (utf8 u ++ v) (utf8 u ++ raw)
| said_escaped a b v raw :
    In (a, b) [("034", "034"); ("092", "092"); ("/", "/"); ("b", "008"); ("f", "012"); ("n", "010"); ("r", "013"); ("t", "009")]%char ->
    string_text v raw -> string_text (String b v) (String "092" (String a raw))
| said_code h u v raw : hex_text h u -> scalar u -> string_text v raw ->
    string_text (utf8 u ++ v) (u_escape ++ h ++ raw)
| said_pair h1 h2 high low v raw : hex_text h1 high -> hex_text h2 low -> 55296 <= high < 56320 -> 56320 <= low < 57344 ->
    string_text v raw ->
    string_text (utf8 (65536 + (high - 55296) * 1024 + (low - 56320)) ++ v) (u_escape ++ h1 ++ u_escape ++ h2 ++ raw)
(** Not RFC 8259: half of a pair, and bytes that are no UTF-8, are read as U+FFFD. *)
| said_half h u v raw : hex_text h u -> 55296 <= u < 57344 ->
    (u < 56320 -> forall h2 low r, hex_text h2 low -> 56320 <= low < 57344 -> raw <> u_escape ++ h2 ++ r) ->
    string_text v raw -> string_text (utf8 65533 ++ v) (u_escape ++ h ++ raw)
| said_junk a v raw : 128 <= N_of_ascii a -> (forall u r, scalar u -> String a raw <> utf8 u ++ r) ->
    string_text v raw -> string_text (utf8 65533 ++ v) (String a raw).

Definition quoted_text (raw : string) : string := String "034" (raw ++ String "034" "").

(** The text of a value in which at most [d] arrays and objects are open at once. *)
Inductive text_of : N -> json -> string -> Prop :=
| text_null d : text_of d JNull "null"
| text_true d : text_of d (JBool true) "true"
| text_false d : text_of d (JBool false) "false"
| text_number d n : number n -> text_of d (JNum n) (match n with Int z => print_int z | Lit s => s end)
| text_string d v raw : string_text v raw -> text_of d (JStr v) (quoted_text raw)
| text_no_items d w : blanks w -> 0 < d -> text_of d (JArr []) ("[" ++ w ++ "]")
| text_items d l body : 0 < d -> items_text (d - 1) l body -> text_of d (JArr l) ("[" ++ body ++ "]")
| text_no_members d w : blanks w -> 0 < d -> text_of d (JObj []) ("{" ++ w ++ "}")
| text_members d l body : 0 < d -> members_text (d - 1) l body -> text_of d (JObj l) ("{" ++ body ++ "}")
with items_text : N -> list json -> string -> Prop :=
| one_item d x t w1 w2 : blanks w1 -> blanks w2 -> text_of d x t -> items_text d [x] (w1 ++ t ++ w2)
| more_items d x t w1 w2 l body : blanks w1 -> blanks w2 -> text_of d x t -> items_text d l body ->
    items_text d (x :: l) (w1 ++ t ++ w2 ++ "," ++ body)
with members_text : N -> list (string * json) -> string -> Prop :=
| one_member d k raw x t w1 w2 w3 w4 : blanks w1 -> blanks w2 -> blanks w3 -> blanks w4 -> string_text k raw -> text_of d x t ->
    members_text d [(k, x)] (w1 ++ quoted_text raw ++ w2 ++ ":" ++ w3 ++ t ++ w4)
| more_members d k raw x t w1 w2 w3 w4 l body : blanks w1 -> blanks w2 -> blanks w3 -> blanks w4 -> string_text k raw -> text_of d x t ->
    members_text d l body ->
    members_text d ((k, x) :: l) (w1 ++ quoted_text raw ++ w2 ++ ":" ++ w3 ++ t ++ w4 ++ "," ++ body).

Scheme text_ind3 := Minimality for text_of Sort Prop
with items_ind3 := Minimality for items_text Sort Prop
with members_ind3 := Minimality for members_text Sort Prop.
Combined Scheme text_mutual from text_ind3, items_ind3, members_ind3.
