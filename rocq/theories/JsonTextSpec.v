(** Independent vocabulary for statements about JSON texts. *)
From Coq Require Import ZArith.
From Verif Require Import Base DecText Json JsonText.
Open Scope string_scope.
Open Scope N_scope.

(** A Unicode character: any code point except the surrogates. *)
Definition scalar (u : N) : Prop := u < 55296 \/ 57344 <= u < 1114112.

(** A well-formed UTF-8 text: characters, each in UTF-8. *)
Definition is_text (s : string) : Prop :=
  exists us, Forall scalar us /\ s = List.fold_right (fun u t => utf8 u ++ t) "" us.

Definition some_digits (s : string) : Prop := all_digits s /\ s <> "".

(** A JSON number literal (RFC 8259) that is not the usual way to write an integer. *)
Definition literal (s : string) : Prop :=
  exists neg i fr ex,
    s = (if neg : bool then "-" else "") ++ i ++ fr ++ ex
    /\ (i = "0" \/ exists c r, i = String c r /\ all_digits i /\ c <> "0"%char)
    /\ (fr = "" \/ exists d, fr = "." ++ d /\ some_digits d)
    /\ (ex = "" \/ exists e sg d, ex = String e (sg ++ d) /\ (e = "e"%char \/ e = "E"%char)
                                 /\ (sg = "" \/ sg = "+" \/ sg = "-") /\ some_digits d)
    /\ (fr <> "" \/ ex <> "" \/ s = "-0").
Definition number (n : num) : Prop := match n with Int _ => True | Lit s => literal s end.

(** A tree whose strings are texts and whose numbers are numbers. *)
Inductive sound : json -> Prop :=
| sound_null : sound JNull
| sound_bool b : sound (JBool b)
| sound_num n : number n -> sound (JNum n)
| sound_str s : is_text s -> sound (JStr s)
| sound_arr l : (forall x, In x l -> sound x) -> sound (JArr l)
| sound_obj l : (forall k x, In (k, x) l -> is_text k /\ sound x) -> sound (JObj l).

(** How many arrays and objects are open at once at most. *)
Fixpoint nesting (j : json) : N :=
  match j with
  | JArr l => 1 + fold_right N.max 0 (map nesting l)
  | JObj l => 1 + fold_right N.max 0 (map (fun p => nesting (snd p)) l)
  | _ => 0
  end.

(** The text [t] does not continue a number that ends right before it. *)
Definition ends_number (t : string) : Prop :=
  match t with
  | EmptyString => True
  | String c _ => is_digit c = false /\ c <> "."%char /\ c <> "e"%char /\ c <> "E"%char
  end.
