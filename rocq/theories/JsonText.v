(** JSON texts byte by byte, as Go's encoding/json prints and reads them.  The
    library is not part of /repo; this is the part of it that
    provider/jsonrecordserializer/json_record_serializer.go:29, 38-41, 60, 74-93,
    provider/jsonrecordiostream/json_record_io_stream.go:39, 65-79 and
    provider/ndjsonrecordiostream/ndjson_record_io_stream.go call (Go 1.16). *)
From Coq Require Import ZArith.
From Verif Require Import Base DecText Json.
Open Scope string_scope.
Open Scope N_scope.

(** * UTF-8 *)

Definition between (lo hi n : N) : bool := (lo <=? n) && (n <=? hi).
Definition cont (n : N) : bool := between 128 191 n.

(** utf8.DecodeRune: the number of bytes of the character a text begins with; 0 if
    it begins with no well-formed character. *)
Definition rune_len (s : string) : nat :=
  match s with
  | EmptyString => O
  | String a r =>
      let n := N_of_ascii a in
      if n <? 128 then 1%nat
      else match r with
      | EmptyString => O
      | String b r2 =>
          let m := N_of_ascii b in
          if between 194 223 n then (if cont m then 2%nat else O)
          else match r2 with
          | EmptyString => O
          | String c r3 =>
              let second := between (if n =? 224 then 160 else if n =? 240 then 144 else 128)
                                    (if n =? 237 then 159 else if n =? 244 then 143 else 191) m in
              if between 224 239 n then (if second && cont (N_of_ascii c) then 3%nat else O)
              else match r3 with
              | EmptyString => O
              | String d _ =>
                  if between 240 244 n && second && cont (N_of_ascii c) && cont (N_of_ascii d) then 4%nat else O
              end
          end
      end
  end.

(** utf8.EncodeRune below 0x110000. *)
Definition utf8 (u : N) : string :=
  let b n := ascii_of_N n in
  if u <? 128 then String (b u) ""
  else if u <? 2048 then String (b (192 + u / 64)) (String (b (128 + u mod 64)) "")
  else if u <? 65536 then String (b (224 + u / 4096)) (String (b (128 + u / 64 mod 64)) (String (b (128 + u mod 64)) ""))
  else String (b (240 + u / 262144)) (String (b (128 + u / 4096 mod 64)) (String (b (128 + u / 64 mod 64)) (String (b (128 + u mod 64)) ""))).

(** U+FFFD, what encoding/json puts in place of bytes that are not UTF-8. *)
Definition replacement : string := utf8 65533.

(** * Strings *)

Definition quote_char : ascii := "034".
Definition backslash : ascii := "092".
Definition lower_hex (n : N) : ascii := ascii_of_N (if n <? 10 then 48 + n else 87 + n).

(** encode.go [encodeState.string] with escapeHTML, one byte below 0x80. *)
Definition escape_byte (a : ascii) : string :=
  let n := N_of_ascii a in
  if (n =? 34) || (n =? 92) then String backslash (String a "")
  else if n =? 10 then "\n"
  else if n =? 13 then "\r"
  else if n =? 9 then "\t"
  else if (n <? 32) || (n =? 60) || (n =? 62) || (n =? 38) then
    "\u00" ++ String (lower_hex (n / 16)) (String (lower_hex (n mod 16)) "")
  else String a "".

(** encode.go [encodeState.string]: what stands between the quotes. *)
Fixpoint quote_body (s : string) : string :=
  match s with
  | EmptyString => ""
  | String a r =>
      match rune_len s, r with
      | 1%nat, _ => escape_byte a ++ quote_body r
      | 2%nat, String b r2 => String a (String b (quote_body r2))
      | 3%nat, String b (String c r3) =>
          if (N_of_ascii a =? 226) && (N_of_ascii b =? 128) && between 168 169 (N_of_ascii c)
          then "\u202" ++ String (lower_hex (N_of_ascii c - 160)) (quote_body r3)
          else String a (String b (String c (quote_body r3)))
      | 4%nat, String b (String c (String d r4)) => String a (String b (String c (String d (quote_body r4))))
      | _, _ => String backslash "ufffd" ++ quote_body r
      end
  end.
Definition quote (s : string) : string := String quote_char (quote_body s ++ String quote_char "").

Definition hex_value (a : ascii) : option N :=
  let n := N_of_ascii a in
  if between 48 57 n then Some (n - 48)
  else if between 97 102 n then Some (n - 87)
  else if between 65 70 n then Some (n - 55)
  else None.
Definition hex4 (a b c d : ascii) : option N :=
  match hex_value a, hex_value b, hex_value c, hex_value d with
  | Some w, Some x, Some y, Some z => Some (((w * 16 + x) * 16 + y) * 16 + z)
  | _, _, _, _ => None
  end.

(** decode.go [unquoteBytes]: the second half of a surrogate pair, if one follows. *)
Definition low_half (s : string) : option N :=
  match s with
  | String x (String y (String a (String b (String c (String d _))))) =>
      if Ascii.eqb x backslash && Ascii.eqb y "u" then
        match hex4 a b c d with
        | Some u => if between 56320 57343 u then Some u else None
        | None => None
        end
      else None
  | _ => None
  end.

Definition then_ (t : string) (o : option (string * string)) : option (string * string) :=
  match o with Some (x, r) => Some (t ++ x, r) | None => None end.

Definition simple_escape (a : ascii) : option string :=
  let n := N_of_ascii a in
  if (n =? 34) || (n =? 92) || (n =? 47) then Some (String a "")
  else if n =? 98 then Some (String "008" "")
  else if n =? 102 then Some (String "012" "")
  else if n =? 110 then Some (String "010" "")
  else if n =? 114 then Some (String "013" "")
  else if n =? 116 then Some (String "009" "")
  else None.

(** scanner.go [stateInString] to [stateInStringEscU123] and decode.go
    [unquoteBytes]: the string whose opening quote has been read, and the text
    behind its closing quote.  [None]: a syntax error, or the text ends. *)
Fixpoint string_body (s : string) : option (string * string) :=
  match s with
  | EmptyString => None
  | String a r =>
      if Ascii.eqb a quote_char then Some ("", r)
      else if Ascii.eqb a backslash then
        match r with
        | EmptyString => None
        | String e r1 =>
            if Ascii.eqb e "u" then
              match r1 with
              | String h1 (String h2 (String h3 (String h4 r2))) =>
                  match hex4 h1 h2 h3 h4 with
                  | None => None
                  | Some u =>
                      if between 55296 57343 u then
                        match low_half r2 with
                        | Some low =>
                            if u <? 56320 then
                              match r2 with
                              | String _ (String _ (String _ (String _ (String _ (String _ r3))))) =>
                                  then_ (utf8 (65536 + (u - 55296) * 1024 + (low - 56320))) (string_body r3)
                              | _ => None
                              end
                            else then_ replacement (string_body r2)
                        | None => then_ replacement (string_body r2)
                        end
                      else then_ (utf8 u) (string_body r2)
                  end
              | _ => None
              end
            else match simple_escape e with
                 | Some t => then_ t (string_body r1)
                 | None => None
                 end
        end
      else if N_of_ascii a <? 32 then None
      else
        match rune_len s, r with
        | 1%nat, _ => then_ (String a "") (string_body r)
        | 2%nat, String b r2 => then_ (String a (String b "")) (string_body r2)
        | 3%nat, String b (String c r3) => then_ (String a (String b (String c ""))) (string_body r3)
        | 4%nat, String b (String c (String d r4)) => then_ (String a (String b (String c (String d "")))) (string_body r4)
        | _, _ => then_ replacement (string_body r)
        end
  end.

(** * Numbers *)

Definition is_digit (a : ascii) : bool := between 48 57 (N_of_ascii a).

Fixpoint take_digits (s : string) : string * string :=
  match s with
  | EmptyString => ("", "")
  | String a r => if is_digit a then let (d, r') := take_digits r in (String a d, r') else ("", s)
  end.

(** scanner.go [stateBeginValue], [state1], [state0]: sign and integer part. *)
Definition int_part (s : string) : option (string * string) :=
  match s with
  | String a r =>
      if Ascii.eqb a "0" then Some ("0", r)
      else if is_digit a then Some (take_digits s)
      else None
  | EmptyString => None
  end.

(** [stateDot], [stateDot0]. *)
Definition frac_part (s : string) : option (string * string) :=
  match s with
  | String a r =>
      if Ascii.eqb a "." then
        match take_digits r with (EmptyString, _) => None | (d, r') => Some (String "." d, r') end
      else Some ("", s)
  | EmptyString => Some ("", "")
  end.

(** [stateE], [stateESign], [stateE0]. *)
Definition exp_part (s : string) : option (string * string) :=
  match s with
  | String a r =>
      if Ascii.eqb a "e" || Ascii.eqb a "E" then
        let (sign, r1) := match r with
                          | String b r1 => if Ascii.eqb b "+" || Ascii.eqb b "-" then (String b "", r1) else ("", r)
                          | EmptyString => ("", "")
                          end in
        match take_digits r1 with (EmptyString, _) => None | (d, r') => Some (String a (sign ++ d), r') end
      else Some ("", s)
  | EmptyString => Some ("", "")
  end.

Definition split_sign (s : string) : bool * string :=
  match s with String a r => if Ascii.eqb a "-" then (true, r) else (false, s) | EmptyString => (false, s) end.

(** A number and the text behind it.  The text of a literal is kept (UseNumber);
    integers, except -0, are represented by their value. *)
Definition scan_number (s : string) : option (num * string) :=
  let (neg, s1) := split_sign s in
  match int_part s1 with
  | None => None
  | Some (i, s2) =>
      match frac_part s2 with
      | None => None
      | Some (fr, s3) =>
          match exp_part s3 with
          | None => None
          | Some (ex, s4) =>
              let v := fst (digits 0 i) in
              Some (match fr, ex with
                    | EmptyString, EmptyString =>
                        if neg && (v =? 0) then Lit "-0" else Int (if neg then - Z.of_N v else Z.of_N v)%Z
                    | _, _ => Lit ((if neg then "-" else "") ++ i ++ fr ++ ex)
                    end, s4)
          end
      end
  end.

(** encode.go: an integer, and a json.Number ([isValidNumber]); the empty
    json.Number is printed as 0.  [None]: "invalid number literal". *)
Definition print_int (z : Z) : string :=
  match z with Zneg p => "-" ++ dec (Npos p) | _ => dec (Z.to_N z) end.
Definition number_ok (n : num) : bool :=
  match n with
  | Int _ => true
  | Lit "" => true
  | Lit s => match scan_number s with Some (_, "") => true | _ => false end
  end.
Definition print_num (n : num) : string :=
  match n with Int z => print_int z | Lit "" => "0" | Lit s => s end.

(** * Values *)

(** encode.go: no white space, members in the order of the tree. *)
Fixpoint print (j : json) : string :=
  match j with
  | JNull => "null"
  | JBool true => "true"
  | JBool false => "false"
  | JNum n => print_num n
  | JStr s => quote s
  | JArr [] => "[]"
  | JArr (x :: l) => "[" ++ print x ++ (fix go (l : list json) : string :=
                       match l with [] => "]" | y :: r => "," ++ print y ++ go r end) l
  | JObj [] => "{}"
  | JObj ((k, x) :: l) => "{" ++ quote k ++ ":" ++ print x ++ (fix go (l : list (string * json)) : string :=
                       match l with [] => "}" | (k', y) :: r => "," ++ quote k' ++ ":" ++ print y ++ go r end) l
  end.

(** scanner.go [isSpace]. *)
Definition blank (a : ascii) : bool :=
  let n := N_of_ascii a in (n =? 32) || (n =? 9) || (n =? 10) || (n =? 13).
Fixpoint skip (s : string) : string :=
  match s with String a r => if blank a then skip r else s | EmptyString => "" end.

Fixpoint expect (w s : string) : option string :=
  match w, s with
  | EmptyString, _ => Some s
  | String a w', String b s' => if Ascii.eqb a b then expect w' s' else None
  | _, EmptyString => None
  end.

(** scanner.go: the nesting an array or object may have. *)
Definition max_nesting : N := 10000.

(** scanner.go and decode.go: the value a text begins with and the text behind it.
    [None]: a syntax error, the text ends too early, or it is nested too deeply
    ([depth] levels may still be opened).  [fuel] bounds the recursion; twice the
    length of the text is enough. *)
Fixpoint value (fuel : nat) (depth : N) (s : string) : option (json * string) :=
  match fuel with
  | O => None
  | S f =>
      match skip s with
      | EmptyString => None
      | String c r =>
          if Ascii.eqb c quote_char then
            match string_body r with Some (t, r') => Some (JStr t, r') | None => None end
          else if Ascii.eqb c "[" then
            if depth =? 0 then None
            else match skip r with
                 | EmptyString => None
                 | String c2 r2 =>
                     if Ascii.eqb c2 "]" then Some (JArr [], r2)
                     else match elements f (depth - 1) r with Some (l, r') => Some (JArr l, r') | None => None end
                 end
          else if Ascii.eqb c "{" then
            if depth =? 0 then None
            else match skip r with
                 | EmptyString => None
                 | String c2 r2 =>
                     if Ascii.eqb c2 "}" then Some (JObj [], r2)
                     else match members f (depth - 1) r with Some (l, r') => Some (JObj l, r') | None => None end
                 end
          else if Ascii.eqb c "n" then match expect "ull" r with Some r' => Some (JNull, r') | None => None end
          else if Ascii.eqb c "t" then match expect "rue" r with Some r' => Some (JBool true, r') | None => None end
          else if Ascii.eqb c "f" then match expect "alse" r with Some r' => Some (JBool false, r') | None => None end
          else match scan_number (String c r) with Some (n, r') => Some (JNum n, r') | None => None end
      end
  end
with elements (fuel : nat) (depth : N) (s : string) : option (list json * string) :=
  match fuel with
  | O => None
  | S f =>
      match value f depth s with
      | None => None
      | Some (v, r) =>
          match skip r with
          | EmptyString => None
          | String c r' =>
              if Ascii.eqb c "," then
                match elements f depth r' with Some (l, r'') => Some ((v :: l)%list, r'') | None => None end
              else if Ascii.eqb c "]" then Some ([v], r')
              else None
          end
      end
  end
with members (fuel : nat) (depth : N) (s : string) : option (list (string * json) * string) :=
  match fuel with
  | O => None
  | S f =>
      match skip s with
      | EmptyString => None
      | String q r =>
          if Ascii.eqb q quote_char then
            match string_body r with
            | None => None
            | Some (k, r1) =>
                match skip r1 with
                | EmptyString => None
                | String c r2 =>
                    if Ascii.eqb c ":" then
                      match value f depth r2 with
                      | None => None
                      | Some (v, r3) =>
                          match skip r3 with
                          | EmptyString => None
                          | String c' r4 =>
                              if Ascii.eqb c' "," then
                                match members f depth r4 with Some (l, r'') => Some (((k, v) :: l)%list, r'') | None => None end
                              else if Ascii.eqb c' "}" then Some ([(k, v)], r4)
                              else None
                          end
                      end
                    else None
                end
            end
          else None
      end
  end.

(** The next value of a text, as json.Decoder.Decode reads it. *)
Definition read_value (s : string) : option (json * string) :=
  value (2 * String.length s) max_nesting s.
