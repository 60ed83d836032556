(** Vocabulary of the statements about generated code: reading the text again, line by
    line, as the Go compiler would. *)
From Coq Require Import PeanoNat.
From Verif Require Import Base DecText Text JsonText.
Open Scope string_scope.
Open Scope N_scope.

(** The lines of a text. *)
Definition lines_of (text : string) : list string := split_str (String "010" "") text.

(** The lines of the function with this first line, up to its closing brace. *)
Fixpoint until_brace (ls : list string) : list string :=
  match ls with
  | [] => []
  | l :: rest => if String.eqb l "}" then [] else l :: until_brace rest
  end.
Fixpoint body_of (header : string) (ls : list string) : list string :=
  match ls with
  | [] => []
  | l :: rest => if String.eqb l header then until_brace rest else body_of header rest
  end.

(** [Some t] if the line is "case t:" (indented by a tab). *)
Definition case_of (line : string) : option string :=
  let start := String "009" "case " in
  if String.prefix start line then
    let t := substring 6 (String.length line - 7) line in
    if String.eqb line (start ++ t ++ ":") then Some t else None
  else None.

(** What a type switch runs for a value of the type named [t]: the line after the first
    case of that type; [None]: nothing. *)
Fixpoint chosen_by (t : string) (ls : list string) : option string :=
  match ls with
  | l :: ((next :: _) as rest) =>
      match case_of l with
      | Some u => if String.eqb u t then Some next else chosen_by t rest
      | None => chosen_by t rest
      end
  | _ => None
  end.

(** What the method with this first line in the text runs for a value of type [t]. *)
Definition runs (text header t : string) : option string := chosen_by t (body_of header (lines_of text)).

(** A Go identifier, as far as its bytes go: letters, digits, underscores, and bytes of
    other letters. *)
Definition name_char (a : ascii) : bool :=
  let n := N_of_ascii a in between 48 57 n || between 65 90 n || (n =? 95) || between 97 122 n || (128 <=? n).
Fixpoint name_chars (s : string) : bool := match s with EmptyString => true | String a r => name_char a && name_chars r end.
Definition go_name (s : string) : Prop := s <> "" /\ name_chars s = true.
(** An exported name that begins with one of A to Z. *)
Definition exported (s : string) : Prop := match s with EmptyString => False | String a r => between 65 90 (N_of_ascii a) = true /\ name_chars r = true end.

(** The call of a method on the aggregate. *)
Definition call (m arg : string) : string := String "009" (String "009" ("a." ++ m ++ "(" ++ arg ++ ")")).

(** The method that belongs to an exported name: its first letter in lower case. *)
Definition method_of (s : string) : string := match s with EmptyString => "" | String a r => String (ascii_of_N (N_of_ascii a + 32)) r end.

(** The keywords of Go. *)
Definition keywords : list string :=
  ["break"; "case"; "chan"; "const"; "continue"; "default"; "defer"; "else"; "fallthrough"; "for"; "func"; "go"; "goto"; "if"; "import";
   "interface"; "map"; "package"; "range"; "return"; "select"; "struct"; "switch"; "type"; "var"].

(** The value of an interpreted string literal of Go, read after its opening quote up to
    its closing quote: [Some (value, rest)].  Octal, \x, \u and \U escapes are not read. *)
Fixpoint go_literal (s : string) : option (string * string) :=
  match s with
  | EmptyString => None
  | String a r =>
      if Ascii.eqb a """" then Some ("", r)
      else if Ascii.eqb a "010" then None
      else if Ascii.eqb a "\" then
        match r with
        | String e r2 =>
            let n := N_of_ascii e in
            let v := if n =? 97 then Some 7 else if n =? 98 then Some 8 else if n =? 102 then Some 12 else if n =? 110 then Some 10
                     else if n =? 114 then Some 13 else if n =? 116 then Some 9 else if n =? 118 then Some 11
                     else if (n =? 92) || (n =? 34) then Some n else None in
            match v, go_literal r2 with
            | Some k, Some (x, y) => Some (String (ascii_of_N k) x, y)
            | _, _ => None
            end
        | EmptyString => None
        end
      else match go_literal r with Some (x, y) => Some (String a x, y) | None => None end
  end.

(** What a method of one line "func (c T) M() string { return "..." }" returns: [pre] is
    what stands before the literal. *)
Fixpoint returned (pre : string) (ls : list string) : option string :=
  match ls with
  | [] => None
  | l :: rest =>
      if String.prefix pre l then
        match go_literal (substring (String.length pre) (String.length l - String.length pre) l) with
        | Some (v, r) => if String.eqb r " }" then Some v else None
        | None => None
        end
      else returned pre rest
  end.
