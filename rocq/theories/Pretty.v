(** pkg/jsontools/json_tools.go: JSON made readable.  [json.Indent] of the Go 1.16 library
    (encoding/json/indent.go:68-132) is modelled from its description and source. *)
From Verif Require Import Base Json JsonText.
Open Scope string_scope.

(** Where the scanner stands: outside of strings, inside of one, behind a backslash. *)
Inductive spot := Outside | Inside | Escape.

(** indent.go [newline], with the prefix "" and the indent of two spaces of
    json_tools.go:17. *)
Fixpoint steps (depth : nat) : string := match depth with O => "" | S n => "  " ++ steps n end.
Definition newline (depth : nat) : string := String "010" (steps depth).

(** indent.go:79-121, the loop over the bytes of a value.  [need]: an array or object has
    just been opened.  Simplification: the scanner is reduced to what the loop asks of it
    on the bytes of a valid text: is this byte part of a string or literal, is it white
    space, is it punctuation. *)
Fixpoint indented (s : string) (at_ : spot) (need : bool) (depth : nat) : string :=
  match s with
  | EmptyString => ""
  | String c r =>
      match at_ with
      | Escape => String c (indented r Inside need depth)
      | Inside => String c (indented r (if Ascii.eqb c "092" then Escape else if Ascii.eqb c "034" then Outside else Inside) need depth)
      | Outside =>
          if blank c then indented r Outside need depth
          else if Ascii.eqb c "}" || Ascii.eqb c "]" then
            if need then String c (indented r Outside false depth)
            else newline (pred depth) ++ String c (indented r Outside false (pred depth))
          else
            let d := if need then S depth else depth in
            (if need then newline d else "")
            ++ (if Ascii.eqb c "{" || Ascii.eqb c "[" then String c (indented r Outside true d)
                else if Ascii.eqb c "," then String c (newline d ++ indented r Outside false d)
                else if Ascii.eqb c ":" then String c (" " ++ indented r Outside false d)
                else String c (indented r (if Ascii.eqb c "034" then Inside else Outside) false d))
      end
  end.

(** strings.TrimSpace.  Simplification: white space of JSON only; what is trimmed begins and
    ends with the characters of a JSON text or with that. *)
Fixpoint trim_end (s : string) : string :=
  match s with
  | EmptyString => ""
  | String c r => match trim_end r with
                  | EmptyString => if blank c then "" else String c ""
                  | t => String c t
                  end
  end.
Definition trim (s : string) : string := trim_end (skip s).

(** json_tools.go:15-19 [PrettyJSON].  White space behind the value is copied, anything
    else there is an error; after an error the buffer is empty (indent.go:122-126). *)
Definition pretty (s : string) : string :=
  match read_value s with
  | Some (_, rest) =>
      match skip rest with
      | EmptyString => trim (indented (substring 0 (String.length s - String.length rest) s) Outside false 0 ++ rest)
      | _ => ""
      end
  | None => ""
  end.
