(** Model of what the web interface writes into its pages: the rows of
    pkg/rangedbui/templates/layout/records.gohtml, the numbers of
    pkg/rangedbui/functions.go, and the table the live page of an aggregate type
    keeps in the browser (templates/aggregate-type-live.gohtml). *)
From Verif Require Import Base Core DecText Text Http Paging.
Open Scope string_scope.
Open Scope N_scope.

(** * Escaping (html/template) *)

(** html/template html.go htmlReplacementTable. *)
Definition html_ref (a : ascii) : string :=
  let n := N_of_ascii a in
  if n =? 0 then String "239" (String "191" (String "189" ""))   (* U+FFFD *)
  else if n =? 34 then "&#34;"
  else if n =? 38 then "&amp;"
  else if n =? 39 then "&#39;"
  else if n =? 43 then "&#43;"
  else if n =? 60 then "&lt;"
  else if n =? 62 then "&gt;"
  else String a "".

(** html/template html.go htmlReplacer with that table and badRunes: what
    [{{.X}}] writes in a text, and in a quoted attribute after other escapers. *)
Fixpoint html_escape (s : string) : string :=
  match s with
  | EmptyString => EmptyString
  | String a rest => html_ref a ++ html_escape rest
  end.

Definition is_hex (a : ascii) : bool := match unhex a with Some _ => true | None => false end.
Definition hex_pair (s : string) : bool :=
  match s with String h (String l _) => is_hex h && is_hex l | _ => false end.
(** fmt's %02x *)
Definition lowhex (n : N) : ascii := ascii_of_N (if n <? 10 then 48 + n else 87 + n).

(** html/template url.go processURLOnto with norm: what [{{.X}}] writes, before
    html_escape, inside the path of a href attribute. *)
Definition kept (a : ascii) : bool := unreserved a || in_set a "!#$&*+,/:;=?@[]".
Fixpoint normalize (s : string) : string :=
  match s with
  | EmptyString => EmptyString
  | String a rest =>
      if kept a || (Ascii.eqb a "%" && hex_pair rest) then String a (normalize rest)
      else String "%" (String (lowhex (N_of_ascii a / 16)) (String (lowhex (N_of_ascii a mod 16)) (normalize rest)))
  end.

(** * Numbers *)

(** go-humanize comma.go:17-46 [Comma], for numbers that are not negative: the
    groups of three digits. *)
Definition pad3 (n : N) : string :=
  let t := dec n in
  match String.length t with
  | 1%nat => "00" ++ t
  | 2%nat => "0" ++ t
  | _ => t
  end.
Fixpoint comma_parts (fuel : nat) (v : N) (acc : list string) : list string :=
  match fuel with
  | O => dec v :: acc                 (* never for an int64: seven parts are enough *)
  | S k => if 999 <? v then comma_parts k (v / 1000) (pad3 (v mod 1000) :: acc)%list else (dec v :: acc)%list
  end.
Definition comma (v : N) : string := join "," (comma_parts 6 v []).

(** functions.go:32-34 [formatUint64]: Comma(int64(v)). *)
Definition format_uint64 (v : N) : string :=
  if v <? 2 ^ 63 then comma v else "-" ++ comma (2 ^ 64 - v).

(** * A row of a page of records *)

(** templates/layout/records.gohtml:18-26: the texts of the cells and the two
    links.  [date] is what formatDate makes of the timestamp and [json] what
    formatJson makes of the data (functions.go:23-30). *)
Record row := mk_row {
  w_gsn : string; w_ssn : string; w_etype : string;
  w_type_link : string; w_type : string;
  w_stream_link : string; w_stream : string;
  w_date : string; w_data : string
}.
Section Row.
Variable date : N -> string.
Variable json : string -> string.
Definition show_row (r : record) : row :=
  mk_row (html_escape (dec (r_gsn r))) (html_escape (dec (r_ssn r))) (html_escape (r_etype r))
    ("/a/" ++ html_escape (normalize (r_atype r))) (html_escape (r_atype r))
    ("/s/" ++ html_escape (normalize (r_stream r))) (html_escape (r_stream r))
    (html_escape (date (r_ts r))) (html_escape (json (r_data r))).
End Row.

(** templates/layout/pagination.gohtml:7,12: a link that is a whole attribute value.
    The filter of URL schemes lets it through: it begins with a slash. *)
Definition shown_link (link : string) : string := html_escape (normalize link).

(** * The table of the live page *)

(** aggregate-type-live.gohtml:54-60. *)
Record live := mk_live { v_records : list record; v_was : bool; v_total : N }.
Inductive live_event := Arrived (r : record) (total : N) | Disconnected.

(** aggregate-type-live.gohtml:53,72-94: onmessage and onclose (which reconnects a
    second later). *)
Definition live_step (s : live) (e : live_event) : live :=
  match e with
  | Disconnected => mk_live (v_records s) true (v_total s)
  | Arrived r t =>
      let rs := r :: (if v_was s then [] else v_records s) in
      mk_live (if 10 <? N.of_nat (length rs) then removelast rs else rs) false t
  end.
Definition live_run (s : live) (es : list live_event) : live := fold_left live_step es s.
(** The page as it is loaded, with the total it was given. *)
Definition live_start (total : N) : live := mk_live [] false total.
