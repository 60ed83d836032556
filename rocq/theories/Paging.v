(** Model of pkg/paging/paging.go and of the paged handlers of pkg/rangedbui/ui.go. *)
From Verif Require Import Base Core DecText Text Http.
Open Scope string_scope.
Open Scope N_scope.

(** * Pagination *)

(** paging.go:17-21 [Pagination]. *)
Record pagination := mk_pagination { pg_items : N; pg_current : N; pg_previous : list N }.

(** paging.go:30-44 [NewPagination] with the constants of 10-14. *)
Definition new_pagination (items current : N) (previous : list N) : pagination :=
  let items1 := if items <=? 0 then 10 else items in
  let items2 := if 1000 <? items1 then 1000 else items1 in
  mk_pagination items2 current previous.

(** paging.go:62-70: up to the first piece that is not a number. *)
Fixpoint parse_previous (l : list string) : list N :=
  match l with
  | [] => []
  | x :: rest => match parse_uint x with Some n => n :: parse_previous rest | None => [] end
  end.

Definition number_or (default : N) (s : string) : N :=
  match parse_uint s with Some n => n | None => default end.

(** paging.go:56-79 [NewPaginationFromString]. *)
Definition from_string (items current previous : string) : pagination :=
  new_pagination (number_or 10 items) (number_or 0 current) (parse_previous (split_str "," previous)).

(** net/url ParseQuery: pairs that cannot be decoded are skipped, and so are those
    with a semicolon (Go 1.17 and later; before, it separated pairs). *)
Definition pair_of (p : string) : option (string * string) :=
  if String.eqb p "" || negb (lacks ";" p) then None
  else let '(k, v) := cut_byte "=" p in
       match unescape true k, unescape true (match v with Some v => v | None => "" end) with
       | Some k', Some v' => Some (k', v')
       | _, _ => None
       end.
Fixpoint pairs_of (l : list string) : list (string * string) :=
  match l with
  | [] => []
  | p :: rest => match pair_of p with Some kv => kv :: pairs_of rest | None => pairs_of rest end
  end.
Definition parse_query (q : string) : list (string * string) := pairs_of (split_str "&" q).

(** Values.Get: the first value of a key. *)
Fixpoint get_value (k : string) (l : list (string * string)) : string :=
  match l with
  | [] => ""
  | (k', v) :: rest => if String.eqb k' k then v else get_value k rest
  end.

(** paging.go:47-53 [NewPaginationFromQuery]. *)
Definition from_query (q : string) : pagination :=
  let vs := parse_query q in
  from_string (get_value "itemsPerPage" vs) (get_value "current" vs) (get_value "previous" vs).

(** * Links *)

(** fmt.Sprint of a []uint64 and what paging.go:94,111 make of it. *)
Definition sprint (l : list N) : string := "[" ++ join " " (map dec l) ++ "]".
Definition csv (l : list N) : string := trim "[]" (join "," (fields (sprint l))).

(** Values.Encode: "key=value" joined by "&"; the keys sorted, here current,
    itemsPerPage, previous. *)
Definition encode_query (kvs : list (string * string)) : string :=
  join "&" (map (fun kv => query_escape (fst kv) ++ "=" ++ query_escape (snd kv)) kvs).

(** net/url stringContainsCTLByte. *)
Definition control (a : ascii) : bool := let n := N_of_ascii a in (n <? 32) || (n =? 127).

(** shouldEscape in mode encodePath, and escape. *)
Definition path_plain (a : ascii) : bool := unreserved a || in_set a "$&+,/:;=@".
Fixpoint path_escape (s : string) : string :=
  match s with
  | EmptyString => EmptyString
  | String a rest =>
      if path_plain a then String a (path_escape rest)
      else String "%" (String (hexdigit (N_of_ascii a / 16)) (String (hexdigit (N_of_ascii a mod 16)) (path_escape rest)))
  end.
(** validEncoded in mode encodePath. *)
Definition path_valid (a : ascii) : bool := path_plain a || in_set a "!'()*[]%".

(** url.Parse(base), u.RawQuery = query, u.String(), for a [base] starting with
    "/s/" or "/a/": no scheme, no host.  The base's own query is overwritten, its
    fragment stays behind the new one (here as it was written; it never reaches the
    server).  [None]: Parse fails and the assignment panics on its nil result. *)
Definition with_query (base query : string) : option string :=
  let '(before, frag) := cut_byte "#" base in
  let '(p, _) := cut_byte "?" before in
  if negb (all_chars (fun a => negb (control a)) before) then None
  else match unescape false p, unescape false (match frag with Some f => f | None => "" end) with
       | Some path, Some _ =>
           Some ((if all_chars path_valid p then p else path_escape path) ++ "?" ++ query
                 ++ match frag with Some (String a f) => "#" ++ String a f | _ => "" end)
       | _, _ => None
       end.

(** paging.go:24-27 [Links]; [links] is paging.go:82-125.  [None]: panic. *)
Definition previous_link (base : string) (p : pagination) : option string :=
  match rev (pg_previous p) with
  | [] => Some ""
  | current :: before =>
      let kept := rev before in
      with_query base (encode_query
        ([("current", dec current); ("itemsPerPage", dec (pg_items p))]
         ++ match kept with [] => [] | _ => [("previous", csv kept)] end)%list)
  end.
Definition next_link (base : string) (p : pagination) (next : N) : option string :=
  if pg_current p <? next then
    with_query base (encode_query
      [("current", dec next); ("itemsPerPage", dec (pg_items p)); ("previous", csv (pg_previous p ++ [pg_current p])%list)])
  else Some "".
Definition links (base : string) (p : pagination) (next : N) : option (string * string) :=
  match previous_link base p, next_link base p next with
  | Some a, Some b => Some (a, b)
  | _, _ => None
  end.

(** * Pages *)

(** What is paged through. *)
Inductive place := InStream (name : string) | OfType (t : string).

(** ui.go:192, 232. *)
Definition base_uri (pl : place) : string :=
  match pl with InStream n => "/s/" ++ n | OfType t => "/a/" ++ t end.
(** ui.go:180, 219: the read behind a page. *)
Definition place_read (pl : place) (from : N) : op :=
  match pl with InStream n => OpByStream from n | OfType t => OpByTypes from [t] end.
(** ui.go:187, 227: the number that leads to a record. *)
Definition place_index (pl : place) (r : record) : N :=
  match pl with InStream _ => r_ssn r | OfType _ => r_gsn r end.

(** A page, a bare status, or no answer (the handler panicked or hangs).  The link
    texts are "" where the page has no such link. *)
Record page := mk_page { p_records : list record; p_previous : string; p_next : string }.
Inductive ui_answer := Page (p : page) | Status (n : N) | NoPage.

Section Ui.
Variable St : Type.
Variable store : St -> op -> St * out.

(** ui.go:171-203 [aggregateType] and 211-252 [stream]: read one record more than the
    page shows; the extra one gives the next link.  (The total of an aggregate type
    comes from the statistics, which cannot fail; html/template is not modelled.) *)
Definition show_page (s : St) (pl : place) (pg : pagination) : St * ui_answer :=
  let '(s1, x) := store s (place_read pl (pg_current pg)) in
  match x with
  | OutResults l =>
      match read_n_records (pg_items pg + 1) (new_iter l) with
      | None => (s1, NoPage)
      | Some (rs, _) =>
          let more := pg_items pg <? N.of_nat (length rs) in
          let shown := if more then removelast rs else rs in
          let next := if more then match rev rs with r :: _ => place_index pl r | [] => pg_current pg end
                      else pg_current pg in
          let answer := match links (base_uri pl) pg next with
                        | Some (a, b) => Page (mk_page shown a b)
                        | None => NoPage
                        end in
          match pl with
          | OfType _ => (s1, answer)
          | InStream n =>
              let '(s2, y) := store s1 (OpTotal n None) in
              (s2, match y with OutTotal _ => answer | OutFailed _ => Status 500 | _ => NoPage end)
          end
      end
  | _ => (s1, NoPage)
  end.

Definition letter (a : ascii) : bool := type_char a && negb (Ascii.eqb a ",").

(** ui.go:91-98, the two paged routes; anything else (other pages, redirects, not
    found) is [None]. *)
Definition ui_route (p : string) : option place :=
  if negb (String.eqb (clean_path p) p) then None
  else match split_str "/" p with
       | [_; a; b] =>
           if String.eqb b "" then None
           else if String.eqb a "s" then Some (InStream b)
           else if String.eqb a "a" && all_chars letter b then Some (OfType b)
           else None
       | _ => None
       end.

(** One request for [target], the path and query of the request line. *)
Definition target_of (target : string) : option (place * pagination) :=
  let '(p, q) := cut_byte "?" target in
  match unescape false p with
  | Some path => match ui_route path with
                 | Some pl => Some (pl, from_query (match q with Some q => q | None => "" end))
                 | None => None
                 end
  | None => None
  end.
Definition ui_step (s : St) (target : string) : St * ui_answer :=
  match target_of target with
  | Some (pl, pg) => show_page s pl pg
  | None => (s, Status 404)
  end.
End Ui.

(** What a browser asks for when a link is followed: the link without its fragment. *)
Definition followed (link : string) : string := fst (cut_byte "#" link).
