(** Model of pkg/rangedbapi/api.go: the HTTP interface in front of a store. *)
From Verif Require Import Base Core DecText Text Json Remote.
Open Scope string_scope.
Open Scope N_scope.

(** * Routing *)

(** mux.go cleanPath (gorilla/mux 1.8) with path.Clean, on the segments between the
    slashes: empty ones and "." go, ".." takes its predecessor away. [acc]: the
    segments kept so far, last one first. *)
Fixpoint clean_segments (acc segs : list string) : list string :=
  match segs with
  | [] => rev acc
  | x :: rest =>
      if String.eqb x "" || String.eqb x "." then clean_segments acc rest
      else if String.eqb x ".." then clean_segments (tl acc) rest
      else clean_segments (x :: acc) rest
  end.
Definition last_empty (segs : list string) : bool := String.eqb (last segs "x") "".
Definition clean_path (p : string) : string :=
  let segs := split_str "/" p in
  let kept := clean_segments [] segs in
  "/" ++ join "/" kept ++ (if last_empty segs && negb (Nat.eqb (length kept) 0) then "/" else "").

(** The position of the last dot: what stands before it, and what after. *)
Fixpoint cut_last_dot (s : string) : option (string * string) :=
  match s with
  | EmptyString => None
  | String a rest =>
      match cut_last_dot rest with
      | Some (x, y) => Some (String a x, y)
      | None => if Ascii.eqb a "." then Some (EmptyString, rest) else None
      end
  end.

(** api.go:97: the extension at the end of a path. *)
Definition extension (s : string) : bool := memb s ["json"; "ndjson"; "msgpack"].

(** api.go:104: the characters allowed in a list of aggregate types. *)
Definition type_char (a : ascii) : bool :=
  let n := N_of_ascii a in
  ((65 <=? n) && (n <=? 90)) || ((97 <=? n) && (n <=? 122)) || (n =? 45) || (n =? 44).
Fixpoint all_chars (f : ascii -> bool) (s : string) : bool :=
  match s with EmptyString => true | String a rest => f a && all_chars f rest end.

Inductive route :=
| ToHealth
| ToDelete (stream : string)
| ToSave (stream : string)
| ToAll (ext : string)
| ToStream (stream ext : string)
| ToTypes (types : list string) (ext : string)
| ToList
| Redirect
| NotFound.

(** A route whose path ended with one more slash is redirected (StrictSlash). *)
Definition slashed (slash : bool) (r : route) : route :=
  match r with NotFound => NotFound | _ => if slash then Redirect else r end.

(** api.go:95-107 [initRoutes] and mux's matching of r.URL.Path. *)
Definition route_segments (segs : list string) : route :=
  match segs with
  | [a] =>
      if String.eqb a "health-check" then ToHealth
      else if String.eqb a "list-aggregate-types" then ToList
      else match cut_last_dot a with
           | Some (x, e) => if String.eqb x "all-events" && extension e then ToAll e else NotFound
           | None => NotFound
           end
  | [a; b] =>
      if String.eqb b "" then NotFound
      else if String.eqb a "delete-stream" then ToDelete b
      else if String.eqb a "save-events" then ToSave b
      else match cut_last_dot b with
           | None => NotFound
           | Some (x, e) =>
               if String.eqb x "" || negb (extension e) then NotFound
               else if String.eqb a "events-by-stream" then ToStream x e
               else if String.eqb a "events-by-aggregate-type" && all_chars type_char x
                    then ToTypes (split_str "," x) e
               else NotFound
           end
  | _ => NotFound
  end.
Definition route_path (p : string) : route :=
  if negb (String.eqb (clean_path p) p) then Redirect
  else match split_str "/" p with
       | _ :: segs =>
           if last_empty segs && Nat.ltb 1 (length segs)
           then slashed true (route_segments (removelast segs))
           else route_segments segs
       | [] => NotFound
       end.

(** net/http: the path of the request line is unescaped (url.Parse); a bad escape is
    answered with 400 by the server itself. *)
Definition route_of (raw : string) : option route :=
  match unescape false raw with Some p => Some (route_path p) | None => None end.

(** * Requests *)

(** [q_body]: the JSON value at the start of the body, [None] if there is none (what
    follows the first value is never looked at).  [q_stamp]: event IDs and clock. *)
Record request := mk_request {
  q_method   : string;
  q_path     : string;
  q_ctype    : string;            (* header Content-Type, "" if absent *)
  q_expected : string;            (* header ExpectedStreamSequenceNumber, "" if absent *)
  q_body     : option json;
  q_stamp    : nat -> string * N;
  q_cancel   : option nat
}.

(** encoding/json matches member names without regard to the case of ASCII letters
    (none of the five names has a letter with a Unicode fold). *)
Definition lower (a : ascii) : ascii :=
  let n := N_of_ascii a in if (65 <=? n) && (n <=? 90) then ascii_of_N (n + 32) else a.
Fixpoint fold_eq (s t : string) : bool :=
  match s, t with
  | EmptyString, EmptyString => true
  | String a s', String b t' => Ascii.eqb (lower a) (lower b) && fold_eq s' t'
  | _, _ => false
  end.

Section Api.
Variable of_lit : string -> float.
Variable print : goval -> string.

(** api.go:261-267: the anonymous struct. *)
Record raw := mk_raw { w_atype : string; w_aid : string; w_etype : string; w_data : goval; w_meta : goval }.
Definition zero_raw : raw := mk_raw "" "" "" GNil GNil.

(** Decoding into a string field: null leaves it alone, anything else is an error. *)
Definition to_text (old : string) (j : json) : option string :=
  match j with JStr s => Some s | JNull => Some old | _ => None end.

Definition set_member (w : raw) (k : string) (v : json) : option raw :=
  if fold_eq k "aggregateType" then
    match to_text (w_atype w) v with Some s => Some (mk_raw s (w_aid w) (w_etype w) (w_data w) (w_meta w)) | None => None end
  else if fold_eq k "aggregateID" then
    match to_text (w_aid w) v with Some s => Some (mk_raw (w_atype w) s (w_etype w) (w_data w) (w_meta w)) | None => None end
  else if fold_eq k "eventType" then
    match to_text (w_etype w) v with Some s => Some (mk_raw (w_atype w) (w_aid w) s (w_data w) (w_meta w)) | None => None end
  else if fold_eq k "data" then Some (mk_raw (w_atype w) (w_aid w) (w_etype w) (decode of_lit false v) (w_meta w))
  else if fold_eq k "metadata" then Some (mk_raw (w_atype w) (w_aid w) (w_etype w) (w_data w) (decode of_lit false v))
  else Some w.                                              (* unknown members are ignored *)

Fixpoint set_members (w : raw) (l : list (string * json)) : option raw :=
  match l with
  | [] => Some w
  | (k, v) :: rest => match set_member w k v with Some w' => set_members w' rest | None => None end
  end.

Definition raw_of (j : json) : option raw :=
  match j with JNull => Some zero_raw | JObj l => set_members zero_raw l | _ => None end.

Fixpoint raws_of (l : list json) : option (list raw) :=
  match l with
  | [] => Some []
  | j :: rest => match raw_of j, raws_of rest with Some w, Some ws => Some (w :: ws) | _, _ => None end
  end.

(** api.go:260-282 [getEventRecords]: decoding into a slice; null gives an empty one. *)
Definition event_of (stamp : string * N) (w : raw) : event :=
  mk_event (w_atype w) (w_aid w) (w_etype w) (print (w_data w)) (print (w_meta w)) (fst stamp) (snd stamp).
Fixpoint stamped (stamp : nat -> string * N) (i : nat) (ws : list raw) : list event :=
  match ws with
  | [] => []
  | w :: rest => event_of (stamp i) w :: stamped stamp (S i) rest
  end.
Definition event_records (q : request) : option (list event) :=
  match q_body q with
  | None => None
  | Some JNull => Some []
  | Some (JArr l) => match raws_of l with Some ws => Some (stamped (q_stamp q) 0 ws) | None => None end
  | Some _ => None
  end.

(** * Handlers *)

(** A status with a body, the records of a read, or no answer at all (the handler
    panicked or hangs).  Simplification: reads are shown as the records written to
    the body; the formats are in RecordIo.v. *)
Inductive answer :=
| Answer (status : N) (body : string)
| Records (rs : list record)
| NoAnswer.

Definition q2 : string := String "034" "".
Definition quoted (s : string) : string := q2 ++ s ++ q2.

(** api.go:255-258 [writeFailedResponse]. *)
Definition failed (status : N) (msg : string) : answer :=
  Answer status ("{" ++ quoted "status" ++ ":" ++ quoted "Failed" ++ "," ++ quoted "message" ++ ":" ++ quoted msg ++ "}").
Definition succeeded (status : N) (field : string) (n : N) : answer :=
  Answer status ("{" ++ quoted "status" ++ ":" ++ quoted "OK" ++ "," ++ quoted field ++ ":" ++ dec n ++ "}").

(** api.go:352-364 and 228-234: the expected-number header; [Some None]: absent. *)
Definition expected_header (q : request) : option (option N) :=
  if String.eqb (q_expected q) "" then Some None
  else match parse_uint (q_expected q) with Some n => Some (Some n) | None => None end.

Variable St : Type.
Variable store : St -> op -> St * out.

(** api.go:210-253 [saveEvents]. *)
Definition save_events (s : St) (name : string) (q : request) : St * answer :=
  if negb (String.eqb (q_ctype q) "application/json") then (s, Answer 400 ("invalid content type" ++ String "010" ""))
  else match event_records q with
       | None => (s, failed 400 "invalid json request body")
       | Some evs =>
           match expected_header q with
           | None => (s, failed 400 "invalid ExpectedStreamSequenceNumber")
           | Some ex =>
               let '(s', x) := store s (OpSave ex name evs (q_cancel q)) in
               (s', match x with
                    | OutSaved n _ => succeeded 201 "streamSequenceNumber" n
                    | OutFailed (EUnexpectedSeq e a) => failed 409 (unexpected_text e a)
                    | OutFailed _ => failed 500 "internal server error"
                    | _ => NoAnswer
                    end)
           end
       end.

(** api.go:176-208 [deleteStream]: without the header the expected number is 0. *)
Definition delete_stream (s : St) (name : string) (q : request) : St * answer :=
  match expected_header q with
  | None => (s, failed 400 "invalid ExpectedStreamSequenceNumber")
  | Some ex =>
      let n := match ex with Some n => n | None => 0 end in
      let '(s', x) := store s (OpDelete n name (q_cancel q)) in
      (s', match x with
           | OutDeleted => succeeded 200 "eventsDeleted" n
           | OutFailed (EUnexpectedSeq e a) => failed 409 (unexpected_text e a)
           | OutFailed EStreamNotFound => failed 404 "stream not found"
           | OutFailed _ => failed 500 "internal server error"
           | _ => NoAnswer
           end)
  end.

(** api.go:151-174, 318-338: the writers loop while Next(), which is false on an
    error; the status is 200 in any case. *)
Definition written (l : list result) : answer :=
  match consume (S (length l)) (new_iter l) with Some (rs, _) => Records rs | None => NoAnswer end.

Definition read_with (s : St) (o : op) : St * answer :=
  let '(s', x) := store s o in (s', match x with OutResults l => written l | _ => NoAnswer end).

(** One request.  The method is never looked at.  The statistics of
    list-aggregate-types are modelled in Stats.v and shown here as an empty body. *)
Definition http_step (s : St) (q : request) : St * answer :=
  match route_of (q_path q) with
  | None => (s, Answer 400 "400 Bad Request")
  | Some r =>
      match r with
      | ToHealth => (s, Answer 200 ("{" ++ quoted "status" ++ ":" ++ quoted "OK" ++ "}"))
      | ToDelete name => delete_stream s name q
      | ToSave name => save_events s name q
      | ToAll _ => read_with s (OpEvents 0)
      | ToStream name _ => read_with s (OpByStream 0 name)
      | ToTypes ts _ => read_with s (OpByTypes 0 ts)
      | ToList => (s, Answer 200 "")
      | Redirect => (s, Answer 301 "")
      | NotFound => (s, Answer 404 ("404 page not found" ++ String "010" ""))
      end
  end.
End Api.
