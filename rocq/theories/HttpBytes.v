(** The HTTP interface with the bytes of its bodies: pkg/rangedbapi/api.go in front of a
    store that keeps its records with provider/jsonrecordserializer, and answers through
    provider/jsonrecordiostream and provider/ndjsonrecordiostream.  Puts Http.v, JsonText.v
    and RecordIo.v together. *)
From Coq Require Import ZArith.
From Verif Require Import Base Core DecText Text Json JsonText RecordIo Http.
Open Scope string_scope.
Open Scope N_scope.

Section Bytes.
Variable of_lit : string -> float.
Variable show : float -> num.
(** provider/msgpackrecordiostream behind a base64 writer (api.go:330-335), modelled in
    Msgpack.v and Base64.v; here any function. *)
Variable packed : list entry -> string.

(** The data and the metadata of a record as a text, as Http.v and the stores have them:
    the text encoding/json gives it.  Simplification: Go values with the same text are
    not told apart; nothing that leaves the server tells them apart either. *)
Definition text_of_value (v : goval) : string := JsonText.print (encode show v).

(** A server that knows no event types: data read from a store is any value. *)
Definition no_types (etype : string) : option (list (string * field)) := None.

(** A record with its data and metadata as Go values. *)
Definition entry_of (r : record) : option entry :=
  match read_value (r_data r), read_value (r_meta r) with
  | Some (d, _), Some (m, _) =>
      Some (mk_entry (r_stream r) (r_atype r) (r_aid r) (r_gsn r) (r_ssn r) (r_ts r) (r_eid r) (r_etype r) (Value (exact d)) (exact m))
  | _, _ => None
  end.
Definition record_of (e : entry) : record :=
  mk_record (e_stream e) (e_atype e) (e_aid e) (e_gsn e) (e_ssn e) (e_ts e) (e_eid e) (e_etype e)
    (JsonText.print (payload_tree show (e_data e))) (text_of_value (e_meta e)).

(** json_record_serializer.go:28-42 [Serialize], [Deserialize]: the bytes in the store. *)
Definition json_serializer : codec :=
  mk_codec
    (fun r => match entry_of r with Some e => marshal show e | None => None end)
    (fun b => match read_value b with
              | Some (j, _) => match unmarshal no_types j with Some e => Some (record_of e) | None => None end
              | None => None
              end).

(** A request as it arrives, with the bytes of its body. *)
Record wire := mk_wire {
  w_method   : string;
  w_path     : string;
  w_ctype    : string;
  w_expected : string;
  w_body     : string;
  w_stamp    : nat -> string * N;
  w_cancel   : option nat
}.
Definition with_body (q : wire) (b : option json) : request :=
  mk_request (w_method q) (w_path q) (w_ctype q) (w_expected q) b (w_stamp q) (w_cancel q).

(** api.go:268-269: json.NewDecoder(r.Body).Decode takes the first value of the body. *)
Definition request_of (q : wire) : request :=
  with_body q (match read_value (w_body q) with Some (j, _) => Some j | None => None end).

(** The extension in the path. *)
Definition format_of (path : string) : string :=
  match route_of path with
  | Some (ToAll e) | Some (ToStream _ e) | Some (ToTypes _ e) => e
  | _ => ""
  end.

(** api.go:318-338 [writeEvents], the bytes of the body. *)
Fixpoint entries_of (rs : list record) : list entry :=
  match rs with
  | [] => []
  | r :: rest => match entry_of r with Some e => (e :: entries_of rest)%list | None => entries_of rest end
  end.
Definition body_of (format : string) (rs : list record) : string :=
  if String.eqb format "json" then fst (json_write show (map Rec (entries_of rs)))
  else if String.eqb format "ndjson" then fst (ndjson_write show (map Rec (entries_of rs)))
  else packed (entries_of rs).

(** What goes back: a status and the bytes of a body, or nothing at all.  The status of
    a read is 200 (net/http's default). *)
Inductive reply_bytes := Bytes (status : N) (body : string) | Silence.

Variable St : Type.
Variable store : St -> op -> St * out.
Definition bytes_step (s : St) (q : wire) : St * reply_bytes :=
  let '(s', a) := http_step of_lit text_of_value St store s (request_of q) in
  (s', match a with
       | Answer status body => Bytes status body
       | Records rs => Bytes 200 (body_of (format_of (w_path q)) rs)
       | NoAnswer => Silence
       end).
End Bytes.
