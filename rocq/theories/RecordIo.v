(** Record streams in JSON: provider/jsonrecordiostream/json_record_io_stream.go,
    provider/ndjsonrecordiostream/ndjson_record_io_stream.go and
    provider/jsonrecordserializer/json_record_serializer.go. *)
From Coq Require Import ZArith.
From Verif Require Import Base DecText Text Json JsonText.
Open Scope string_scope.
Open Scope N_scope.

(** * Go structs *)

(** A field of a Go struct: its current value, whose constructor is its type.
    [TRaw]: an interface{} holding a pointer to a json.RawMessage, with the raw text
    (as its tree) and whether the interface still holds the pointer. *)
Inductive field :=
| TText (s : string)
| TInt (z : Z)              (* int, int64 *)
| TUint (n : N)             (* uint64 *)
| TBool (b : bool)
| TAny (v : goval)          (* interface{} *)
| TRaw (raw : option json) (held : bool).

(** encoding/json decoding into an interface{} with UseNumber. *)
Definition exact (j : json) : goval := decode (fun _ => FInt 0) true j.

(** encoding/json decoding one value into a field; [None]: UnmarshalTypeError.
    A null leaves everything but an interface as it was. *)
Definition set_field (f : field) (j : json) : option field :=
  match f, j with
  | TAny _, _ => Some (TAny (exact j))
  | TRaw raw true, JNull => Some (TRaw raw false)
  | TRaw _ true, _ => Some (TRaw (Some j) true)
  | TRaw raw false, _ => Some (TRaw raw false)
  | _, JNull => Some f
  | TText _, JStr s => Some (TText s)
  | TInt _, JNum (Int z) => if (- 2 ^ 63 <=? z)%Z && (z <? 2 ^ 63)%Z then Some (TInt z) else None
  | TInt _, JNum (Lit "-0") => Some (TInt 0)
  | TUint _, JNum (Int z) => if (0 <=? z)%Z && (z <? 2 ^ 64)%Z then Some (TUint (Z.to_N z)) else None
  | TBool _, JBool b => Some (TBool b)
  | _, _ => None
  end.

(** encoding/json fold.go, ASCII letters only (simplification: the two letters
    outside ASCII that fold to k and s are left out). *)
Definition fold_byte (a : ascii) : ascii :=
  let n := N_of_ascii a in if between 65 90 n then ascii_of_N (n + 32) else a.
Fixpoint fold_name (s : string) : string :=
  match s with EmptyString => "" | String a r => String (fold_byte a) (fold_name r) end.

(** decode.go [decodeState.object]: the field a member name means: one of exactly
    that name, else the first of that name up to case. *)
Definition field_named (k : string) (l : list (string * field)) : option string :=
  match find (fun p => String.eqb (fst p) k) l with
  | Some p => Some (fst p)
  | None => match find (fun p => String.eqb (fold_name (fst p)) (fold_name k)) l with
            | Some p => Some (fst p)
            | None => None
            end
  end.
Fixpoint assign (name : string) (j : json) (l : list (string * field)) : option (list (string * field)) :=
  match l with
  | [] => Some []
  | (k, f) :: rest =>
      if String.eqb k name then match set_field f j with Some f' => Some ((k, f') :: rest)%list | None => None end
      else match assign name j rest with Some rest' => Some ((k, f) :: rest')%list | None => None end
  end.

(** decode.go [decodeState.object] into a struct; unknown members are passed over. *)
Fixpoint decode_struct (l : list (string * field)) (ms : list (string * json)) : option (list (string * field)) :=
  match ms with
  | [] => Some l
  | (k, j) :: rest =>
      match field_named k l with
      | None => decode_struct l rest
      | Some name => match assign name j l with Some l' => decode_struct l' rest | None => None end
      end
  end.

(** * Records *)

(** The data of a record: a struct the reader may know, or any other value.
    Simplification: struct fields are of the types above. *)
Inductive payload := Value (v : goval) | Struct (l : list (string * field)).

(** store.go:14-25 [Record].  Simplification: the metadata is not a struct. *)
Record entry := mk_entry {
  e_stream : string; e_atype : string; e_aid : string;
  e_gsn : N; e_ssn : N; e_ts : N;
  e_eid : string; e_etype : string;
  e_data : payload; e_meta : goval
}.

(** What a channel of a RecordIterator carries (store.go:81-85 [ResultRecord]). *)
Inductive item := Rec (e : entry) | Bad (x : err).

Section Codec.
Variable show : float -> num.

Definition field_tree (f : field) : json :=
  match f with
  | TText s => JStr s
  | TInt z => JNum (Int z)
  | TUint n => JNum (Int (Z.of_N n))
  | TBool b => JBool b
  | TAny v => encode show v
  | TRaw _ _ => JNull
  end.
Definition payload_tree (p : payload) : json :=
  match p with
  | Value v => encode show v
  | Struct l => JObj (map (fun p => (fst p, field_tree (snd p))) l)
  end.

(** store.go:14-25, the JSON names of the fields. *)
Definition record_tree (e : entry) : json :=
  JObj [("streamName", JStr (e_stream e)); ("aggregateType", JStr (e_atype e)); ("aggregateID", JStr (e_aid e));
        ("globalSequenceNumber", JNum (Int (Z.of_N (e_gsn e)))); ("streamSequenceNumber", JNum (Int (Z.of_N (e_ssn e))));
        ("insertTimestamp", JNum (Int (Z.of_N (e_ts e)))); ("eventID", JStr (e_eid e)); ("eventType", JStr (e_etype e));
        ("data", payload_tree (e_data e)); ("metadata", encode show (e_meta e))].

(** json.Marshal fails on number literals that are none (among them the texts of
    infinite floats and of NaN). *)
Fixpoint numbers_ok (j : json) : bool :=
  match j with
  | JNum n => number_ok n
  | JArr l => forallb numbers_ok l
  | JObj l => forallb (fun p => numbers_ok (snd p)) l
  | _ => true
  end.

(** json_record_serializer.go:28-35 [Serialize]; json.Marshal of a record. *)
Definition marshal (e : entry) : option string :=
  if numbers_ok (record_tree e) then Some (print (record_tree e)) else None.

(** json_record_io_stream.go:24-57 [Write]: the bytes written and the error sent.
    The iterator's Next is false for an error as it is at the end
    (record_iterator.go:17-25), so the check of Err inside the loop (34-37) is never
    reached with an error.  The writer itself does not fail. *)
Fixpoint json_loop (total : N) (l : list item) : string * option err :=
  match l with
  | Rec e :: rest =>
      match marshal e with
      | None => ("", Some ESerialize)
      | Some t =>
          let (w, x) := json_loop (total + 1) rest in
          ((if 0 <? total then "," else "") ++ t ++ w, x)
      end
  | _ => ("]", None)
  end.
Definition json_write (l : list item) : string * option err :=
  let (w, x) := json_loop 0 l in ("[" ++ w, x).

Definition newline : string := String "010" "".

(** ndjson_record_io_stream.go:24-54 [Write]. *)
Fixpoint ndjson_loop (total : N) (l : list item) : string * option err :=
  match l with
  | Rec e :: rest =>
      let sep := if 0 <? total then newline else "" in
      match marshal e with
      | None => (sep, Some ESerialize)
      | Some t => let (w, x) := ndjson_loop (total + 1) rest in (sep ++ t ++ w, x)
      end
  | _ => ("", None)
  end.
Definition ndjson_write (l : list item) : string * option err := ndjson_loop 0 l.
End Codec.

Section Reader.
(** The event types bound to the reader, with the struct each one's decoding
    starts from (event_identifier.go). *)
Variable types : string -> option (list (string * field)).

(** json_record_serializer.go:74-93 [DecodeJsonData], from the raw text of the data;
    [None] is an error, EOF if there is no text. *)
Definition decode_data (etype : string) (raw : option json) : option payload :=
  match raw with
  | None => None
  | Some j =>
      match types etype with
      | None => Some (Value (exact j))
      | Some zero =>
          match j with
          | JObj ms => match decode_struct zero ms with Some l => Some (Struct l) | None => None end
          | _ => None
          end
      end
  end.

(** json_record_serializer.go:54-57: the record decoding starts from. *)
Definition empty_record : list (string * field) :=
  [("streamName", TText ""); ("aggregateType", TText ""); ("aggregateID", TText "");
   ("globalSequenceNumber", TUint 0); ("streamSequenceNumber", TUint 0); ("insertTimestamp", TUint 0);
   ("eventID", TText ""); ("eventType", TText ""); ("data", TRaw None true); ("metadata", TAny GNil)].

(** json_record_serializer.go:48-72 [UnmarshalRecord] on a text that is JSON; a null
    decodes to nothing, and the missing data then fails. *)
Definition unmarshal (j : json) : option entry :=
  match j with
  | JObj ms =>
      match decode_struct empty_record ms with
      | Some [(_, TText stream); (_, TText atype); (_, TText aid); (_, TUint gsn); (_, TUint ssn); (_, TUint ts);
              (_, TText eid); (_, TText etype); (_, TRaw raw _); (_, TAny meta)] =>
          match decode_data etype raw with
          | Some d => Some (mk_entry stream atype aid gsn ssn ts eid etype d meta)
          | None => None
          end
      | _ => None
      end
  | _ => None
  end.

(** The loop of json_record_io_stream.go:79-95 and
    ndjson_record_io_stream.go:65-81 [Read], with json.Decoder's More and Decode: in
    an array ([array]) every value but the first ([started]) must follow a comma.
    [fuel]: one more than the length of the text is enough. *)
Fixpoint records_from (fuel : nat) (array started : bool) (s : string) : list item :=
  match fuel with
  | O => []
  | S f =>
      match skip s with
      | EmptyString => []
      | String c r =>
          if Ascii.eqb c "]" || Ascii.eqb c "}" then []
          else
            match (if array && started then (if Ascii.eqb c "," then Some r else None) else Some s) with
            | None => [Bad EDeserialize]
            | Some s1 =>
                match read_value s1 with
                | None => [Bad EDeserialize]
                | Some (j, s2) =>
                    match unmarshal j with
                    | None => [Bad EDeserialize]
                    | Some e => (Rec e :: records_from f array true s2)%list
                    end
                end
            end
      end
  end.

(** json_record_io_stream.go:59-99 [Read]: whatever the first token is, records are
    read behind it. *)
Definition json_read (s : string) : list item :=
  match skip s with
  | EmptyString => []
  | String c r =>
      if Ascii.eqb c "[" then records_from (S (String.length r)) true false r
      else if Ascii.eqb c "{" then
        match skip r with
        | EmptyString => []
        | String c2 _ => if Ascii.eqb c2 "]" || Ascii.eqb c2 "}" then [] else [Bad EDeserialize]
        end
      else match read_value s with
           | Some (_, r') => records_from (S (String.length r')) false false r'
           | None => [Bad EDeserialize]
           end
  end.

(** ndjson_record_io_stream.go:56-84 [Read]. *)
Definition ndjson_read (s : string) : list item := records_from (S (String.length s)) false false s.
End Reader.
