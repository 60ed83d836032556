(** Shared vocabulary of the model: records, events, errors, results. *)
From Coq Require Export NArith String Ascii Bool Lia List.
Export ListNotations.
Open Scope string_scope.
Open Scope N_scope.
Open Scope list_scope.

(** store.go:14-25 [Record].  [Data] and [Metadata] are opaque payloads: a Go
    value is represented by a byte string (simplification: the payload's inner
    structure only matters to the serializer, which is a parameter). *)
Record record := mk_record {
  r_stream : string;   (* StreamName *)
  r_atype  : string;   (* AggregateType *)
  r_aid    : string;   (* AggregateID *)
  r_gsn    : N;        (* GlobalSequenceNumber *)
  r_ssn    : N;        (* StreamSequenceNumber *)
  r_ts     : N;        (* InsertTimestamp *)
  r_eid    : string;   (* EventID *)
  r_etype  : string;   (* EventType *)
  r_data   : string;   (* Data *)
  r_meta   : string    (* Metadata *)
}.

(** store.go:27-31 [EventRecord] with the [Event] interface of store.go:95-105
    flattened.  [ev_uuid] and [ev_now] are the values that
    [uuidGenerator.New()] and [clock.Now().Unix()] return while this event is
    being saved (inmemory_store.go:265,326; leveldb_store.go:242,304): they are
    inputs, so a theorem about all events is a theorem about all clocks and all
    generators. *)
Record event := mk_event {
  ev_atype : string;
  ev_aid   : string;
  ev_type  : string;
  ev_data  : string;
  ev_meta  : string;
  ev_uuid  : string;
  ev_now   : N
}.

(** The error values the modelled code returns. *)
Inductive err :=
| EMissingEvents                      (* "missing events" *)
| EUnmatchedType                      (* "unmatched aggregate type" *)
| EUnmatchedID                        (* "unmatched aggregate ID" *)
| ECanceled                           (* context.Canceled *)
| EUnexpectedSeq (expected actual : N)(* rangedberror.UnexpectedSequenceNumber *)
| ESerialize                          (* error of RecordSerializer.Serialize *)
| EDeserialize                        (* error of RecordSerializer.Deserialize *)
| EStreamNotFound                     (* rangedb.ErrStreamNotFound, store.go:197 *)
| ERecordMissing                      (* "record missing", inmemory_store.go:145 *)
| ELookup                             (* leveldb.ErrNotFound from db.Get *)
| EDatabase.                          (* an error of a database server or its driver *)

(** store.go:81-85 [ResultRecord]: the code only ever publishes a record with
    a nil error or an error with a nil record. *)
Inductive result :=
| RRec (r : record)
| RErr (e : err).

(** record_serializer.go [RecordSerializer]: a pair of partial functions. *)
Record codec := mk_codec {
  ser   : record -> option string;
  deser : string -> option record
}.

(** The law every serializer is assumed to satisfy (trusted base, see DESIGN.md):
    whatever it managed to encode decodes to the same record. *)
Definition codec_ok (c : codec) : Prop :=
  forall r b, ser c r = Some b -> deser c b = Some r.

(** A serializer that encodes everything. *)
Definition codec_total (c : codec) : Prop := forall r, ser c r <> None.

(** context.Context, as far as the code looks at it: the k-th time (from 0) the
    call asks [ctx.Done()] it is told "done" iff [done_at cn k]. *)
Definition done_at (cn : option nat) (k : nat) : bool :=
  match cn with
  | None => false
  | Some n => Nat.leb n k
  end.

(** Operations a client issues on a Store (store.go:39-67). *)
Inductive op :=
| OpSave (expected : option N) (stream : string) (evs : list event) (cn : option nat)
| OpDelete (expected : N) (stream : string) (cn : option nat)
| OpEvents (g : N)
| OpByTypes (g : N) (types : list string)
| OpByStream (k : N) (stream : string)
| OpTotal (stream : string) (cn : option nat).

(** What a call lets its caller (and the store's subscribers) observe.
    [OutSaved n bc]: returned [n] with a nil error, and handed [bc] in this order
    to the broadcaster. *)
Inductive out :=
| OutSaved (n : N) (bc : list record)
| OutFailed (e : err)
| OutDeleted
| OutResults (l : list result)
| OutTotal (n : N)
| OutPanic
| OutBlocked.

(** Run a history, collecting the outputs. *)
Fixpoint run {S : Type} (step : S -> op -> S * out) (s : S) (ops : list op) : S * list out :=
  match ops with
  | [] => (s, [])
  | o :: rest =>
      let '(s1, x) := step s o in
      let '(s2, xs) := run step s1 rest in
      (s2, x :: xs)
  end.

Definition memb (x : string) (l : list string) : bool := existsb (String.eqb x) l.
