(** Model of pkg/rangedberror/errors.go, pkg/grpc/rangedbserver/server.go and
    provider/remotestore/remote_store.go: a store used by a client through gRPC. *)
From Verif Require Import Base Core DecText Text.
Open Scope string_scope.
Open Scope N_scope.

(** * Sequence-number errors as text *)

(** errors.go:33-38 [Error]. *)
Definition unexpected_text (e a : N) : string :=
  "unexpected sequence number: " ++ dec e ++ ", actual: " ++ dec a.

(** White space that fmt's scanner skips inside a line (fmt/scan.go SkipSpace);
    a newline stops the scan with an error, which here is any other byte.
    Simplification: only ASCII white space. *)
Definition blank (a : ascii) : bool :=
  let n := N_of_ascii a in (n =? 9) || ((11 <=? n) && (n <=? 13)) || (n =? 32).
Fixpoint skip_blank (s : string) : string :=
  match s with
  | String a rest => if blank a then skip_blank rest else s
  | EmptyString => EmptyString
  end.

(** The verb %d into a *uint64: optional blanks, at least one digit, no overflow. *)
Definition scan_uint (s : string) : option (N * string) :=
  match skip_blank s with
  | EmptyString => None
  | String c rest =>
      match digit c with
      | None => None
      | Some _ => let '(v, r) := digits 0 (String c rest) in if v <? two64 then Some (v, r) else None
      end
  end.

(** Literal text of the format. *)
Fixpoint scan_text (p s : string) : option string :=
  match p, s with
  | EmptyString, _ => Some s
  | String a p', String b s' => if Ascii.eqb a b then scan_text p' s' else None
  | String _ _, EmptyString => None
  end.

(** A space of the format: at least one blank, or the end of the input. *)
Definition scan_space (s : string) : option string :=
  match s with
  | EmptyString => Some EmptyString
  | String a _ => if blank a then Some (skip_blank s) else None
  end.

(** fmt.Sscanf(s, "%d, actual: %d", ...); what follows the second number is ignored. *)
Definition scan_numbers (s : string) : option (N * N) :=
  match scan_uint s with
  | None => None
  | Some (e, s1) =>
      match scan_text "," s1 with
      | None => None
      | Some s2 =>
          match scan_space s2 with
          | None => None
          | Some s3 =>
              match scan_text "actual:" s3 with
              | None => None
              | Some s4 =>
                  match scan_space s4 with
                  | None => None
                  | Some s5 => match scan_uint s5 with
                               | Some (a, _) => Some (e, a)
                               | None => None
                               end
                  end
              end
          end
      end
  end.

(** errors.go:15-31 [NewUnexpectedSequenceNumberFromString]. *)
Definition unexpected_from (input : string) : N * N :=
  match split_str "unexpected sequence number:" input with
  | _ :: piece :: _ => match scan_numbers piece with Some p => p | None => (0, 0) end
  | _ => (0, 0)
  end.

(** * Errors on the wire *)

Section Wire.

(** The text of those errors whose text the modelled code does not fix. *)
Variable detail : err -> string.

(** What Error() gives for each error value. *)
Definition err_text (e : err) : string :=
  match e with
  | EMissingEvents => "missing events"
  | EUnmatchedType => "unmatched aggregate type"
  | EUnmatchedID => "unmatched aggregate ID"
  | ECanceled => "context canceled"
  | EUnexpectedSeq x a => unexpected_text x a
  | EStreamNotFound => "stream not found"
  | ERecordMissing => "record missing"
  | ELookup => "leveldb: not found"
  | ESerialize | EDeserialize | EDatabase => detail e
  end.

(** status.Error: the text of an error that came from a gRPC server.  (The
    percent-encoding of the message in the trailer is undone by the transport.) *)
Definition rpc_text (code msg : string) : string := "rpc error: code = " ++ code ++ " desc = " ++ msg.

(** grpc-go 1.35, server.go: a handler's error that carries no status gets the code Unknown. *)
Definition plain_status (e : err) : string := rpc_text "Unknown" (err_text e).

(** server.go:201-208, 255-262. *)
Definition save_status (e : err) : string := rpc_text "Internal" ("unable to save to store: " ++ err_text e).

(** What the caller of the remote store gets: an error value it can compare with,
    or only a text. *)
Inductive cerr := CErr (e : err) | CText (t : string).

(** remote_store.go:24-26 *)
Definition canceled_text : string := "Canceled desc = context canceled".
Definition conflict_text : string := "unexpected sequence number".
Definition notfound_text : string := "Unknown desc = stream not found".

Definition conflict (t : string) : cerr := let '(e, a) := unexpected_from t in CErr (EUnexpectedSeq e a).

(** remote_store.go:126-141 [OptimisticDeleteStream]. *)
Definition delete_error (t : string) : cerr :=
  if contains canceled_text t then CErr ECanceled
  else if contains notfound_text t then CErr EStreamNotFound
  else if contains conflict_text t then conflict t
  else CText t.

(** remote_store.go:193-204 [OptimisticSave]. *)
Definition optimistic_error (t : string) : cerr :=
  if contains canceled_text t then CErr ECanceled
  else if contains conflict_text t then conflict t
  else CText t.

(** remote_store.go:255-262 [Save], 293-300 [TotalEventsInStream]. *)
Definition call_error (t : string) : cerr :=
  if contains canceled_text t then CErr ECanceled else CText t.

(** remote_store.go:312-331 [readRecords]: the error of Recv. *)
Definition read_error (t : string) : cerr :=
  if contains canceled_text t then CErr ECanceled
  else if contains notfound_text t then CErr EStreamNotFound
  else CText t.

(** * Reading *)

(** [wire r]: translate.go:13-36 [ToPbRecord] on the server; [unwire p]: translate.go:39-69
    [ToRecord] in the client; [inl] is the text of the error. *)
Variable wire : record -> string + record.
Variable unwire : record -> string + record.

(** server.go: the loop of the three read handlers sends a record each round and
    returns the first translation error.  Sending itself does not fail here. *)
Fixpoint send_all (rs : list record) : list record * option string :=
  match rs with
  | [] => ([], None)
  | r :: rest =>
      match wire r with
      | inl t => ([], Some (rpc_text "Unknown" t))
      | inr p => let '(ps, f) := send_all rest in (p :: ps, f)
      end
  end.

(** server.go:82-101 [Events], 103-127 [EventsByStream], 129-148 [EventsByAggregateType]:
    [l] is what the store's iterator delivers.  Next() returns false on an error, so
    the loop body never sees one; only EventsByStream ([checks]) asks Err() afterwards.
    The answer: the messages sent, and the status text if the call did not end well. *)
Definition serve_read (checks : bool) (l : list result) : list record * option string :=
  match consume (S (length l)) (new_iter l) with
  | None => ([], Some "")                                    (* never: see consume *)
  | Some (rs, it) =>
      match send_all rs with
      | (ps, Some t) => (ps, Some t)
      | (ps, None) =>
          (ps, if checks then match it_err it with Some e => Some (plain_status e) | None => None end else None)
      end
  end.

(** remote_store.go:305-347 [readRecords]: what the client's iterator delivers. *)
Fixpoint receive (ps : list record) (fin : option string) : list (record + cerr) :=
  match ps with
  | [] => match fin with Some t => [inr (read_error t)] | None => [] end
  | p :: rest =>
      match unwire p with
      | inl t => [inr (CText t)]
      | inr r => inl r :: receive rest fin
      end
  end.

Definition client_read (checks : bool) (l : list result) : list (record + cerr) :=
  let '(ps, fin) := serve_read checks l in receive ps fin.

(** remote_store.go:349-371 [listenForEvents]: the records handed to the remote
    store's broadcaster, when [ps] arrive on the live stream.  Next() returns false
    on an error, which ends the loop and the goroutine. *)
Fixpoint relayed_live (l : list (record + cerr)) : list record :=
  match l with
  | inl r :: rest => r :: relayed_live rest
  | _ => []
  end.
Definition live_feed (ps : list record) : list record := relayed_live (receive ps None).

(** * The remote store in front of a store *)

Variable St : Type.
Variable store : St -> op -> St * out.

(** [marshal e]: remote_store.go:168-176, the event as the client puts it into the
    request (JSON texts); [unmarshal e]: server.go:165-193, the event the server
    makes of it. [inl] is the text of an error. *)
Variable marshal : event -> string + event.
Variable unmarshal : event -> string + event.

(** remote_store.go:154-185 and 217-248: the loop over the events to be saved.
    [t],[i]: the running aggregateType and aggregateID. *)
Fixpoint pack (t i : string) (evs : list event) : cerr + list event :=
  match evs with
  | [] => inr []
  | e :: rest =>
      if negb (String.eqb t "") && negb (String.eqb t (ev_atype e)) then inl (CErr EUnmatchedType)
      else if negb (String.eqb i "") && negb (String.eqb i (ev_aid e)) then inl (CErr EUnmatchedID)
      else match marshal e with
           | inl x => inl (CText x)
           | inr p => match pack (ev_atype e) (ev_aid e) rest with
                      | inl x => inl x
                      | inr ps => inr (p :: ps)
                      end
           end
  end.

(** server.go:164-193, 219-248: the loop that decodes the request. *)
Fixpoint unpack (evs : list event) : string + list event :=
  match evs with
  | [] => inr []
  | e :: rest =>
      match unmarshal e with
      | inl x => inl (rpc_text "InvalidArgument" x)
      | inr v => match unpack rest with inl x => inl x | inr vs => inr (v :: vs) end
      end
  end.

(** What the caller of the remote store sees.  [CLost]: the server died or never
    answers. *)
Inductive cout :=
| CSaved (n : N)
| CFailed (e : cerr)
| CDeleted
| CResults (l : list (record + cerr))
| CTotal (n : N)
| CLost.

(** remote_store.go:67-303, server.go:82-341: one call.  A context that is done before the call fails in the
    client without a request; simplification: a context done later is passed on to
    the server's store, whose answer the client still receives. *)
Definition remote_step (s : St) (o : op) : St * cout :=
  match o with
  | OpSave ex st evs cn =>
      match evs with
      | [] => (s, CFailed (CErr EMissingEvents))
      | _ =>
          match pack "" "" evs with
          | inl x => (s, CFailed x)
          | inr ps =>
              if done_at cn 0 then (s, CFailed (CErr ECanceled))
              else match unpack ps with
                   | inl t => (s, CFailed (match ex with Some _ => optimistic_error t | None => call_error t end))
                   | inr vs =>
                       let '(s', x) := store s (OpSave ex st vs cn) in
                       (s', match x with
                            | OutSaved n _ => CSaved n
                            | OutFailed e => CFailed (match ex with
                                                      | Some _ => optimistic_error (save_status e)
                                                      | None => call_error (save_status e) end)
                            | _ => CLost
                            end)
                   end
          end
      end
  | OpDelete ex st cn =>
      if done_at cn 0 then (s, CFailed (CErr ECanceled))
      else let '(s', x) := store s (OpDelete ex st cn) in
           (s', match x with
                | OutDeleted => CDeleted
                | OutFailed e => CFailed (delete_error (plain_status e))
                | _ => CLost
                end)
  | OpEvents g =>
      let '(s', x) := store s (OpEvents g) in
      (s', match x with OutResults l => CResults (client_read false l) | _ => CLost end)
  | OpByTypes g ts =>
      let '(s', x) := store s (OpByTypes g ts) in
      (s', match x with OutResults l => CResults (client_read false l) | _ => CLost end)
  | OpByStream k st =>
      let '(s', x) := store s (OpByStream k st) in
      (s', match x with OutResults l => CResults (client_read true l) | _ => CLost end)
  | OpTotal st cn =>
      if done_at cn 0 then (s, CFailed (CErr ECanceled))
      else let '(s', x) := store s (OpTotal st cn) in
           (s', match x with
                | OutTotal n => CTotal n
                | OutFailed e => CFailed (call_error (plain_status e))
                | _ => CLost
                end)
  end.

End Wire.
