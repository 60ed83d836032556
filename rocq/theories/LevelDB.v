(** Model of provider/leveldbstore/leveldb_store.go over a model of the goleveldb
    database: an ordered map from byte strings to byte strings with one exclusive
    transaction at a time. *)
From Verif Require Import Base Core.

(** * Bytes *)

(** goleveldb's default comparer: bytes.Compare. *)
Fixpoint blt (a b : string) : bool :=
  match a, b with
  | _, EmptyString => false
  | EmptyString, String _ _ => true
  | String x a', String y b' =>
      if N.ltb (N_of_ascii x) (N_of_ascii y) then true
      else if N.eqb (N_of_ascii x) (N_of_ascii y) then blt a' b'
      else false
  end.

(** strings/bytes HasPrefix; goleveldb util.BytesPrefix(p) is the key range
    [p, successor of p), that is the keys with prefix p (all prefixes here contain
    a byte below 0xff). *)
Fixpoint has_prefix (p s : string) : bool :=
  match p, s with
  | EmptyString, _ => true
  | String _ _, EmptyString => false
  | String a p', String b s' => Ascii.eqb a b && has_prefix p' s'
  end.

(** encoding/binary BigEndian, [k] bytes. *)
Fixpoint be (k : nat) (n : N) : string :=
  match k with
  | O => EmptyString
  | S k' => String (ascii_of_N (n / 256 ^ N.of_nat k')) (be k' (n mod 256 ^ N.of_nat k'))
  end.

(** leveldb_store.go:481-485 [uint64ToBytes]. *)
Definition uint64_to_bytes (n : N) : string := be 8 n.

(** leveldb_store.go:487-491 [bytesToUint64]: binary.Read takes the first 8 bytes;
    with fewer it fails, the error is ignored and the number stays 0. *)
Fixpoint be_value (k : nat) (s : string) : option N :=
  match k, s with
  | O, _ => Some 0
  | S k', String a s' =>
      match be_value k' s' with
      | Some v => Some (N_of_ascii a * 256 ^ N.of_nat k' + v)
      | None => None
      end
  | S _, EmptyString => None
  end.
Definition bytes_to_uint64 (s : string) : N :=
  match be_value 8 s with Some n => n | None => 0 end.

(** * Keys *)

(** leveldb_store.go:28-35, 469-479. *)
Definition all_prefix : string := "$all$".
Definition gsn_key : string := "$gsn$".
Definition stream_prefix (s : string) : string := ("$s$" ++ s ++ "$!")%string.
Definition type_prefix (t : string) : string := ("$at$" ++ t ++ "$!")%string.
Definition key_with_number (p : string) (n : N) : string := (p ++ uint64_to_bytes n)%string.

(** * The database *)

(** Content, in key order, one entry per key. *)
Definition db := list (string * string).

Fixpoint db_get (k : string) (d : db) : option string :=
  match d with
  | [] => None
  | (k', v) :: rest => if String.eqb k k' then Some v else db_get k rest
  end.
Fixpoint db_put (k v : string) (d : db) : db :=
  match d with
  | [] => [(k, v)]
  | (k', v') :: rest =>
      if String.eqb k k' then (k, v) :: rest
      else if blt k k' then (k, v) :: (k', v') :: rest
      else (k', v') :: db_put k v rest
  end.
Fixpoint db_del (k : string) (d : db) : db :=
  match d with
  | [] => []
  | (k', v') :: rest => if String.eqb k k' then rest else (k', v') :: db_del k rest
  end.

(** leveldb.Batch. *)
Inductive bop := BPut (k v : string) | BDel (k : string).
Definition apply_bop (d : db) (b : bop) : db :=
  match b with BPut k v => db_put k v d | BDel k => db_del k d end.
Definition apply_batch (d : db) (bs : list bop) : db := fold_left apply_bop bs d.

(** db.NewIterator(util.BytesPrefix(p)), from first to last. *)
Definition scan (p : string) (d : db) : db := filter (fun kv => has_prefix p (fst kv)) d.

(** iter.Seek(k) followed by iter.Prev() if something was found, then iter.Next()
    repeatedly: everything from the first key >= k; after an unsuccessful Seek the
    iterator is at its end and Next is false. *)
Fixpoint seek (k : string) (d : db) : db :=
  match d with
  | [] => []
  | (k', v) :: rest => if blt k' k then seek k rest else d
  end.

(** Database operations a call issues, in order.  A transaction works on its own
    copy; only Commit changes what is durable. *)
Inductive micro := MOpen | MWrite (bs : list bop) | MCommit | MDiscard.

(** The database handle: durable content and, while a transaction is open, the
    content the transaction sees. *)
Record dbh := mk_dbh { h_db : db; h_tx : option db }.
Definition exec_micro (h : dbh) (m : micro) : dbh :=
  match m, h_tx h with
  | MOpen, None => mk_dbh (h_db h) (Some (h_db h))
  | MOpen, Some _ => h                       (* OpenTransaction would block; see [ldb_step] *)
  | MWrite bs, Some t => mk_dbh (h_db h) (Some (apply_batch t bs))
  | MCommit, Some t => mk_dbh t None
  | MDiscard, Some _ => mk_dbh (h_db h) None
  | _, None => h
  end.
Definition exec_micros (h : dbh) (ms : list micro) : dbh := fold_left exec_micro ms h.

(** leveldb_store.go:507-522 [getStreamSequenceNumber], [getSequenceNumber]:
    iter.Key() is nil on an empty range. *)
Fixpoint drop_chars (n : nat) (s : string) : string :=
  match n, s with
  | O, _ => s
  | S n', String _ s' => drop_chars n' s'
  | S _, EmptyString => EmptyString
  end.
Definition sequence_number (d : db) (key : string) : N :=
  match rev (scan key d) with
  | [] => 0
  | (k, _) :: _ =>
      if Nat.ltb (String.length key) (String.length k)
      then bytes_to_uint64 (drop_chars (String.length key) k)
      else 0
  end.
Definition stream_number_in (d : db) (s : string) : N := sequence_number d (stream_prefix s).

(** leveldb_store.go:497-505 [getGlobalSequenceNumber]. *)
Definition global_number_in (d : db) : N :=
  match db_get gsn_key d with Some b => bytes_to_uint64 b | None => 0 end.

(** * The store *)

(** leveldb_store.go:37-46.  [s_stuck]: a goroutine is blocked in OpenTransaction
    while holding the write side of [mux]. *)
Record ldb := mk_ldb { s_h : dbh; s_stuck : bool }.
Definition ldb_init : ldb := mk_ldb (mk_dbh [] None) false.

Section WithCodec.
Variable c : codec.

(** leveldb_store.go:275-332 [saveEvent]: the batch it writes, or its error.  [d]:
    what the transaction sees. *)
Definition ldb_save_event (d : db) (s : string) (expected : option N) (e : event)
  : err + (list bop * string * N) :=
  let ssn := stream_number_in d s in
  match (match expected with
         | Some x => if x =? ssn then None else Some (EUnexpectedSeq x ssn)
         | None => None end) with
  | Some er => inl er
  | None =>
      let g := global_number_in d + 1 in
      let r := mk_record s (ev_atype e) (ev_aid e) g (ssn + 1) (ev_now e) (ev_uuid e)
                 (ev_type e) (ev_data e) (ev_meta e) in
      match ser c r with
      | None => inl ESerialize
      | Some data =>
          let stream_key := key_with_number (stream_prefix s) (ssn + 1) in
          inr ([ BPut gsn_key (uint64_to_bytes g);
                 BPut stream_key data;
                 BPut (key_with_number (type_prefix (ev_atype e)) g) stream_key;
                 BPut (key_with_number all_prefix g) stream_key ], data, ssn + 1)
      end
  end.

(** leveldb_store.go:219-261: the loop and the commit.  Returns the database
    operations issued and the outcome (error, or last number and encoded records). *)
Fixpoint ldb_save_loop (d : db) (s at_ ai : string) (expected : option N) (cn : option nat) (n : nat)
    (pending : list string) (last : N) (evs : list event) : list micro * (err + N * list string) :=
  match evs with
  | [] => ([MCommit], inr (last, pending))
  | e :: rest =>
      if negb (String.eqb at_ "") && negb (String.eqb at_ (ev_atype e)) then ([MDiscard], inl EUnmatchedType)
      else if negb (String.eqb ai "") && negb (String.eqb ai (ev_aid e)) then ([MDiscard], inl EUnmatchedID)
      else if done_at cn n then ([MDiscard], inl ECanceled)
      else
        match ldb_save_event d s expected e with
        | inl er => ([MDiscard], inl er)
        | inr (bs, data, ssn) =>
            let '(ms, x) := ldb_save_loop (apply_batch d bs) s (ev_atype e) (ev_aid e)
              (match expected with Some y => Some (y + 1) | None => None end) cn (S n)
              (pending ++ [data]) ssn rest in
            (MWrite bs :: ms, x)
        end
  end.

Fixpoint ldb_decoded (ds : list string) : list record :=
  match ds with
  | [] => []
  | d :: rest => match deser c d with Some r => r :: ldb_decoded rest | None => ldb_decoded rest end
  end.

(** leveldb_store.go:203-273 [saveEvents] on a database without open transaction:
    operations and answer. *)
Definition ldb_save (d : db) (expected : option N) (s : string) (evs : list event) (cn : option nat) : list micro * out :=
  let '(ms, x) := ldb_save_loop d s "" "" expected cn 0 [] 0 evs in
  (MOpen :: ms,
   match x with
   | inl e => OutFailed e
   | inr (last, pending) => OutSaved last (ldb_decoded pending)
   end).

(** leveldb_store.go:154-167: the batch of deletions, or the error of a record that
    does not decode. *)
Fixpoint delete_batch (kvs : db) : err + list bop :=
  match kvs with
  | [] => inr []
  | (k, v) :: rest =>
      match deser c v with
      | None => inl EDeserialize
      | Some r =>
          match delete_batch rest with
          | inl e => inl e
          | inr bs => inr (BDel k
                           :: BDel (key_with_number (type_prefix (r_atype r)) (r_gsn r))
                           :: BDel (key_with_number all_prefix (r_gsn r)) :: bs)
          end
      end
  end.

(** leveldb_store.go:144-193 [OptimisticDeleteStream] after the lock. Every error
    return (158, 170, 174) leaves the transaction open: neither Commit nor Discard. *)
Definition ldb_delete (d : db) (expected : N) (s : string) : list micro * out :=
  let kvs := scan (stream_prefix s) d in
  match delete_batch kvs with
  | inl e => ([MOpen], OutFailed e)
  | inr bs =>
      let cnt := N.of_nat (length kvs) in
      if cnt =? 0 then ([MOpen], OutFailed EStreamNotFound)
      else if negb (cnt =? expected) then ([MOpen], OutFailed (EUnexpectedSeq expected cnt))
      else ([MOpen; MWrite bs; MCommit], OutDeleted)
  end.

(** leveldb_store.go:366-406 [getEventsByPrefix]. *)
Fixpoint by_prefix_loop (k : N) (kvs : db) : list result :=
  match kvs with
  | [] => []
  | (_, v) :: rest =>
      match deser c v with
      | None => [RErr EDeserialize]
      | Some r => if r_ssn r <? k then by_prefix_loop k rest else RRec r :: by_prefix_loop k rest
      end
  end.
Definition events_by_prefix (d : db) (p : string) (k : N) : list result :=
  match scan p d with
  | [] => [RErr EStreamNotFound]
  | kvs => by_prefix_loop k kvs
  end.

(** leveldb_store.go:408-457 [getEventsByLookup], [getRecordByLookup]. *)
Fixpoint by_lookup_loop (d : db) (g : N) (kvs : db) : list result :=
  match kvs with
  | [] => []
  | (_, target) :: rest =>
      match db_get target d with
      | None => [RErr ELookup]
      | Some v =>
          match deser c v with
          | None => [RErr EDeserialize]
          | Some r => if r_gsn r <? g then by_lookup_loop d g rest else RRec r :: by_lookup_loop d g rest
          end
      end
  end.
Definition events_by_lookup (d : db) (p : string) (g : N) : list result :=
  by_lookup_loop d g (if 0 <? g then seek (key_with_number p g) (scan p d) else scan p d).

(** leveldb_store.go:116-127 [EventsByAggregateTypes]. *)
Definition ldb_by_types (d : db) (g : N) (types : list string) : option (list result) :=
  let q t := events_by_lookup d (type_prefix t) g in
  match types with
  | [t] => Some (q t)
  | _ => merge_results (map (fun t => new_iter (q t)) types)
  end.

(** Database operations and answer of one call that got the locks it needs. *)
Definition ldb_call (d : db) (o : op) : list micro * out :=
  match o with
  | OpSave ex s evs cn => ldb_save d ex s evs cn
  | OpDelete ex s cn => ldb_delete d ex s
  | OpEvents g => ([], OutResults (events_by_lookup d all_prefix g))
  | OpByTypes g ts => ([], match ldb_by_types d g ts with Some l => OutResults l | None => OutPanic end)
  | OpByStream k s => ([], OutResults (events_by_prefix d (stream_prefix s) k))
  | OpTotal s cn => ([], OutTotal (stream_number_in d s))
  end.

(** Checks made before any lock is taken (134-139, 204-206, 356-361). *)
Definition early (o : op) : option out :=
  match o with
  | OpSave _ _ [] _ => Some (OutFailed EMissingEvents)
  | OpDelete _ _ cn => if done_at cn 0 then Some (OutFailed ECanceled) else None
  | OpTotal _ cn => if done_at cn 0 then Some (OutFailed ECanceled) else None
  | _ => None
  end.

(** Does the call take [mux]?  (TotalEventsInStream does not, and
    EventsByAggregateTypes of no type does not.) *)
Definition takes_mux (o : op) : bool :=
  match o with
  | OpTotal _ _ => false
  | OpByTypes _ [] => false
  | _ => true
  end.
Definition opens_transaction (o : op) : bool :=
  match o with OpSave _ _ _ _ | OpDelete _ _ _ => true | _ => false end.

(** One call. A call that needs a transaction while one was left open blocks for
    ever in OpenTransaction, holding [mux]. *)
Definition ldb_step (s : ldb) (o : op) : ldb * out :=
  match early o with
  | Some x => (s, x)
  | None =>
      if s_stuck s && takes_mux o then (s, OutBlocked)
      else if opens_transaction o && (match h_tx (s_h s) with Some _ => true | None => false end)
      then (mk_ldb (s_h s) true, OutBlocked)
      else
        let '(ms, x) := ldb_call (h_db (s_h s)) o in
        (mk_ldb (exec_micros (s_h s) ms) (s_stuck s), x)
  end.

(** leveldb_store.go:85-104 [New] on the files of a process that died: an
    uncommitted transaction is gone. *)
Definition ldb_reopen (s : ldb) : ldb := mk_ldb (mk_dbh (h_db (s_h s)) None) false.

(** The process dies after the first [k] database operations of the call, and the
    database is reopened. *)
Definition ldb_crash (s : ldb) (o : op) (k : nat) : ldb :=
  let ms := match early o with Some _ => [] | None => fst (ldb_call (h_db (s_h s)) o) end in
  let blocked := (s_stuck s && takes_mux o)
                 || (opens_transaction o && (match h_tx (s_h s) with Some _ => true | None => false end)) in
  let h := if blocked then s_h s else exec_micros (s_h s) (firstn k ms) in
  ldb_reopen (mk_ldb h false).

(** A step of a life with crashes: a call that runs to its end (or blocks), or a
    call during which the process dies after [k] database operations, followed by a
    restart. *)
Fixpoint lives (st : ldb) (h : list (op * option nat)) : ldb * list (option out) :=
  match h with
  | [] => (st, [])
  | (o, None) :: rest =>
      let '(st1, x) := ldb_step st o in
      let '(st2, xs) := lives st1 rest in (st2, Some x :: xs)
  | (o, Some k) :: rest =>
      let '(st2, xs) := lives (ldb_crash st o k) rest in (st2, None :: xs)
  end.

End WithCodec.
