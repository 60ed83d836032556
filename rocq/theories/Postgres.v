(** provider/postgresstore: the store as concurrent transactions on one PostgreSQL
    table, statement by statement.

    What is assumed of PostgreSQL (trusted base, see DESIGN.md): transactions run at
    the default isolation level READ COMMITTED, so every statement sees the rows
    committed when it starts; what a transaction wrote becomes visible to others when
    it commits, before its locks are released; SERIAL values are handed out one at a
    time, for ever, whether or not the transaction commits; advisory locks of a
    transaction are exclusive and end with it; DELETE locks the rows it finds one by
    one, waits for a transaction that has locked one, and skips a row that is gone. *)
From Verif Require Import Base Locks.

(** A row of the table [record] (postgres_store.go:536-547) is a [record] whose
    [r_data] and [r_meta] are the JSON texts. *)

(** encoding/json as far as the store uses it: json.Marshal of the event and of its
    metadata, and jsonrecordserializer.DecodeJsonData with the event's type name. *)
Record jlib := mk_jlib {
  j_data : event -> option string;
  j_meta : event -> option string;
  j_decode : string -> string -> option string
}.

Section Postgres.
Variable j : jlib.
Variable key : string -> N.           (* fnv.New32a of the stream name, 523-525 *)
Variable limit : nat.                 (* connections the server accepts *)

(** ** Pure parts *)

(** 405-411, 645-653: json.Unmarshal into a nil interface always fails. *)
Definition decode_row (r : record) : option record :=
  match j_decode j (r_etype r) (r_data r) with
  | None => None
  | Some d =>
      if String.eqb (r_meta r) "null"
      then Some (mk_record (r_stream r) (r_atype r) (r_aid r) (r_gsn r) (r_ssn r) (r_ts r) (r_eid r) (r_etype r) d "")
      else None
  end.

(** 421-463; the global number is filled in by the database. *)
Fixpoint batch_rows (s t i : string) (n : N) (evs : list event) : err + list record :=
  match evs with
  | [] => inr []
  | e :: rest =>
      if negb (String.eqb t (ev_atype e)) then inl EUnmatchedType
      else if negb (String.eqb i (ev_aid e)) then inl EUnmatchedID
      else match j_data j e, j_meta j e with
           | Some d, Some m =>
               match batch_rows s t i (n + 1) rest with
               | inl er => inl er
               | inr rows => inr (mk_record s (ev_atype e) (ev_aid e) 0 (n + 1) (ev_now e) (ev_uuid e) (ev_type e) d m :: rows)
               end
           | _, _ => inl ESerialize
           end
  end.

Definition first_type (evs : list event) : string := match evs with e :: _ => ev_atype e | [] => "" end.
Definition first_id (evs : list event) : string := match evs with e :: _ => ev_aid e | [] => "" end.

Definition with_gsn (g : N) (r : record) : record :=
  mk_record (r_stream r) (r_atype r) (r_aid r) g (r_ssn r) (r_ts r) (r_eid r) (r_etype r) (r_data r) (r_meta r).

(** 583-599: SELECT MAX(StreamSequenceNumber); 0 if there is no row. *)
Fixpoint max_ssn (s : string) (rows : list record) : N :=
  match rows with
  | [] => 0
  | r :: rest => if String.eqb (r_stream r) s then N.max (r_ssn r) (max_ssn s rest) else max_ssn s rest
  end.

(** ORDER BY GlobalSequenceNumber *)
Fixpoint insert_row (r : record) (l : list record) : list record :=
  match l with
  | [] => [r]
  | x :: rest => if r_gsn r <=? r_gsn x then r :: l else x :: insert_row r rest
  end.
Fixpoint order_by_gsn (l : list record) : list record :=
  match l with [] => [] | r :: rest => insert_row r (order_by_gsn rest) end.

(** 602-682 readResultRecords without cancellation: the first row that cannot be
    decoded ends the iteration with an error. *)
Fixpoint read_rows (rows : list record) : list result :=
  match rows with
  | [] => []
  | r :: rest => match decode_row r with Some x => RRec x :: read_rows rest | None => [RErr EDeserialize] end
  end.

(** 120-151, 157-187, 189-223, 361-363 *)
Definition select (o : op) (rows : list record) : out :=
  match o with
  | OpEvents g => OutResults (read_rows (order_by_gsn (filter (fun r => g <=? r_gsn r) rows)))
  | OpByTypes g ts => OutResults (read_rows (order_by_gsn (filter (fun r => memb (r_atype r) ts && (g <=? r_gsn r)) rows)))
  | OpByStream n s =>
      OutResults (match read_rows (order_by_gsn (filter (fun r => String.eqb (r_stream r) s && (n <=? r_ssn r)) rows)) with
                  | [] => [RErr EStreamNotFound]
                  | l => l
                  end)
  | OpTotal s _ => OutTotal (max_ssn s rows)
  | _ => OutPanic
  end.

(** 381-419 batchNotifySubscribers: what reaches the broadcaster, and whether an
    error was met. *)
Fixpoint notify (rows : list record) : list record * bool :=
  match rows with
  | [] => ([], true)
  | r :: rest =>
      match decode_row r with
      | Some x => let '(l, ok) := notify rest in (x :: l, ok)
      | None => ([], false)
      end
  end.
Definition last_ssn (rows : list record) : N := fold_left (fun _ r => r_ssn r) rows 0.

(** ** Transactions *)

Inductive pgpc :=
| PNew
| PLock                                    (* transaction open; in pg_advisory_xact_lock, 527 *)
| PCheck                                   (* lock held; before 366 *)
| PInsert (todo mine : list record)        (* INSERT: rows to come, rows written; [todo = []]: before Commit, 287 *)
| PSaved (mine : list record)              (* committed; before 292 *)
| PDelCheck                                (* delete: transaction open; before 231 *)
| PDelGo                                   (* before 247 *)
| PDeleting (todo done : list N)           (* DELETE: rows found, rows locked; [todo = []]: before Commit, 253 *)
| PDone (leaked : bool).                   (* answered; [leaked]: its transaction is still open *)

Record pgcall := mk_pgcall { pg_op : op; pg_pc : pgpc }.

Record pgconf := mk_pg {
  g_rows  : list record;                   (* committed rows, in the order of their commits *)
  g_seq   : N;                             (* last SERIAL value handed out *)
  g_locks : N -> option nat;               (* advisory locks *)
  g_calls : list pgcall;
  g_hist  : list act;
  g_bcast : list record                    (* records given to the broadcaster, in order *)
}.
Definition pg_start : pgconf := mk_pg [] 0 (fun _ => None) [] [] [].

Inductive plabel :=
| GInvoke (o : op)
| GStep (i : nat)                          (* the next statement of call [i] succeeds *)
| GFail (i : nat)                          (* ... fails: error, timeout or cancelled context *)
| GLost (i : nat)                          (* Commit happened, but its confirmation got lost *)
| GRelease (i : nat)                       (* the context of an answered call ends; database/sql rolls back *)
| GCrash (skip : N).                       (* the server restarts; unused SERIAL values may be skipped *)

Definition set_call (i : nat) (o : op) (p : pgpc) (k : pgconf) : pgconf :=
  mk_pg (g_rows k) (g_seq k) (g_locks k) (upd i (mk_pgcall o p) (g_calls k)) (g_hist k) (g_bcast k).
Definition set_seq (n : N) (k : pgconf) : pgconf :=
  mk_pg (g_rows k) n (g_locks k) (g_calls k) (g_hist k) (g_bcast k).
Definition set_rows (l : list record) (k : pgconf) : pgconf :=
  mk_pg l (g_seq k) (g_locks k) (g_calls k) (g_hist k) (g_bcast k).
Definition take_lock (q : N) (i : nat) (k : pgconf) : pgconf :=
  mk_pg (g_rows k) (g_seq k) (fun x => if x =? q then Some i else g_locks k x) (g_calls k) (g_hist k) (g_bcast k).
(** Commit and rollback release the transaction's advisory locks. *)
Definition free_locks (i : nat) (k : pgconf) : pgconf :=
  mk_pg (g_rows k) (g_seq k)
    (fun x => match g_locks k x with Some h => if Nat.eqb h i then None else Some h | None => None end)
    (g_calls k) (g_hist k) (g_bcast k).
Definition reply (i : nat) (o : op) (x : out) (leaked : bool) (k : pgconf) : pgconf :=
  mk_pg (g_rows k) (g_seq k) (g_locks k) (upd i (mk_pgcall o (PDone leaked)) (g_calls k)) (g_hist k ++ [Ret i x]) (g_bcast k).
Definition broadcast (l : list record) (k : pgconf) : pgconf :=
  mk_pg (g_rows k) (g_seq k) (g_locks k) (g_calls k) (g_hist k) (g_bcast k ++ l).

(** How a database error reaches the caller (142-145, 178-181, 210-213: as the
    iterator's error). *)
Definition db_error (o : op) : out :=
  match o with
  | OpEvents _ | OpByTypes _ _ | OpByStream _ _ => OutResults [RErr EDatabase]
  | _ => OutFailed EDatabase
  end.

(** Connections in use. *)
Definition uses_connection (c : pgcall) : bool :=
  match pg_pc c with PNew | PSaved _ | PDone false => false | _ => true end.
Definition in_use (k : pgconf) : nat := length (filter uses_connection (g_calls k)).

(** Another transaction has locked the row with number [g]. *)
Fixpoint locked_by_other (g : N) (i : nat) (at_ : nat) (cs : list pgcall) : bool :=
  match cs with
  | [] => false
  | c :: rest =>
      (negb (Nat.eqb at_ i) &&
       match pg_pc c with PDeleting _ done => existsb (N.eqb g) done | _ => false end)
      || locked_by_other g i (S at_) rest
  end.

Definition removed_rows (gs : list N) (rows : list record) : list record :=
  filter (fun r => negb (existsb (N.eqb (r_gsn r)) gs)) rows.

Definition pg_step (k : pgconf) (i : nat) (o : op) (p : pgpc) : option pgconf :=
  match p, o with
  | PNew, _ =>
      if Nat.leb limit (in_use k) then Some (reply i o (db_error o) false k)     (* 226-229, 276-279: BeginTx fails *)
      else match o with
           | OpSave _ _ [] _ => Some (reply i o (OutFailed EMissingEvents) false k)        (* 309-311 *)
           | OpSave _ _ _ _ => Some (set_call i o PLock k)
           | OpDelete _ _ _ => Some (set_call i o PDelCheck k)
           | _ => Some (reply i o (select o (g_rows k)) false k)
           end
  | PLock, OpSave _ s _ _ =>                                                              (* 519-532 *)
      match g_locks k (key s) with
      | Some _ => None
      | None => Some (set_call i o PCheck (take_lock (key s) i k))
      end
  | PCheck, OpSave ex s evs _ =>                                                          (* 318-326, 365-379 *)
      let n := max_ssn s (g_rows k) in
      match (match ex with Some x => if n =? x then None else Some (EUnexpectedSeq x n) | None => None end) with
      | Some e => Some (reply i o (OutFailed e) false (free_locks i k))
      | None =>
          match batch_rows s (first_type evs) (first_id evs) n evs with
          | inl e => Some (reply i o (OutFailed e) false (free_locks i k))
          | inr rows => Some (set_call i o (PInsert rows []) k)
          end
      end
  | PInsert (r :: todo) mine, _ =>                                                        (* 497: the next row takes its number *)
      Some (set_call i o (PInsert todo (mine ++ [with_gsn (g_seq k + 1) r])) (set_seq (g_seq k + 1) k))
  | PInsert [] mine, _ =>                                                                 (* 287 *)
      Some (set_call i o (PSaved mine) (free_locks i (set_rows (g_rows k ++ mine) k)))
  | PSaved mine, _ =>                                                                     (* 292-299 *)
      let '(l, ok) := notify mine in
      Some (reply i o (if ok then OutSaved (last_ssn mine) l else OutFailed EDeserialize) false (broadcast l k))
  | PDelCheck, OpDelete ex s _ =>                                                         (* 231-245: no Rollback *)
      let n := max_ssn s (g_rows k) in
      if n =? 0 then Some (reply i o (OutFailed EStreamNotFound) true k)
      else if n =? ex then Some (set_call i o PDelGo k)
      else Some (reply i o (OutFailed (EUnexpectedSeq ex n)) true k)
  | PDelGo, OpDelete _ s _ =>                                                             (* 247 *)
      Some (set_call i o (PDeleting (map r_gsn (filter (fun r => String.eqb (r_stream r) s) (g_rows k))) []) k)
  | PDeleting (g :: todo) done, _ =>
      if negb (existsb (N.eqb g) (map r_gsn (g_rows k))) then Some (set_call i o (PDeleting todo done) k)
      else if locked_by_other g i 0 (g_calls k) then None
      else Some (set_call i o (PDeleting todo (done ++ [g])) k)
  | PDeleting [] done, _ =>                                                               (* 253-258 *)
      Some (reply i o OutDeleted false (set_rows (removed_rows done (g_rows k)) k))
  | _, _ => None
  end.

(** A statement fails: 227, 248-251, 277, 282-285 roll back; 231-234 does not. *)
Definition pg_fail (k : pgconf) (i : nat) (o : op) (p : pgpc) : option pgconf :=
  match p with
  | PNew | PLock | PCheck | PInsert _ _ | PDelGo | PDeleting _ _ =>
      Some (reply i o (db_error o) false (free_locks i k))
  | PDelCheck => Some (reply i o (OutFailed EDatabase) true k)
  | PSaved _ | PDone _ => None
  end.

Definition pg_lost (k : pgconf) (i : nat) (o : op) (p : pgpc) : option pgconf :=
  match p with
  | PInsert [] mine => Some (reply i o (OutFailed EDatabase) false (free_locks i (set_rows (g_rows k ++ mine) k)))
  | PDeleting [] done => Some (reply i o (OutFailed EDatabase) false (set_rows (removed_rows done (g_rows k)) k))
  | _ => None
  end.

Definition crash_call (c : pgcall) : pgcall :=
  match pg_pc c with
  | PNew | PSaved _ => c
  | _ => mk_pgcall (pg_op c) (PDone false)
  end.
Fixpoint crash_acts (i : nat) (cs : list pgcall) : list act :=
  match cs with
  | [] => []
  | c :: rest =>
      (match pg_pc c with
       | PNew | PSaved _ | PDone _ => []
       | _ => [Ret i (OutFailed EDatabase)]
       end) ++ crash_acts (S i) rest
  end.

Definition gstep (k : pgconf) (lb : plabel) : option pgconf :=
  match lb with
  | GInvoke o => Some (mk_pg (g_rows k) (g_seq k) (g_locks k) (g_calls k ++ [mk_pgcall o PNew])
                         (g_hist k ++ [Inv (length (g_calls k)) o]) (g_bcast k))
  | GStep i => match nth_error (g_calls k) i with Some c => pg_step k i (pg_op c) (pg_pc c) | None => None end
  | GFail i => match nth_error (g_calls k) i with Some c => pg_fail k i (pg_op c) (pg_pc c) | None => None end
  | GLost i => match nth_error (g_calls k) i with Some c => pg_lost k i (pg_op c) (pg_pc c) | None => None end
  | GRelease i =>
      match nth_error (g_calls k) i with
      | Some (mk_pgcall o (PDone true)) => Some (set_call i o (PDone false) k)
      | _ => None
      end
  | GCrash skip =>
      Some (mk_pg (g_rows k) (g_seq k + skip) (fun _ => None) (map crash_call (g_calls k))
              (g_hist k ++ crash_acts 0 (g_calls k)) (g_bcast k))
  end.

Fixpoint grun (k : pgconf) (ls : list plabel) : option pgconf :=
  match ls with
  | [] => Some k
  | lb :: rest => match gstep k lb with Some k' => grun k' rest | None => None end
  end.

(** ** The notification listener (WithPgNotify), 732-788: what reaches the
    broadcaster of the notifications sent; the goroutine returns at the first one it
    cannot decode. *)
Fixpoint listen (rows : list record) : list record :=
  match rows with
  | [] => []
  | r :: rest => match decode_row r with Some x => x :: listen rest | None => [] end
  end.

End Postgres.

(** ** fnv.New32a (523-525) *)
Definition fnv_prime : N := 16777619.
Definition fnv_offset : N := 2166136261.
Fixpoint fnv_from (h : N) (s : string) : N :=
  match s with
  | EmptyString => h
  | String a rest => fnv_from ((N.lxor h (N_of_ascii a) * fnv_prime) mod 2 ^ 32) rest
  end.
Definition fnv32a (s : string) : N := fnv_from fnv_offset s.
