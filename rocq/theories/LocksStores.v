(** The in-memory and the LevelDB store as users of their lock. *)
From Coq Require Import PeanoNat.
From Verif Require Import Base Core InMemory LevelDB Locks.

Section Stores.
Variable c : codec.

(** * In-memory store *)

(** A place inside the critical section of saveEvents (inmemory_store.go:237-286:
    the running variables of the loop) or of OptimisticDeleteStream (176-211, taken
    as one step). *)
Inductive mloc :=
| MLSave (s at_ ai : string) (expected : option N) (cn : option nat) (n : nat)
         (created : list N) (pending : list string) (last : N) (evs : list event)
| MLDelete (expected : N) (s : string) (cn : option nat).

(** inmemory_store.go:238-285: one turn of the loop. A panic leaves the lock
    locked. *)
Definition mem_wstep (l : mloc) (m : mem) : wres mem mloc :=
  match l with
  | MLSave s at_ ai expected cn n created pending last evs =>
      match evs with
      | [] => WDone m (OutSaved last (decoded c pending)) true
      | e :: rest =>
          if negb (String.eqb at_ "") && negb (String.eqb at_ (ev_atype e)) then WDone m (OutFailed EUnmatchedType) true
          else if negb (String.eqb ai "") && negb (String.eqb ai (ev_aid e)) then WDone m (OutFailed EUnmatchedID) true
          else if done_at cn n then WDone m (OutFailed ECanceled) true
          else
            match mem_save_event c m s expected e with
            | (m1, inl er) =>
                match remove_recent m1 created (ev_atype e) (ev_aid e) with
                | Some m2 => WDone m2 (OutFailed er) true
                | None => WDone (lock_forever m1) OutPanic false
                end
            | (m1, inr (d, r)) =>
                WMore m1 (MLSave s (ev_atype e) (ev_aid e)
                  (match expected with Some x => Some (x + 1) | None => None end) cn (S n)
                  (created ++ [r_gsn r]) (pending ++ [d]) (r_ssn r) rest)
            end
      end
  | MLDelete expected s cn =>
      let '(m', x) := mem_delete m expected s cn in
      WDone m' x (match x with OutPanic => false | _ => true end)
  end.

(** What happens before the lock is taken (171-174, 227-229, 385-390); a query for
    no type takes no lock (107-113). *)
Definition mem_direct (o : op) (m : mem) : option out :=
  match o with
  | OpSave _ _ [] _ => Some (OutFailed EMissingEvents)
  | OpDelete _ _ cn => if done_at cn 0 then Some (OutFailed ECanceled) else None
  | OpTotal _ cn => if done_at cn 0 then Some (OutFailed ECanceled) else None
  | OpByTypes _ [] => Some (OutResults [])
  | _ => None
  end.

Definition mem_writes (o : op) : option mloc :=
  match o with
  | OpSave ex s evs cn => Some (MLSave s "" "" ex cn 0 [] [] 0 evs)
  | OpDelete ex s cn => Some (MLDelete ex s cn)
  | _ => None
  end.

Inductive mquery := QAll (g : N) | QType (g : N) (t : string) | QStream (k : N) (s : string) | QTotal (s : string).

Definition mem_queries (o : op) : list mquery :=
  match o with
  | OpEvents g => [QAll g]
  | OpByTypes g ts => map (QType g) ts
  | OpByStream k s => [QStream k s]
  | OpTotal s _ => [QTotal s]
  | _ => []
  end.

(** A goroutine of recordsByIDs (135-166): its predicate and the numbers left. *)
Definition mgo := ((record -> bool) * list N)%type.

(** 93-133, 384-395: what is evaluated under the read lock before the goroutine
    starts. *)
Definition mem_rbegin (q : mquery) (m : mem) : rbegin mgo :=
  match q with
  | QAll g => RGo (from_gsn g, m_records m)
  | QType g t => RGo (from_gsn g, aget t (m_types m))
  | QStream k s =>
      match m_streams m s with
      | None | Some [] => RNow (OutResults [RErr EStreamNotFound])
      | Some ids => RGo (from_ssn k, ids)
      end
  | QTotal s => RNow (OutTotal (mem_stream_number m s))
  end.

Definition mem_rstep (r : mgo) (m : mem) : rres mgo :=
  let '(keep, ids) := r in
  match ids with
  | [] => REnd
  | id :: rest =>
      match m_data m id with
      | None => RSend (RErr ERecordMissing) (keep, [])
      | Some d =>
          match deser c d with
          | None => RSend (RErr EDeserialize) (keep, [])
          | Some rec => if keep rec then RSend (RRec rec) (keep, rest) else RSkip (keep, rest)
          end
      end
  end.

(** 107-113: several types go through the merge.  Simplification: the merge is
    applied to what the goroutines delivered in all, not record by record; it does
    not influence which records they deliver. *)
Definition combine_results (o : op) (ls : list (list result)) : out :=
  match ls with
  | [l] => OutResults l
  | _ => match merge_results (map new_iter ls) with Some l => OutResults l | None => OutPanic end
  end.

Definition mem_obj : obj mem mloc mquery mgo :=
  mk_obj mem_direct mem_writes mem_wstep mem_queries mem_rbegin mem_rstep combine_results.

(** * LevelDB store *)

(** leveldb_store.go:132-273 under [mux]: before OpenTransaction, and then the
    database operations left.  The operations are computed when the transaction is
    opened: goleveldb lets nobody else write while it is open. *)
Inductive lloc := LLOpen (o : op) | LLRun (ms : list micro) (x : out).

Definition ldb_wstep (l : lloc) (h : dbh) : wres dbh lloc :=
  match l with
  | LLOpen o =>
      match h_tx h with
      | Some _ => WStuck
      | None => let '(ms, x) := ldb_call c (h_db h) o in WMore h (LLRun ms x)
      end
  | LLRun [] x => WDone h x true
  | LLRun [m] x => WDone (exec_micro h m) x true
  | LLRun (m :: ms) x => WMore (exec_micro h m) (LLRun ms x)
  end.

(** TotalEventsInStream (355-364) reads the database without taking [mux]. *)
Definition ldb_direct (o : op) (h : dbh) : option out :=
  match early o with
  | Some x => Some x
  | None => match o with
            | OpTotal s _ => Some (OutTotal (stream_number_in (h_db h) s))
            | OpByTypes _ [] => Some (OutResults [])
            | _ => None
            end
  end.

Definition ldb_writes (o : op) : option lloc := if opens_transaction o then Some (LLOpen o) else None.

Inductive lquery := LQLookup (p : string) (g : N) | LQPrefix (p : string) (k : N).

Definition ldb_queries (o : op) : list lquery :=
  match o with
  | OpEvents g => [LQLookup all_prefix g]
  | OpByTypes g ts => map (fun t => LQLookup (type_prefix t) g) ts
  | OpByStream k s => [LQPrefix (stream_prefix s) k]
  | _ => []
  end.

(** Goroutines of getEventsByLookup and getEventsByPrefix (366-457): before their
    NewIterator, then with the entries of the iterator's snapshot that are left. *)
Inductive lgo :=
| LGStart (q : lquery)
| LGLookup (g : N) (kvs : db)
| LGPrefix (k : N) (kvs : db)
| LGError (e : err)
| LGEnd.

Definition ldb_rbegin (q : lquery) (h : dbh) : rbegin lgo := RGo (LGStart q).

Definition ldb_rstep (r : lgo) (h : dbh) : rres lgo :=
  match r with
  | LGStart (LQLookup p g) =>
      RSkip (LGLookup g (if 0 <? g then seek (key_with_number p g) (scan p (h_db h)) else scan p (h_db h)))
  | LGStart (LQPrefix p k) =>
      match scan p (h_db h) with
      | [] => RSkip (LGError EStreamNotFound)
      | kvs => RSkip (LGPrefix k kvs)
      end
  | LGLookup g [] => REnd
  | LGLookup g ((_, target) :: rest) =>
      match db_get target (h_db h) with
      | None => RSkip (LGError ELookup)
      | Some v =>
          match deser c v with
          | None => RSkip (LGError EDeserialize)
          | Some rec => if r_gsn rec <? g then RSkip (LGLookup g rest) else RSend (RRec rec) (LGLookup g rest)
          end
      end
  | LGPrefix k [] => REnd
  | LGPrefix k ((_, v) :: rest) =>
      match deser c v with
      | None => RSkip (LGError EDeserialize)
      | Some rec => if r_ssn rec <? k then RSkip (LGPrefix k rest) else RSend (RRec rec) (LGPrefix k rest)
      end
  | LGError e => RSend (RErr e) LGEnd
  | LGEnd => REnd
  end.

Definition ldb_obj : obj dbh lloc lquery lgo :=
  mk_obj ldb_direct ldb_writes ldb_wstep ldb_queries ldb_rbegin ldb_rstep combine_results.

(** The sequential LevelDB store, as a function of the database handle. *)
Definition ldb_seq (h : dbh) (o : op) : dbh * out :=
  let '(st, x) := ldb_step c (mk_ldb h false) o in (s_h st, x).

End Stores.
