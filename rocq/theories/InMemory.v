(** Model of provider/inmemorystore/inmemory_store.go. *)
From Verif Require Import Base Core.

(** A Go map from strings to slices of numbers, kept as an association list so
    that [range] over it can be modelled. Missing key = nil slice. *)
Definition amap := list (string * list N).
Fixpoint aget (k : string) (m : amap) : list N :=
  match m with
  | [] => []
  | (k', v) :: rest => if String.eqb k k' then v else aget k rest
  end.
Fixpoint aset (k : string) (v : list N) (m : amap) : amap :=
  match m with
  | [] => [(k, v)]
  | (k', v') :: rest => if String.eqb k k' then (k', v) :: rest else (k', v') :: aset k v rest
  end.

(** Maps whose keys are only looked up, set and deleted. *)
Definition fset {A} (k : string) (v : option A) (m : string -> option A) : string -> option A :=
  fun k' => if String.eqb k' k then v else m k'.
Definition nset {A} (k : N) (v : option A) (m : N -> option A) : N -> option A :=
  fun k' => if N.eqb k' k then v else m k'.

(** inmemory_store.go:23-36 [inMemoryStore].  [m_locked]: the mutex was left locked
    by a panic in saveEvents (its unlocks are not deferred), so every later call
    blocks. *)
Record mem := mk_mem {
  m_last    : N;                             (* globalSequenceNumber *)
  m_records : list N;                        (* records *)
  m_streams : string -> option (list N);     (* streams *)
  m_types   : amap;                          (* aggregateTypes *)
  m_data    : N -> option string;            (* recordData *)
  m_locked  : bool
}.

(** inmemory_store.go:70-87 [New]. *)
Definition mem_init : mem := mk_mem 0 [] (fun _ => None) [] (fun _ => None) false.

Definition ids_of_stream (m : mem) (s : string) : list N :=
  match m_streams m s with Some l => l | None => [] end.

(** inmemory_store.go:397-399 [getStreamSequenceNumber]. *)
Definition mem_stream_number (m : mem) (s : string) : N := N.of_nat (length (ids_of_stream m s)).

Section WithCodec.
Variable c : codec.

(** inmemory_store.go:135-166 [recordsByIDs]: what the goroutine puts on the
    channel.  [cn]/[consumer]/[k] as in [publish_all]. *)
Fixpoint records_by_ids (m : mem) (keep : record -> bool) (cn : option nat) (consumer : bool) (k : nat) (ids : list N) : list result :=
  match ids with
  | [] => []
  | id :: rest =>
      match m_data m id with
      | None => [RErr ERecordMissing]
      | Some d =>
          match deser c d with
          | None => [RErr EDeserialize]
          | Some r =>
              if keep r then
                let '(sent, go) := publish (done_at cn k) consumer r in
                if go then sent ++ records_by_ids m keep cn consumer (S k) rest else sent
              else records_by_ids m keep cn consumer k rest
          end
      end
  end.

Definition from_gsn (g : N) (r : record) : bool := N.leb g (r_gsn r).
Definition from_ssn (k : N) (r : record) : bool := N.leb k (r_ssn r).

(** inmemory_store.go:93-99 [Events]. *)
Definition mem_events (m : mem) (g : N) : list result :=
  records_by_ids m (from_gsn g) None true 0 (m_records m).

(** inmemory_store.go:101-114 [EventsByAggregateTypes]: one type directly, several
    (or none) through the merge.  [None]: merge out of fuel (never, see proofs). *)
Definition mem_by_types (m : mem) (g : N) (types : list string) : option (list result) :=
  let q t := records_by_ids m (from_gsn g) None true 0 (aget t (m_types m)) in
  match types with
  | [t] => Some (q t)
  | _ => merge_results (map (fun t => new_iter (q t)) types)
  end.

(** inmemory_store.go:122-133 [EventsByStream]. *)
Definition mem_by_stream (m : mem) (k : N) (s : string) : list result :=
  match m_streams m s with
  | None => [RErr EStreamNotFound]
  | Some [] => [RErr EStreamNotFound]
  | Some ids => records_by_ids m (from_ssn k) None true 0 ids
  end.

(** inmemory_store.go:301-342 [saveEvent]. The counter is incremented before the
    record is serialized. *)
Definition mem_save_event (m : mem) (s : string) (expected : option N) (e : event)
  : mem * (err + string * record) :=
  let ssn := mem_stream_number m s in
  match (match expected with
         | Some x => if x =? ssn then None else Some (EUnexpectedSeq x ssn)
         | None => None end) with
  | Some er => (m, inl er)                                             (* 308-313 *)
  | None =>
      let g := m_last m + 1 in                                         (* 315-316 *)
      let r := mk_record s (ev_atype e) (ev_aid e) g (ssn + 1) (ev_now e) (ev_uuid e)
                 (ev_type e) (ev_data e) (ev_meta e) in                (* 318-329 *)
      match ser c r with
      | None => (mk_mem g (m_records m) (m_streams m) (m_types m) (m_data m) (m_locked m), inl ESerialize)
      | Some d =>
          (mk_mem g (m_records m ++ [g])
             (fset s (Some (ids_of_stream m s ++ [g])) (m_streams m))
             (aset (ev_atype e) (aget (ev_atype e) (m_types m) ++ [g]) (m_types m))
             (nset g (Some d) (m_data m)) (m_locked m), inr (d, r))    (* 336-341 *)
      end
  end.

(** inmemory_store.go:359-361 [rTrimFromUint64Slice]; [None] = slice bounds panic. *)
Definition rtrim (l : list N) (total : nat) : option (list N) :=
  if Nat.leb total (length l) then Some (firstn (length l - total) l) else None.

(** inmemory_store.go:344-357 [removeRecentEvents]: note that the stream trimmed is
    the one named after the aggregate, not the one written to.  [None] = panic. *)
Definition remove_recent (m : mem) (created : list N) (atype aid : string) : option mem :=
  let stream := get_stream atype aid in
  let total := length created in
  match rtrim (m_records m) total, rtrim (ids_of_stream m stream) total, rtrim (aget atype (m_types m)) total with
  | Some rs, Some ss, Some ts =>
      Some (mk_mem (m_last m - N.of_nat total) rs (fset stream (Some ss) (m_streams m))
              (aset atype ts (m_types m))
              (fold_left (fun d g => nset g None d) created (m_data m)) (m_locked m))
  | _, _, _ => None
  end.

Definition lock_forever (m : mem) : mem :=
  mk_mem (m_last m) (m_records m) (m_streams m) (m_types m) (m_data m) true.

(** Outcome of the loop of saveEvents. *)
Inductive save_outcome :=
| SaveOk (last : N) (pending : list string)
| SaveErr (e : err)
| SavePanic.

(** inmemory_store.go:238-285: the loop of [saveEvents].  [at_],[ai]: the running
    aggregateType/aggregateID variables; [created],[pending]: in order; [n]: index
    of the event. *)
Fixpoint mem_save_loop (m : mem) (s at_ ai : string) (expected : option N) (cn : option nat) (n : nat)
    (created : list N) (pending : list string) (last : N) (evs : list event) : mem * save_outcome :=
  match evs with
  | [] => (m, SaveOk last pending)
  | e :: rest =>
      if negb (String.eqb at_ "") && negb (String.eqb at_ (ev_atype e)) then (m, SaveErr EUnmatchedType)   (* 239-242 *)
      else if negb (String.eqb ai "") && negb (String.eqb ai (ev_aid e)) then (m, SaveErr EUnmatchedID)     (* 244-247 *)
      else if done_at cn n then (m, SaveErr ECanceled)                                                       (* 252-258 *)
      else
        match mem_save_event m s expected e with
        | (m1, inl er) =>                                                                                   (* 270-274 *)
            match remove_recent m1 created (ev_atype e) (ev_aid e) with
            | Some m2 => (m2, SaveErr er)
            | None => (m1, SavePanic)
            end
        | (m1, inr (d, r)) =>                                                                               (* 276-284 *)
            mem_save_loop m1 s (ev_atype e) (ev_aid e)
              (match expected with Some x => Some (x + 1) | None => None end) cn (S n)
              (created ++ [r_gsn r]) (pending ++ [d]) (r_ssn r) rest
        end
  end.

(** inmemory_store.go:288-295: records that decode are handed to the broadcaster. *)
Fixpoint decoded (ds : list string) : list record :=
  match ds with
  | [] => []
  | d :: rest => match deser c d with Some r => r :: decoded rest | None => decoded rest end
  end.

(** inmemory_store.go:217-298 [OptimisticSave], [Save], [saveEvents]. *)
Definition mem_save (m : mem) (expected : option N) (s : string) (evs : list event) (cn : option nat) : mem * out :=
  match evs with
  | [] => (m, OutFailed EMissingEvents)
  | _ =>
      match mem_save_loop m s "" "" expected cn 0 [] [] 0 evs with
      | (m1, SaveOk last pending) => (m1, OutSaved last (decoded pending))
      | (m1, SaveErr e) => (m1, OutFailed e)
      | (m1, SavePanic) => (lock_forever m1, OutPanic)
      end
  end.

(** inmemory_store.go:192-197 and 200-204: [for i, v := range l { if v == x { l =
    RemoveIndex(l, i) } }] where RemoveIndex (213-215) shifts the shared backing
    array [a] in place, the range keeps the original length, and [len] is the
    current length of the slice.  [None] = slice bounds panic. *)
Fixpoint range_remove (x : N) (i todo : nat) (a : list N) (len : nat) : option (list N * nat) :=
  match todo with
  | O => Some (a, len)
  | S t =>
      match nth_error a i with
      | None => None
      | Some y =>
          if y =? x then
            if Nat.leb (i + 1) len
            then range_remove x (S i) t
                   (firstn i a ++ firstn (len - (i + 1)) (skipn (i + 1) a) ++ skipn (len - 1) a) (len - 1)
            else None
          else range_remove x (S i) t a len
      end
  end.
Definition remove_in_place (x : N) (l : list N) : option (list N) :=
  match range_remove x 0 (length l) l (length l) with
  | Some (a, len) => Some (firstn len a)
  | None => None
  end.

Fixpoint remove_from_types (x : N) (m : amap) : option amap :=
  match m with
  | [] => Some []
  | (t, l) :: rest =>
      match remove_in_place x l, remove_from_types x rest with
      | Some l', Some rest' => Some ((t, l') :: rest')
      | _, _ => None
      end
  end.

(** inmemory_store.go:191-206: the loop over the stream's numbers. *)
Fixpoint delete_loop (m : mem) (ids : list N) : option mem :=
  match ids with
  | [] => Some m
  | x :: rest =>
      match remove_in_place x (m_records m), remove_from_types x (m_types m) with
      | Some rs, Some ts =>
          delete_loop (mk_mem (m_last m) rs (m_streams m) ts
                         (if existsb (N.eqb x) (m_records m) then nset x None (m_data m) else m_data m)
                         (m_locked m)) rest
      | _, _ => None
      end
  end.

(** inmemory_store.go:168-211 [OptimisticDeleteStream].  Simplification: a panic
    inside the removal loops leaves the slices half updated; we do not follow the
    store after that and treat it as unusable ([lock_forever]). *)
Definition mem_delete (m : mem) (expected : N) (s : string) (cn : option nat) : mem * out :=
  if done_at cn 0 then (m, OutFailed ECanceled)
  else
    match m_streams m s with
    | None => (m, OutFailed EStreamNotFound)
    | Some ids =>
        let cur := mem_stream_number m s in
        if negb (expected =? cur) then (m, OutFailed (EUnexpectedSeq expected cur))
        else match delete_loop m ids with
             | None => (lock_forever m, OutPanic)
             | Some m1 => (mk_mem (m_last m1) (m_records m1) (fset s None (m_streams m1)) (m_types m1)
                             (m_data m1) (m_locked m1), OutDeleted)
             end
    end.

(** inmemory_store.go:384-395 [TotalEventsInStream]. *)
Definition mem_total (m : mem) (s : string) (cn : option nat) : out :=
  if done_at cn 0 then OutFailed ECanceled else OutTotal (mem_stream_number m s).

(** One call.  With the mutex stuck every call that needs it blocks; the
    cancellation and empty-batch checks come first (171-174, 227-229, 385-390). *)
Definition mem_step (m : mem) (o : op) : mem * out :=
  match o with
  | OpSave ex s evs cn =>
      match evs with
      | [] => (m, OutFailed EMissingEvents)
      | _ => if m_locked m then (m, OutBlocked) else mem_save m ex s evs cn
      end
  | OpDelete ex s cn =>
      if done_at cn 0 then (m, OutFailed ECanceled)
      else if m_locked m then (m, OutBlocked) else mem_delete m ex s cn
  | OpEvents g => if m_locked m then (m, OutBlocked) else (m, OutResults (mem_events m g))
  | OpByTypes g ts =>
      if m_locked m && negb (Nat.eqb (length ts) 0) then (m, OutBlocked)
      else match mem_by_types m g ts with
           | Some l => (m, OutResults l)
           | None => (m, OutPanic)
           end
  | OpByStream k s => if m_locked m then (m, OutBlocked) else (m, OutResults (mem_by_stream m k s))
  | OpTotal s cn =>
      if done_at cn 0 then (m, OutFailed ECanceled)
      else if m_locked m then (m, OutBlocked) else (m, mem_total m s cn)
  end.

End WithCodec.
