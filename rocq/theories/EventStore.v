(** provider/eventstore: the store as concurrent clients of one EventStoreDB server.

    What is assumed of EventStoreDB and its Go client (trusted base, see DESIGN.md):
    one server log in which every appended event gets the next revision of its stream
    (from 0) and a strictly greater commit position; AppendToStream is atomic, without
    an expected revision (Any) always accepted, with one accepted iff it is the
    revision of the last event; TombstoneStream likewise; a tombstoned stream takes no
    further events for ever and reading it fails, but its events stay in $all until a
    scavenge (not modelled); a read shows the server at one moment. *)
From Verif Require Import Base Locks Postgres.

(** An event on the server.  [en_rec]: UserMetadata parsed as ESDBMetadata
    (eventstore.go:34-46) together with the data text; [None] if it is no such JSON
    (events of other applications).  The two sequence numbers in it are unused. *)
Record entry := mk_entry {
  en_stream : string;
  en_num    : N;
  en_commit : N;
  en_type   : string;
  en_rec    : option record
}.

Section EventStore.
Variable j : jlib.
Variable prefix : option string.       (* StreamPrefixer, 48-52: WithPrefix name = GetPrefix ++ name *)
Variable recdel : bool.                (* RecordDeletedStreams, 118-124 *)

(** ** Pure parts *)

(** 173-179 *)
Definition server_name (s : string) : string := match prefix with Some p => (p ++ s)%string | None => s end.
(** 711-713 *)
Definition internal (e : entry) : bool := String.prefix "$" (en_type e).
(** 715-725 *)
Definition current (e : entry) : bool := match prefix with Some p => String.prefix p (en_stream e) | None => true end.
(** 507-517 *)
Definition zero_based (n : N) : N := if n <? 1 then 0 else n - 1.
Definition one_based (n : N) : N := n + 1.

(** 758-794 recordFromLinkedEvent *)
Definition record_from (e : entry) : option record :=
  match en_rec e with
  | None => None
  | Some r =>
      match j_decode j (r_etype r) (r_data r) with
      | None => None
      | Some d => Some (mk_record (r_stream r) (r_atype r) (r_aid r) (en_commit e) (one_based (en_num e))
                                  (r_ts r) (r_eid r) (r_etype r) d (r_meta r))
      end
  end.

(** 632-680: the events of a batch; an empty type or ID of the previous event
    matches everything. *)
Fixpoint propose (s t i : string) (evs : list event) : err + list record :=
  match evs with
  | [] => inr []
  | e :: rest =>
      if negb (String.eqb t "") && negb (String.eqb t (ev_atype e)) then inl EUnmatchedType
      else if negb (String.eqb i "") && negb (String.eqb i (ev_aid e)) then inl EUnmatchedID
      else match j_meta j e, j_data j e with
           | Some m, Some d =>
               match propose s (ev_atype e) (ev_aid e) rest with
               | inl er => inl er
               | inr rs => inr (mk_record s (ev_atype e) (ev_aid e) 0 0 (ev_now e) (ev_uuid e) (ev_type e) d m :: rs)
               end
           | _, _ => inl ESerialize
           end
  end.

(** ** The server *)
Definition events_of (sn : string) (log : list entry) : list entry := filter (fun e => String.eqb (en_stream e) sn) log.
Definition revisions (sn : string) (log : list entry) : N := N.of_nat (length (events_of sn log)).
Definition last_commit (log : list entry) : N := fold_left (fun _ e => en_commit e) log 0.

(** The events of one append: [gaps] are the unused positions before each. *)
Fixpoint place (sn : string) (n c : N) (gaps : list N) (rs : list record) : list entry :=
  match rs with
  | [] => []
  | r :: rest =>
      let c' := c + 1 + hd 0 gaps in
      mk_entry sn n c' (r_etype r) (Some r) :: place sn (n + 1) c' (tl gaps) rest
  end.

(** ** Reading *)

(** The receive loop of EventsByStream, 423-503; [total]: records sent so far. *)
Fixpoint stream_loop (s : string) (n : N) (total : nat) (es : list entry) : list result :=
  match es with
  | [] => match total with O => [RErr EStreamNotFound] | _ => [] end
  | e :: rest =>
      if internal e then stream_loop s n total rest
      else if negb (current e) then stream_loop s n total rest
      else match record_from e with
           | None => [RErr EDeserialize]
           | Some r =>
               if negb (String.eqb (r_stream r) s) then stream_loop s n total rest
               else if r_ssn r <? n then stream_loop s n total rest
               else RRec r :: stream_loop s n (S total) rest
           end
  end.
(** 387-422 *)
Definition read_stream (log : list entry) (tomb : list string) (s : string) (n : N) : list result :=
  let sn := server_name s in
  if memb sn tomb then [RErr EStreamNotFound]
  else match events_of sn log with
       | [] => [RErr EStreamNotFound]
       | es => stream_loop s n 0 (filter (fun e => zero_based n <=? en_num e) es)
       end.

(** 185-288 (Events) *)
Fixpoint all_loop (del : list string) (es : list entry) : list result :=
  match es with
  | [] => []
  | e :: rest =>
      if internal e then all_loop del rest
      else if negb (current e) then all_loop del rest
      else if recdel && memb (en_stream e) del then all_loop del rest
      else match record_from e with
           | None => [RErr EDeserialize]
           | Some r => RRec r :: all_loop del rest
           end
  end.
Definition read_all (log : list entry) (del : list string) (g : N) : list result :=
  all_loop del (filter (fun e => g <=? en_commit e) log).

(** 290-385 (EventsByAggregateTypes): a record that cannot be decoded ends the
    iteration before its type is looked at. *)
Fixpoint types_loop (ts : list string) (g : N) (del : list string) (es : list entry) : list result :=
  match es with
  | [] => []
  | e :: rest =>
      if internal e then types_loop ts g del rest
      else if negb (current e) then types_loop ts g del rest
      else if recdel && memb (en_stream e) del then types_loop ts g del rest
      else match record_from e with
           | None => [RErr EDeserialize]
           | Some r =>
               if negb (memb (r_atype r) ts) then types_loop ts g del rest
               else if r_gsn r <? g then types_loop ts g del rest
               else RRec r :: types_loop ts g del rest
           end
  end.
Definition read_types (log : list entry) (del : list string) (g : N) (ts : list string) : list result :=
  types_loop ts g del (filter (fun e => g <=? en_commit e) log).

(** The connection breaks after [n] results. *)
Fixpoint cut (n : nat) (l : list result) : list result :=
  match n, l with
  | O, _ | _, [] => [RErr EDatabase]
  | S _, RErr e :: _ => [RErr e]
  | S n', x :: rest => x :: cut n' rest
  end.

(** 739-756 getStreamSequenceNumber *)
Fixpoint seq_of (last : N) (l : list result) : err + N :=
  match l with
  | [] => inr last
  | RErr e :: _ => inl e
  | RRec r :: rest => seq_of (r_ssn r) rest
  end.
(** 603-611: an error ends the count and is forgotten. *)
Fixpoint total_of (l : list result) : N :=
  match l with RRec _ :: rest => 1 + total_of rest | _ => 0 end.

(** ** Calls *)
Inductive espc :=
| XNew
| XAppend (rs : list record)     (* check passed; before AppendToStream, 690 *)
| XActual                        (* tombstone refused for its revision; before 538 *)
| XMark                          (* tombstoned; before 556-561 *)
| XDone.
Record escall := mk_escall { es_op : op; es_pc : espc }.

Record esconf := mk_es {
  x_log   : list entry;          (* server: $all *)
  x_tomb  : list string;         (* server: tombstoned streams *)
  x_del   : list string;         (* process: deletedStreams *)
  x_sub   : option nat;          (* process: position of startSubscription in $all; [None]: it has stopped *)
  x_calls : list escall;
  x_hist  : list act;
  x_bcast : list record          (* given to the broadcaster of this process *)
}.
Definition es_start : esconf := mk_es [] [] [] (Some O) [] [] [].

Inductive xlabel :=
| XInvoke (o : op)
| XStep (i : nat) (gaps : list N)                                     (* the next request of call [i] *)
| XFail (i : nat) (n : nat)                                           (* ... fails, a read after [n] results *)
| XLost (i : nat) (gaps : list N)                                     (* ... is executed, its answer is lost *)
| XDeliver                                                            (* the subscription receives the next event *)
| XDropped                                                            (* the subscription is dropped *)
| XForeign (sn ty : string) (r : option record) (gap : N)             (* another application, or the server, writes *)
| XRestart.                                                           (* the process is replaced by a new one *)

Definition set_xcall (i : nat) (o : op) (p : espc) (k : esconf) : esconf :=
  mk_es (x_log k) (x_tomb k) (x_del k) (x_sub k) (upd i (mk_escall o p) (x_calls k)) (x_hist k) (x_bcast k).
Definition xreply (i : nat) (o : op) (x : out) (k : esconf) : esconf :=
  mk_es (x_log k) (x_tomb k) (x_del k) (x_sub k) (upd i (mk_escall o XDone) (x_calls k)) (x_hist k ++ [Ret i x]) (x_bcast k).
Definition set_log (l : list entry) (k : esconf) : esconf :=
  mk_es l (x_tomb k) (x_del k) (x_sub k) (x_calls k) (x_hist k) (x_bcast k).
Definition add_tomb (sn : string) (k : esconf) : esconf :=
  mk_es (x_log k) (sn :: x_tomb k) (x_del k) (x_sub k) (x_calls k) (x_hist k) (x_bcast k).
Definition add_del (sn : string) (k : esconf) : esconf :=
  mk_es (x_log k) (x_tomb k) (sn :: x_del k) (x_sub k) (x_calls k) (x_hist k) (x_bcast k).

(** 622-630: [n] is the number the check found; 632-680 follow without a request. *)
Definition after_check (i : nat) (o : op) (ex : option N) (s : string) (evs : list event) (n : N) (k : esconf) : esconf :=
  match (match ex with Some x => if x =? n then None else Some (EUnexpectedSeq x n) | None => None end) with
  | Some e => xreply i o (OutFailed e) k
  | None =>
      match propose s (match evs with e :: _ => ev_atype e | [] => "" end) (match evs with e :: _ => ev_aid e | [] => "" end) evs with
      | inl e => xreply i o (OutFailed e) k
      | inr rs => set_xcall i o (XAppend rs) k
      end
  end.

(** 682-707: expected 0 is sent as Any. *)
Definition append_accepted (k : esconf) (ex : option N) (s : string) : bool :=
  match ex with
  | Some x => if 0 <? x then revisions (server_name s) (x_log k) =? zero_based x + 1 else true
  | None => true
  end.
Definition appended_log (k : esconf) (s : string) (gaps : list N) (rs : list record) : list entry :=
  let sn := server_name s in
  x_log k ++ place sn (revisions sn (x_log k)) (last_commit (x_log k)) gaps rs.

Definition es_step (k : esconf) (i : nat) (o : op) (p : espc) (gaps : list N) : option esconf :=
  match p, o with
  | XNew, OpSave _ _ [] _ => Some (xreply i o (OutFailed EMissingEvents) k)                      (* 615-617 *)
  | XNew, OpSave ex s evs cn =>                                                                 (* 623: the error is dropped *)
      let n := if done_at cn 0 then 0
               else match seq_of 0 (read_stream (x_log k) (x_tomb k) s 0) with inl _ => 0 | inr n => n end in
      Some (after_check i o ex s evs n k)
  | XAppend rs, OpSave ex s evs cn =>                                                           (* 690-709 *)
      if done_at cn 1 then Some (xreply i o (OutFailed ECanceled) k)
      else if memb (server_name s) (x_tomb k) then Some (xreply i o (OutFailed EDatabase) k)
      else if append_accepted k ex s then
        let n := revisions (server_name s) (x_log k) + N.of_nat (length rs) - 1 in              (* NextExpectedVersion *)
        Some (xreply i o (OutSaved (one_based n) []) (set_log (appended_log k s gaps rs) k))
      else Some (xreply i o (OutFailed (EUnexpectedSeq (match ex with Some x => x | None => 0 end) 0)) k)
  | XNew, OpDelete ex s cn =>                                                                   (* 519-554 *)
      let sn := server_name s in
      if done_at cn 0 then Some (xreply i o (OutFailed ECanceled) k)
      else if memb sn (x_tomb k) then Some (xreply i o (OutFailed EStreamNotFound) k)
      else if revisions sn (x_log k) =? zero_based ex + 1
      then (if recdel then Some (set_xcall i o XMark (add_tomb sn k)) else Some (xreply i o OutDeleted (add_tomb sn k)))
      else Some (set_xcall i o XActual k)
  | XMark, OpDelete _ s _ => Some (xreply i o OutDeleted (add_del (server_name s) k))           (* 556-564 *)
  | XActual, OpDelete ex s cn =>                                                                (* 538-546 *)
      match seq_of 0 (if done_at cn 1 then [RErr ECanceled] else read_stream (x_log k) (x_tomb k) s 0) with
      | inl e => Some (xreply i o (OutFailed e) k)
      | inr n => Some (xreply i o (OutFailed (EUnexpectedSeq ex n)) k)
      end
  | XNew, OpEvents g => Some (xreply i o (OutResults (read_all (x_log k) (x_del k) g)) k)
  | XNew, OpByTypes g ts => Some (xreply i o (OutResults (read_types (x_log k) (x_del k) g ts)) k)
  | XNew, OpByStream n s => Some (xreply i o (OutResults (read_stream (x_log k) (x_tomb k) s n)) k)
  | XNew, OpTotal s cn =>                                                                       (* 595-612 *)
      Some (xreply i o (if done_at cn 0 then OutFailed ECanceled else OutTotal (total_of (read_stream (x_log k) (x_tomb k) s 0))) k)
  | _, _ => None
  end.

(** 547-551, 700-704: a request fails while its answer is awaited.  A context done by then
    ([n]: the number of the request) is reported as context.Canceled. *)
Definition broken (cn : option nat) (n : nat) : err := if done_at cn (S n) then ECanceled else EDatabase.

Definition es_fail (k : esconf) (i : nat) (o : op) (p : espc) (n : nat) : option esconf :=
  match p, o with
  | XNew, OpSave (Some x) s (e :: evs) cn => Some (after_check i o (Some x) s (e :: evs) 0 k)
  | XAppend _, OpSave _ _ _ cn => Some (xreply i o (OutFailed (broken cn 1)) k)
  | XNew, OpDelete _ _ cn => Some (xreply i o (OutFailed (broken cn 0)) k)
  | XActual, OpDelete _ _ cn => Some (xreply i o (OutFailed (broken cn 1)) k)
  | XNew, OpEvents g => Some (xreply i o (OutResults (cut n (read_all (x_log k) (x_del k) g))) k)
  | XNew, OpByTypes g ts => Some (xreply i o (OutResults (cut n (read_types (x_log k) (x_del k) g ts))) k)
  | XNew, OpByStream m s => Some (xreply i o (OutResults (cut n (read_stream (x_log k) (x_tomb k) s m))) k)
  | XNew, OpTotal s _ => Some (xreply i o (OutTotal (total_of (cut n (read_stream (x_log k) (x_tomb k) s 0)))) k)
  | _, _ => None
  end.

(** A context done before the request is not looked at here: the model lets more happen
    than the client, which does not send such a request. *)
Definition es_lost (k : esconf) (i : nat) (o : op) (p : espc) (gaps : list N) : option esconf :=
  match p, o with
  | XAppend rs, OpSave ex s _ cn =>
      if memb (server_name s) (x_tomb k) then None
      else if append_accepted k ex s then Some (xreply i o (OutFailed (broken cn 1)) (set_log (appended_log k s gaps rs) k))
      else None
  | XNew, OpDelete ex s cn =>
      if memb (server_name s) (x_tomb k) then None
      else if revisions (server_name s) (x_log k) =? zero_based ex + 1
      then Some (xreply i o (OutFailed (broken cn 0)) (add_tomb (server_name s) k))
      else None
  | _, _ => None
  end.

(** 796-863 startSubscription.  After a drop, Recv returns without an event for ever
    and the loop spins (the [err] it looks at is that of SubscribeToAll). *)
Definition es_deliver (k : esconf) : option esconf :=
  match x_sub k with
  | None => None
  | Some p =>
      match nth_error (x_log k) p with
      | None => None
      | Some e =>
          let at_ q bc := mk_es (x_log k) (x_tomb k) (x_del k) q (x_calls k) (x_hist k) bc in
          if internal e then Some (at_ (Some (S p)) (x_bcast k))
          else if negb (current e) then Some (at_ (Some (S p)) (x_bcast k))
          else match record_from e with
               | None => Some (at_ None (x_bcast k))
               | Some r => Some (at_ (Some (S p)) (x_bcast k ++ [r]))
               end
      end
  end.

Definition xstep (k : esconf) (lb : xlabel) : option esconf :=
  match lb with
  | XInvoke o => Some (mk_es (x_log k) (x_tomb k) (x_del k) (x_sub k) (x_calls k ++ [mk_escall o XNew])
                         (x_hist k ++ [Inv (length (x_calls k)) o]) (x_bcast k))
  | XStep i gaps => match nth_error (x_calls k) i with Some c => es_step k i (es_op c) (es_pc c) gaps | None => None end
  | XFail i n => match nth_error (x_calls k) i with Some c => es_fail k i (es_op c) (es_pc c) n | None => None end
  | XLost i gaps => match nth_error (x_calls k) i with Some c => es_lost k i (es_op c) (es_pc c) gaps | None => None end
  | XDeliver => es_deliver k
  | XDropped => Some (mk_es (x_log k) (x_tomb k) (x_del k) None (x_calls k) (x_hist k) (x_bcast k))
  | XForeign sn ty r gap =>
      if memb sn (x_tomb k) then None
      else Some (set_log (x_log k ++ [mk_entry sn (revisions sn (x_log k)) (last_commit (x_log k) + 1 + gap) ty r]) k)
  | XRestart =>
      Some (mk_es (x_log k) (x_tomb k) [] (Some O) (map (fun c => mk_escall (es_op c) XDone) (x_calls k)) (x_hist k) [])
  end.

Fixpoint xrun (k : esconf) (ls : list xlabel) : option esconf :=
  match ls with
  | [] => Some k
  | lb :: rest => match xstep k lb with Some k' => xrun k' rest | None => None end
  end.

End EventStore.
