(** Model of the root package: record iterator, merge, stream names,
    ReadNRecords, PublishRecordOrCancel. *)
From Verif Require Import Base.

(** * Record iterator *)

(** record_iterator.go:7-15.  [it_chan] is what is still to come on the channel;
    every producer in the repository closes its channel when it is finished
    ([defer close]), so an empty list is a closed channel.  [it_rec], [it_err]
    are the two fields of [current]. *)
Record iter := mk_iter { it_chan : list result; it_rec : option record; it_err : option err }.

(** record_iterator.go:12-15 [NewRecordIterator]. *)
Definition new_iter (l : list result) : iter := mk_iter l None None.

(** record_iterator.go:52-57 [NewRecordIteratorWithError]. *)
Definition iter_with_error (e : err) : iter := new_iter [RErr e].

(** record_iterator.go:17-25 [Next].  Receiving from a closed channel gives the
    zero value: nil record, nil error. *)
Definition next (it : iter) : iter * bool :=
  match it_err it with
  | Some _ => (it, false)
  | None =>
      match it_chan it with
      | [] => (mk_iter [] None None, false)
      | RRec r :: rest => (mk_iter rest (Some r) None, true)
      | RErr e :: rest => (mk_iter rest None (Some e), false)
      end
  end.

(** record_iterator.go:27-42 [NextContext].  [chan_first] says which ready branch
    the [select] takes; [ctx_done] whether the context is done.  The channel is
    always ready (something to receive or closed), so the context branch is only
    taken if [ctx_done]. *)
Definition next_context (ctx_done chan_first : bool) (it : iter) : iter * bool :=
  match it_err it with
  | Some _ => (it, false)
  | None =>
      if ctx_done && negb chan_first
      then (mk_iter (it_chan it) None (Some ECanceled), false)
      else next it
  end.

(** The consumer loop [for it.Next() { use(it.Record()) }], at most [fuel] rounds;
    [None] if it did not end within [fuel] calls of Next. *)
Fixpoint consume (fuel : nat) (it : iter) : option (list record * iter) :=
  match fuel with
  | O => None
  | S f =>
      let '(it1, ok) := next it in
      if ok then
        match it_rec it1, consume f it1 with
        | Some r, Some (rs, it2) => Some (r :: rs, it2)
        | _, _ => None
        end
      else Some ([], it1)
  end.

(** * Merge *)

(** merge_record_iterators.go:3-6 [pipe]: an iterator and its current record.
    Pipes kept in the list always hold a record (lines 33-37, 48-50, 58-60). *)
Definition pipe := (iter * record)%type.

(** merge_record_iterators.go:12-19 [ReadNext]: the result of Next is ignored,
    the pipe survives iff Record() is non-nil. *)
Definition read_next (it : iter) : option pipe :=
  let it1 := fst (next it) in
  match it_rec it1 with
  | Some r => Some (it1, r)
  | None => None
  end.

Definition p_gsn (p : pipe) : N := r_gsn (snd p).

(** merge_record_iterators.go:75-85 [getIndexWithSmallestGlobalSequenceNumber]:
    first index with the smallest number. *)
Fixpoint smallest_from (best : nat) (min : N) (i : nat) (ps : list pipe) : nat :=
  match ps with
  | [] => best
  | p :: rest => if p_gsn p <? min then smallest_from i (p_gsn p) (S i) rest
                 else smallest_from best min (S i) rest
  end.
Definition smallest (ps : list pipe) : nat :=
  match ps with
  | [] => O
  | p :: _ => smallest_from 0 (p_gsn p) 0 ps
  end.

(** Replace element [i] of a slice. *)
Fixpoint set_nth {A} (i : nat) (x : A) (l : list A) : list A :=
  match l, i with
  | [], _ => []
  | _ :: t, O => x :: t
  | a :: t, S j => a :: set_nth j x t
  end.

(** merge_record_iterators.go:70-73 [remove]: the last element takes slot [i]. *)
Definition remove_pipe (i : nat) (ps : list pipe) : list pipe :=
  match ps with
  | [] => []
  | p :: _ => removelast (set_nth i (last ps p) ps)
  end.

(** Program points of the loop, merge_record_iterators.go:42-66: at the top of the
    outer loop, or at the head of the inner loop for pipe [i]. *)
Inductive mpoint := MOuter | MInner (i : nat) (pos : N).

(** One iteration of either loop.  [None]: the outer loop ended. Otherwise the new
    pipes, the record sent (if any) and the next program point.  ([pos+1] is not
    wrapped: [pos] is the number of an existing record and the next one is larger.) *)
Definition merge_step (ps : list pipe) (m : mpoint) : option (list pipe * option record * mpoint) :=
  match m with
  | MOuter =>
      match nth_error ps (smallest ps) with
      | None => None
      | Some (it, r) =>
          match read_next it with
          | None => Some (remove_pipe (smallest ps) ps, Some r, MOuter)
          | Some p => Some (set_nth (smallest ps) p ps, Some r, MInner (smallest ps) (r_gsn r))
          end
      end
  | MInner i pos =>
      match nth_error ps i with
      | None => None
      | Some (it, r) =>
          if r_gsn r =? pos + 1 then
            match read_next it with
            | None => Some (remove_pipe i ps, Some r, MOuter)
            | Some p => Some (set_nth i p ps, Some r, MInner i (r_gsn r))
            end
          else Some (ps, None, MOuter)
      end
  end.

(** Iterate; outer [None] = out of fuel. *)
Fixpoint merge_loop (fuel : nat) (ps : list pipe) (m : mpoint) : option (list record) :=
  match fuel with
  | O => None
  | S f =>
      match merge_step ps m with
      | None => Some []
      | Some (ps1, sent, m1) =>
          match merge_loop f ps1 m1 with
          | None => None
          | Some rs => Some (match sent with Some r => r :: rs | None => rs end)
          end
      end
  end.

(** merge_record_iterators.go:31-38: prime the pipes. *)
Fixpoint prime (its : list iter) : list pipe :=
  match its with
  | [] => []
  | it :: rest => match read_next it with
                  | Some p => p :: prime rest
                  | None => prime rest
                  end
  end.

Definition merge_fuel (its : list iter) : nat :=
  S (2 * fold_right (fun it n => length (it_chan it) + n)%nat O its).

(** merge_record_iterators.go:26-68 [MergeRecordIteratorsInOrder]: the channel
    content of the merged iterator.  Only records with nil errors are ever sent.
    [None] = the fuel did not suffice (excluded by [merge_correct]). *)
Definition merge_results (its : list iter) : option (list result) :=
  match merge_loop (merge_fuel its) (prime its) MOuter with
  | Some rs => Some (map RRec rs)
  | None => None
  end.

(** * Stream names *)

(** store.go:129-131 [GetStream]. *)
Definition get_stream (t i : string) : string := (t ++ "!" ++ i)%string.

(** strings.Split with a one-byte separator: never empty. *)
Fixpoint split_on (sep : ascii) (s : string) : list string :=
  match s with
  | EmptyString => [""]
  | String a rest =>
      if Ascii.eqb a sep then "" :: split_on sep rest
      else match split_on sep rest with
           | [] => [String a ""]
           | p :: ps => String a p :: ps
           end
  end.

(** store.go:134-137 [ParseStream]; [None] is the index-out-of-range panic. *)
Definition parse_stream (s : string) : option (string * string) :=
  match split_on "!" s with
  | p0 :: p1 :: _ => Some (p0, p1)
  | _ => None
  end.

(** * ReadNRecords *)

(** store.go:145-155: the collecting loop.  [None] = out of fuel. *)
Fixpoint read_n_loop (fuel : nat) (total cnt : N) (it : iter) : option (list record * iter) :=
  match fuel with
  | O => None
  | S f =>
      let '(it1, ok) := next it in
      if ok then
        match it_err it1 with
        | Some _ => Some ([], it1)                        (* 146-148 *)
        | None =>
            if total <? cnt + 1 then Some ([], it1)       (* 149-152 *)
            else match it_rec it1, read_n_loop f total (cnt + 1) it1 with
                 | Some r, Some (rs, it2) => Some (r :: rs, it2)
                 | _, _ => None
                 end
        end
      else Some ([], it1)
  end.

(** store.go:140-162 [ReadNRecords] (the context cancellation [done()] before the
    draining loop may cut what is left short; here everything left is drained). *)
Definition read_n_records (total : N) (it : iter) : option (list record * iter) :=
  let fuel := S (length (it_chan it)) in
  match read_n_loop fuel total 0 it with
  | None => None
  | Some (rs, it1) =>
      match consume fuel it1 with
      | None => None
      | Some (_, it2) => Some (rs, it2)
      end
  end.

(** * PublishRecordOrCancel *)

(** publish_record.go:9-33.  [done] : the context is done when asked (either
    select); [consumer] : the consumer takes the error within the timeout. Returns
    what reaches the channel and whether the producer goes on. *)
Definition publish (done consumer : bool) (r : record) : list result * bool :=
  if done then (if consumer then [RErr ECanceled] else [], false)
  else ([RRec r], true).

(** A producer loop over records, each published in turn until one is refused
    (inmemory_store.go:157-161, leveldb_store.go:388-394, 436-442). *)
Fixpoint publish_all (cn : option nat) (consumer : bool) (k : nat) (rs : list record) : list result :=
  match rs with
  | [] => []
  | r :: rest =>
      let '(sent, go) := publish (done_at cn k) consumer r in
      if go then sent ++ publish_all cn consumer (S k) rest else sent
  end.
