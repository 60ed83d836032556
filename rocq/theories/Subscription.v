(** Model of pkg/recordsubscriber together with the store and the broadcaster it
    is wired to: a machine whose steps may be scheduled in any order. *)
From Coq Require Import PeanoNat.
From Verif Require Import Base LogSpec Core CoreSpec Broadcaster.

(** * Reading the existing records *)

(** What [writeRecords] returns. *)
Inductive wrote := WOk | WIterErr (e : err) | WConsumerErr.

(** record_subscriber.go:125-144 [writeRecords], [writeRecord]: the records handed to
    consumeRecord and the returned error; [None] = out of fuel. *)
Fixpoint write_records (fuel : nat) (it : iter) (accepts : record -> bool) : option (list record * wrote) :=
  match fuel with
  | O => None
  | S f =>
      let '(it1, ok) := next it in
      if ok then
        match it_err it1 with
        | Some e => Some ([], WIterErr e)                            (* 128-130 *)
        | None =>
            match it_rec it1 with
            | None => None
            | Some r =>
                if accepts r then
                  match write_records f it1 accepts with
                  | Some (rs, w) => Some (r :: rs, w)
                  | None => None
                  end
                else Some ([r], WConsumerErr)                        (* 132-135 *)
            end
        end
      else Some ([], WOk)                                            (* 138 *)
  end.

(** * The machine *)

(** One query of the store: all events, or one aggregate type. *)
Definition query := option string.
Definition q_match (q : query) (r : record) : bool :=
  match q with None => true | Some t => String.eqb (r_atype r) t end.

Definition max64 : N := 18446744073709551615.
(** Go's [x + 1] on uint64. *)
Definition succ64 (x : N) : N := if x =? max64 then 0 else x + 1.

(** Where a subscription stands.
    [PFetch second from qs done]: inside [getRecords] (writeRecords, line 126), the
    queries [qs] still to be issued, [done] the channels already open. Several
    aggregate types are read one after the other, each under its own read lock
    (inmemory_store.go:107-111, leveldb_store.go:121-124 and 410).
    [PDeliver second rest]: in the loop of lines 127-136.
    [PSubscribe qs]: in [s.subscribe(s)], line 64 or 85 (one channel send each).
    [PLive]: the worker goroutine runs (72, 86).
    [PLeave qs fin]: in [s.unsubscribe(s)]; [fin]: line 95/100 follows.
    [PDone]: finishChan is closed.  [PGone]: over without closing it (110-111, or
    StartFrom returned an error).  [PCanceled]: Start returned Canceled (79-80). *)
Inductive phase :=
| PInit
| PFetch (second : bool) (from : N) (qs : list query) (done : list (list result))
| PDeliver (second : bool) (rest : list record)
| PSubscribe (qs : list query) (second : bool)
| PLive
| PLeave (qs : list query) (fin : bool)
| PDone
| PGone
| PCanceled.

(** record_subscriber.go:20-31.  [u_queries]: all events, or the aggregate types
    (config.go:20-54); [u_got]: the records handed to consumeRecord so far, oldest
    first; [u_locks]: read locks of the store held by its readers. *)
Record sub := mk_sub {
  u_queries : list query;
  u_cap     : nat;
  u_phase   : phase;
  u_last    : N;
  u_buf     : list record;
  u_got     : list record;
  u_stop    : bool;
  u_locks   : nat
}.

(** record_subscriber.go:33-47 [New]. *)
Definition new_sub (qs : list query) (cap : nat) : sub := mk_sub qs cap PInit 0 [] [] false 0.

(** Deliveries of one broadcast that are still to be made. *)
Inductive target := TAll (i : nat) | TType (i : nat).
Definition t_id (t : target) : nat := match t with TAll i => i | TType i => i end.
Definition t_eqb (a b : target) : bool :=
  match a, b with
  | TAll i, TAll j => Nat.eqb i j
  | TType i, TType j => Nat.eqb i j
  | _, _ => false
  end.
Definition is_all (t : target) : bool := match t with TAll _ => true | _ => false end.
Definition targets (r : record) (b : bcast) : list target :=
  map TAll (b_all b) ++ map TType (type_subs (r_atype r) b).

(** [y_pend]: saves that have committed and are still handing records to the
    broadcaster, one list each; [y_queue]: the broadcaster's buffered channel;
    [y_now]: the record being broadcast and the deliveries left; [y_open]: the
    goroutine of broadcaster.go:101 is running; [y_closing]: Close was called. *)
Record sys := mk_sys {
  y_log  : log;
  y_pend : list (list record);
  y_queue : list record;
  y_now  : option (record * list target);
  y_b    : bcast;
  y_open : bool;
  y_closing : bool;
  y_subs : list sub
}.

Definition sys_init (subs : list (list query * nat)) : sys :=
  mk_sys empty_log [] [] None b_new true false (map (fun p => new_sub (fst p) (snd p)) subs).

(** The two stores: LevelDB keeps its lock while it hands the records to the
    broadcaster (leveldb_store.go:212-270), the in-memory store has released it
    (inmemory_store.go:286-295).  [m_qcap]: broadcastRecordBuffSize.  [m_wait]: saves
    and deletions wait for readers (not for those behind a connection: there the store's
    part may be over while the reader still has records to come). *)
Record mode := mk_mode { m_locked : bool; m_qcap : nat; m_wait : bool }.
Definition leveldb_mode : mode := mk_mode true 100 true.
Definition inmemory_mode : mode := mk_mode false 100 true.

Inductive label :=
| YCommit (rs : list record)       (* a save commits these records *)
| YDelete (s : string)             (* a stream is deleted *)
| YAccept (k : nat)                (* the k-th broadcasting save: broadcaster.Accept *)
| YTake                            (* the broadcaster takes a record from its channel *)
| YSend (t : target)               (* ... and puts it into a subscriber's channel *)
| YTimeout (t : target)            (* ... or gives up on the subscriber *)
| YStart (i : nat)
| YStartFrom (i : nat) (g : N)
| YFetch (i : nat) (fail : option nat) (* one query; [Some k]: it fails after k records *)
| YDeliver (i : nat) (ok : bool)   (* catch-up: one more record; [ok]: consumeRecord's answer *)
| YSubscribe (i : nat)             (* the broadcaster takes a subscription *)
| YWork (i : nat) (ok : bool)      (* the worker takes a record from its buffer *)
| YStop (i : nat)                  (* Stop(), or the caller's context is cancelled *)
| YQuit (i : nat)                  (* the worker notices that *)
| YUnsubscribe (i : nat)           (* the broadcaster takes an unsubscription *)
| YClose                           (* broadcaster.Close() *)
| YShutdown.                       (* the broadcaster notices that *)

Definition set_sub (i : nat) (u : sub) (y : sys) : sys :=
  mk_sys (y_log y) (y_pend y) (y_queue y) (y_now y) (y_b y) (y_open y) (y_closing y) (set_nth i u (y_subs y)).
Definition set_b (b : bcast) (y : sys) : sys :=
  mk_sys (y_log y) (y_pend y) (y_queue y) (y_now y) b (y_open y) (y_closing y) (y_subs y).
Definition set_now (n : option (record * list target)) (y : sys) : sys :=
  mk_sys (y_log y) (y_pend y) (y_queue y) n (y_b y) (y_open y) (y_closing y) (y_subs y).

Definition with_phase (p : phase) (u : sub) : sub :=
  mk_sub (u_queries u) (u_cap u) p (u_last u) (u_buf u) (u_got u) (u_stop u) (u_locks u).
Definition with_last (n : N) (u : sub) : sub :=
  mk_sub (u_queries u) (u_cap u) (u_phase u) n (u_buf u) (u_got u) (u_stop u) (u_locks u).
Definition with_buf (l : list record) (u : sub) : sub :=
  mk_sub (u_queries u) (u_cap u) (u_phase u) (u_last u) l (u_got u) (u_stop u) (u_locks u).
Definition with_stop (u : sub) : sub :=
  mk_sub (u_queries u) (u_cap u) (u_phase u) (u_last u) (u_buf u) (u_got u) true (u_locks u).
Definition with_locks (n : nat) (u : sub) : sub :=
  mk_sub (u_queries u) (u_cap u) (u_phase u) (u_last u) (u_buf u) (u_got u) (u_stop u) n.

(** record_subscriber.go:141-144 [writeRecord]. *)
Definition hand (r : record) (u : sub) : sub :=
  mk_sub (u_queries u) (u_cap u) (u_phase u) (r_gsn r) (u_buf u) (u_got u ++ [r]) (u_stop u) (u_locks u).

(** Numbers strictly grow along the list, starting above [n]. *)
Fixpoint grows (n : N) (rs : list record) : bool :=
  match rs with
  | [] => true
  | r :: rest => (n <? r_gsn r) && grows (r_gsn r) rest
  end.

Definition commit_log (rs : list record) (L : log) : log :=
  mk_log (l_recs L ++ rs) (last (map r_gsn rs) (l_last L)).

(** What one query puts on its channel, reading the log as it is now. *)
Definition answer (L : log) (from : N) (q : query) (fail : option nat) : list result :=
  let rs := filter (fun r => (from <=? r_gsn r) && q_match q r) (l_recs L) in
  match fail with
  | None => map RRec rs
  | Some k => map RRec (firstn k rs) ++ [RErr EDeserialize]
  end.

(** The iterator StartFrom loops over: the single channel, or the merge. *)
Definition gathered (chans : list (list result)) : list record :=
  match chans with
  | [l] => before_error l
  | _ => match merge_results (map new_iter chans) with Some l => before_error l | None => [] end
  end.

Definition no_locks (subs : list sub) : bool := forallb (fun u => Nat.eqb (u_locks u) 0) subs.

(** Leaving the loop of [writeRecords] without error (line 138): all read locks are
    released; line 64 or 72 follows. *)
Definition loop_ended (second : bool) (u : sub) : sub :=
  with_locks 0 (with_phase (if second then PLive else PSubscribe (u_queries u) true) u).

Fixpoint drop_nth {A} (k : nat) (l : list A) : list A :=
  match l, k with
  | [], _ => []
  | _ :: t, O => t
  | a :: t, S j => a :: drop_nth j t
  end.

Definition register (q : query) (i : nat) (b : bcast) : bcast :=
  match q with None => add_all i b | Some t => add_type t i b end.
Definition unregister (q : query) (i : nat) (b : bcast) : bcast :=
  match q with None => del_all i b | Some t => del_type t i b end.

(** The broadcaster goroutine is in its select (broadcaster.go:103). *)
Definition idle (y : sys) : bool := y_open y && (match y_now y with None => true | _ => false end).

Definition remove_target (t : target) (l : list target) : list target :=
  filter (fun x => negb (t_eqb t x)) l.

(** The first map is served completely before the second (broadcaster.go:130-148). *)
Definition servable (t : target) (l : list target) : bool :=
  existsb (t_eqb t) l && (is_all t || negb (existsb is_all l)).

Definition stop_listed (i : nat) (y : sys) : sys :=
  match nth_error (y_subs y) i with
  | Some u => set_sub i (with_stop u) y
  | None => y
  end.

Definition ystep (m : mode) (y : sys) (l : label) : option sys :=
  match l with
  | YCommit rs =>
      (* the write lock: no reader, and for LevelDB no save still broadcasting *)
      if (negb (m_wait m) || no_locks (y_subs y)) && grows (l_last (y_log y)) rs && negb (Nat.eqb (length rs) 0)
         && (negb (m_locked m) || Nat.eqb (length (y_pend y)) 0)
      then Some (mk_sys (commit_log rs (y_log y)) (y_pend y ++ [rs]) (y_queue y) (y_now y) (y_b y)
                   (y_open y) (y_closing y) (y_subs y))
      else None
  | YDelete s =>
      if (negb (m_wait m) || no_locks (y_subs y)) && (negb (m_locked m) || Nat.eqb (length (y_pend y)) 0)
      then Some (mk_sys (remove_stream s (y_log y)) (y_pend y) (y_queue y) (y_now y) (y_b y)
                   (y_open y) (y_closing y) (y_subs y))
      else None
  | YAccept k =>
      (* broadcaster.go:68-70 *)
      match nth_error (y_pend y) k with
      | Some (r :: rest) =>
          if Nat.ltb (length (y_queue y)) (m_qcap m)
          then Some (mk_sys (y_log y)
                       (match rest with [] => drop_nth k (y_pend y) | _ => set_nth k rest (y_pend y) end)
                       (y_queue y ++ [r]) (y_now y) (y_b y) (y_open y) (y_closing y) (y_subs y))
          else None
      | _ => None
      end
  | YTake =>
      match y_queue y with
      | r :: rest =>
          if idle y
          then Some (mk_sys (y_log y) (y_pend y) rest
                       (match targets r (y_b y) with [] => None | ts => Some (r, ts) end)
                       (y_b y) (y_open y) (y_closing y) (y_subs y))
          else None
      | [] => None
      end
  | YSend t =>
      match y_now y, nth_error (y_subs y) (t_id t) with
      | Some (r, ts), Some u =>
          (* an unbuffered channel is modelled as one of capacity 1 *)
          if servable t ts && Nat.ltb (length (u_buf u)) (max 1 (u_cap u))
          then Some (set_now (match remove_target t ts with [] => None | ts' => Some (r, ts') end)
                       (set_sub (t_id t) (with_buf (u_buf u ++ [r]) u) y))
          else None
      | _, _ => None
      end
  | YTimeout t =>
      match y_now y, nth_error (y_subs y) (t_id t) with
      | Some (r, ts), Some u =>
          if servable t ts
          then Some (set_now (match remove_target t ts with [] => None | ts' => Some (r, ts') end)
                       (set_b (match t with TAll i => del_all i (y_b y) | TType i => del_type (r_atype r) i (y_b y) end)
                          (set_sub (t_id t) (with_stop u) y)))
          else None
      | _, _ => None
      end
  | YStart i =>
      (* record_subscriber.go:77-88 *)
      match nth_error (y_subs y) i with
      | Some u =>
          match u_phase u with
          | PInit => Some (set_sub i (with_phase (if u_stop u then PCanceled else PSubscribe (u_queries u) false) u) y)
          | _ => None
          end
      | None => None
      end
  | YStartFrom i g =>
      (* record_subscriber.go:57-59 *)
      match nth_error (y_subs y) i with
      | Some u =>
          match u_phase u with
          | PInit => Some (set_sub i (with_last g (with_phase (PFetch false g (u_queries u) []) u)) y)
          | _ => None
          end
      | None => None
      end
  | YFetch i fail =>
      match nth_error (y_subs y) i with
      | Some u =>
          match u_phase u with
          | PFetch second from [] chans =>
              Some (set_sub i (match gathered chans with
                               | [] => loop_ended second u
                               | rs => with_phase (PDeliver second rs) u
                               end) y)
          | PFetch second from (q :: qs) chans =>
              (* the read lock *)
              if negb (m_locked m) || Nat.eqb (length (y_pend y)) 0
              then let a := answer (y_log y) from q fail in
                   Some (set_sub i (with_locks (u_locks u + (if Nat.eqb (length a) 0 then 0 else 1))
                                      (with_phase (PFetch second from qs (chans ++ [a])) u)) y)
              else None
          | _ => None
          end
      | None => None
      end
  | YDeliver i ok =>
      match nth_error (y_subs y) i with
      | Some u =>
          match u_phase u with
          | PDeliver second (r :: rest) =>
              let u1 := hand r u in
              Some (set_sub i
                (if ok then match rest with
                            | [] => loop_ended second u1
                            | _ => with_phase (PDeliver second rest) u1
                            end
                 else (* 60-62, 67-70: the readers stay blocked on their channels *)
                   with_phase (if second then PLeave (u_queries u) false else PGone) u1) y)
          | _ => None
          end
      | None => None
      end
  | YSubscribe i =>
      match nth_error (y_subs y) i with
      | Some u =>
          match u_phase u with
          | PSubscribe (q :: qs) second =>
              if idle y then Some (set_b (register q i (y_b y)) (set_sub i (with_phase (PSubscribe qs second) u) y)) else None
          | PSubscribe [] second =>
              (* 66: the second read starts after the last number seen; 86 *)
              Some (set_sub i (with_phase (if second then PFetch true (succ64 (u_last u)) (u_queries u) [] else PLive) u) y)
          | _ => None
          end
      | None => None
      end
  | YWork i ok =>
      (* 103-112 *)
      match nth_error (y_subs y) i with
      | Some u =>
          match u_phase u, u_buf u with
          | PLive, r :: rest =>
              let u1 := with_buf rest u in
              Some (set_sub i
                (if r_gsn r <=? u_last u then u1
                 else if ok then hand r u1
                 else with_phase (PLeave (u_queries u) false) (hand r u1)) y)
          | _, _ => None
          end
      | None => None
      end
  | YStop i =>
      match nth_error (y_subs y) i with
      | Some u => Some (set_sub i (with_stop u) y)
      | None => None
      end
  | YQuit i =>
      (* 98-101 *)
      match nth_error (y_subs y) i with
      | Some u =>
          match u_phase u with
          | PLive => if u_stop u then Some (set_sub i (with_phase (PLeave (u_queries u) true) u) y) else None
          | _ => None
          end
      | None => None
      end
  | YUnsubscribe i =>
      match nth_error (y_subs y) i with
      | Some u =>
          match u_phase u with
          | PLeave (q :: qs) fin =>
              if idle y then Some (set_b (unregister q i (y_b y)) (set_sub i (with_phase (PLeave qs fin) u) y)) else None
          | PLeave [] fin => Some (set_sub i (with_phase (if fin then PDone else PGone) u) y)
          | _ => None
          end
      | None => None
      end
  | YClose =>
      (* closing a closed channel panics: Close is called once *)
      if y_closing y then None
      else Some (mk_sys (y_log y) (y_pend y) (y_queue y) (y_now y) (y_b y) (y_open y) true (y_subs y))
  | YShutdown =>
      if idle y && y_closing y
      then let y1 := mk_sys (y_log y) (y_pend y) (y_queue y) (y_now y) (y_b y) false true (y_subs y) in
           Some (fold_left (fun s i => stop_listed i s) (b_all (y_b y) ++ map snd (b_types (y_b y))) y1)
      else None
  end.

Fixpoint yrun (m : mode) (y : sys) (ls : list label) : option sys :=
  match ls with
  | [] => Some y
  | l :: rest => match ystep m y l with Some y1 => yrun m y1 rest | None => None end
  end.
