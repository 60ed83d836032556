(** The command dispatcher, pkg/cqrs/cqrs.go, with the methods the aggregate generator
    writes (Load, Handle, raise; examples/chat/room_aggregate_gen.go). *)
From Verif Require Import Base Core.
Open Scope list_scope.

Section Cqrs.
(** [E]: events, [C]: commands, [S]: the states of aggregates of all kinds. *)
Context {E C S : Type}.
(** rangedb.GetEventStream of an event and of a command. *)
Variable event_stream : E -> string.
Variable command_stream : C -> string.
Variable command_type : C -> string.
(** [apply]: what Load does with one event (room_aggregate_gen.go:21-61).  Events come
    back as they were saved (the store's events are bound, the codec law). *)
Variable apply : S -> E -> S.
(** [decide]: the events Handle raises (room_aggregate_gen.go:63-102); the aggregate's
    state does not change, in the aggregates of this repository raise only appends to
    the pending events (123-125). *)
Variable decide : S -> C -> list E.
(** The command types of the aggregates passed to WithAggregates, in order. *)
Variable registered : list (list string).

(** cqrs.go:46-54 [WithAggregates]: of two aggregates with the same command type the
    later one wins. *)
Fixpoint route_from (h : nat) (l : list (list string)) (name : string) : option nat :=
  match l with
  | [] => None
  | types :: rest =>
      match route_from (Datatypes.S h) rest name with
      | Some k => Some k
      | None => if existsb (String.eqb name) types then Some h else None
      end
  end.
Definition route (c : C) : option nat := route_from 0 registered (command_type c).

(** EventsByStream(ctx, 0, streamName): the events of the stream in order; [cut = Some k]:
    reading fails after [k] records, and Load goes on with what it has
    (room_aggregate_gen.go:11-19: Next returns false on an error). *)
Definition stream_events (s : string) (L : list E) : list E := filter (fun e => String.eqb (event_stream e) s) L.
Definition read (cut : option nat) (s : string) (L : list E) : list E :=
  match cut with None => stream_events s L | Some k => firstn k (stream_events s L) end.

(** cqrs.go:90-104 [saveEvents]: one save per event; [fate]: whether each succeeds
    (those not listed do); the events saved are returned. *)
Fixpoint save_events (fate : list bool) (L : list E) (es : list E) : list E * list E :=
  match es with
  | [] => (L, [])
  | e :: rest =>
      match fate with
      | false :: fate' => save_events fate' L rest
      | _ => let (L', saved) := save_events (match fate with _ :: f => f | [] => [] end) (L ++ [e]) rest in (L', e :: saved)
      end
  end.

(** * One dispatch at a time *)

(** cqrs.go:71-88 [Dispatch] when no other one is running: the log and the aggregates
    (one instance each, kept between calls) before and after; the events returned. *)
Definition dispatch (c : C) (cut : option nat) (fate : list bool) (w : list E * list S) : (list E * list S) * list E :=
  let (L, insts) := w in
  match route c with
  | None => (w, [])
  | Some h =>
      match nth_error insts h with
      | None => (w, [])
      | Some st =>
          let st' := fold_left apply (read cut (command_stream c) L) st in
          let (L', saved) := save_events fate L (decide st' c) in
          ((L', set_nth h st' insts), saved)
      end
  end.

(** A sequence of dispatches. *)
Record call := mk_call { k_command : C; k_cut : option nat; k_fate : list bool }.
Fixpoint dispatches (ks : list call) (w : list E * list S) : (list E * list S) * list (list E) :=
  match ks with
  | [] => (w, [])
  | k :: rest =>
      let (w1, es) := dispatch (k_command k) (k_cut k) (k_fate k) w in
      let (w2, ess) := dispatches rest w1 in (w2, es :: ess)
  end.

(** * Dispatches that run at the same time *)

(** Where a Dispatch stands.  All goroutines share the aggregates: Load changes their
    state event by event, Handle appends to their pending events, returns them and
    resets them (room_aggregate_gen.go:104-105).  (Go gives such programs no meaning at
    all; here each step is atomic.) *)
Inductive thread :=
| TStart (c : C)
| TLoad (h : nat) (c : C) (es : list E)
| TTake (h : nat)
| TReset (h : nat) (es : list E)
| TSave (es : list E) (saved : list E)
| TDone (saved : list E).

(** [x_log]: the events with the dispatch that saved them; [x_insts]: state and
    pending events of each aggregate. *)
Record sys := mk_sys {
  x_log : list (nat * E);
  x_insts : list (S * list E);
  x_threads : list thread
}.
Inductive label :=
| LBegin (c : C)
| LStep (i : nat) (cut : option nat) (ok : bool).

Definition step_thread (i : nat) (cut : option nat) (ok : bool) (t : thread) (L : list (nat * E)) (insts : list (S * list E))
  : option (list (nat * E) * list (S * list E) * thread) :=
  match t with
  | TStart c =>
      match route c with
      | None => Some (L, insts, TDone [])
      | Some h => match nth_error insts h with
                  | None => Some (L, insts, TDone [])
                  | Some _ => Some (L, insts, TLoad h c (read cut (command_stream c) (map snd L)))
                  end
      end
  | TLoad h c (e :: es) =>
      match nth_error insts h with
      | Some (st, p) => Some (L, set_nth h (apply st e, p) insts, TLoad h c es)
      | None => None
      end
  | TLoad h c [] =>
      match nth_error insts h with
      | Some (st, p) => Some (L, set_nth h (st, p ++ decide st c) insts, TTake h)
      | None => None
      end
  | TTake h =>
      match nth_error insts h with
      | Some (st, p) => Some (L, insts, TReset h p)
      | None => None
      end
  | TReset h es =>
      match nth_error insts h with
      | Some (st, _) => Some (L, set_nth h (st, []) insts, TSave es [])
      | None => None
      end
  | TSave (e :: es) saved =>
      if ok then Some (L ++ [(i, e)], insts, TSave es (saved ++ [e])) else Some (L, insts, TSave es saved)
  | TSave [] saved => Some (L, insts, TDone saved)
  | TDone _ => None
  end.

Definition step (x : sys) (l : label) : option sys :=
  match l with
  | LBegin c => Some (mk_sys (x_log x) (x_insts x) (x_threads x ++ [TStart c]))
  | LStep i cut ok =>
      match nth_error (x_threads x) i with
      | None => None
      | Some t =>
          match step_thread i cut ok t (x_log x) (x_insts x) with
          | Some (L, insts, t') => Some (mk_sys L insts (set_nth i t' (x_threads x)))
          | None => None
          end
      end
  end.
Fixpoint run (x : sys) (ls : list label) : option sys :=
  match ls with
  | [] => Some x
  | l :: rest => match step x l with Some x' => run x' rest | None => None end
  end.
End Cqrs.
Arguments sys : clear implicits.
Arguments thread : clear implicits.
Arguments label : clear implicits.
Arguments call : clear implicits.
