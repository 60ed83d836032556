(** Model of rangedbtest/bdd: the Given / When / Then test helper. *)
From Coq Require Import PeanoNat.
From Verif Require Import Base.

Section Bdd.
(** An event; [same] is assert.Equal on event values; [bound]: the store knows its type
    and reads it back as a pointer to a struct (bdd.go:159-169).  [stream_of] is
    rangedb.GetEventStream. *)
Variables (E : Type) (same : E -> E -> bool) (bound : E -> bool) (stream_of : E -> string).

(** The store: the events with the stream each was saved to, oldest first. *)
Definition shelf := list (string * E).

(** bdd.go:23-28 [TestCase], 31-36 [New], 39-42 [Given]: a second call replaces the
    first.  [When] (45-48) is part of [dispatch] below: what dispatching the command does
    to the store. *)
Definition case := list E.
Definition new_case : case := [].
Definition given (events : list E) (c : case) : case := events.

(** rangedb.Store EventsByStream from number [n] (counted from 1): what the reads of the
    store models give (C03, C04). *)
Definition of_stream (s : string) (st : shelf) : list E := map snd (filter (fun p => String.eqb (fst p) s) st).
Definition from_number (n : nat) (s : string) (st : shelf) : list E := skipn (n - 1) (of_stream s st).

(** bdd.go:141-157 [recordIteratorToSlice].  [cut]: the read fails after so many
    records; Next() is then false and the loop ends as at the end (record_iterator.go:29-45).
    [None] = an error is returned. *)
Definition to_slice (cut : option nat) (rs : list E) : option (list E) :=
  let l := match cut with None => rs | Some c => firstn c rs end in
  if forallb bound l then Some l else None.

(** bdd.go:58-63, 101-106: the previous events are saved, each to its stream, and counted. *)
Definition prepare (c : case) (st : shelf) : shelf := st ++ map (fun e => (stream_of e, e)) c.
Definition previous (c : case) (s : string) : nat := length (filter (fun e => String.eqb (stream_of e) s) c).

Fixpoint same_list (a b : list E) : bool :=
  match a, b with
  | [], [] => true
  | x :: a', y :: b' => same x y && same_list a' b'
  | _, _ => false
  end.

(** bdd.go:77-92: one comparison for each stream of an expected event (a map: the order
    does not matter, and comparing a stream twice changes nothing). *)
Definition stream_ok (c : case) (expected : list E) (cuts : string -> option nat) (st : shelf) (s : string) : bool :=
  match to_slice (cuts s) (from_number (previous c s + 1) s st) with
  | Some actual => same_list (filter (fun e => String.eqb (stream_of e) s) expected) actual
  | None => false
  end.

(** bdd.go:51-93 [Then]: whether the test passes.  [cut_all]: see [to_slice]; len(all)
    - len(previous) is compared with 0 (70-72). *)
Definition then_ (c : case) (dispatch : shelf -> shelf) (expected : list E) (cut_all : option nat)
  (cuts : string -> option nat) (st : shelf) : bool :=
  let st1 := dispatch (prepare c st) in
  match expected with
  | [] =>
      match to_slice cut_all (map snd st1) with
      | Some l => Nat.eqb (length l) (length c)
      | None => false
      end
  | _ => forallb (stream_ok c expected cuts st1) (map stream_of expected)
  end.

(** bdd.go:123-139 [getStreamsFromStore]: the streams named by the stored events; [keys]
    below is one of the orders in which Go ranges over them. *)
Definition streams (st : shelf) : list string := nodup String.string_dec (map (fun p => stream_of (snd p)) st).

(** bdd.go:96-121 [ThenInspectEvents]: what the function is given (no read fails). *)
Definition inspected (c : case) (dispatch : shelf -> shelf) (keys : list string) (st : shelf) : list E :=
  let st1 := dispatch (prepare c st) in
  flat_map (fun s => from_number (previous c s + 1) s st1) keys.
End Bdd.

(** * Specification: the command raises [raised], each event saved to a stream. *)
Definition raises {E} (raised : shelf E) (st : shelf E) : shelf E := st ++ raised.
(** A command that decides from what the store holds which events to raise. *)
Definition carries_out {E} (command : shelf E -> shelf E) (st : shelf E) : shelf E := st ++ command st.
(** What the store holds when exactly these events happened. *)
Definition history {E} (stream_of : E -> string) (events : list E) : shelf E := map (fun e => (stream_of e, e)) events.
Definition no_cut : string -> option nat := fun _ => None.
Definition in_own_stream {E} (stream_of : E -> string) (raised : shelf E) : Prop :=
  forall s e, In (s, e) raised -> s = stream_of e.
