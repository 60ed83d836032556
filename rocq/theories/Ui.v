(** The live pages of the web UI: pkg/rangedbui/ui.go:288-387. *)
From Verif Require Import Base LogSpec Core Subscription Stats.
Open Scope string_scope.
Open Scope N_scope.

(** * The page of all aggregate types *)

(** ui.go:126-129 [liveAggregateTypesTemplateVars]: one message to the browser. *)
Record overview := mk_overview { o_types : list (string * N); o_total : N }.

(** Where the handler is between two calls of the projection. *)
Inductive place :=
| WSleep                                             (* ui.go:354, before the check of 356 *)
| WLook                                              (* 360: the check has passed *)
| WTypes                                             (* 363, before SortedAggregateTypes *)
| WCount (left : list string) (info : list (string * N))   (* 363-368 *)
| WTotal (info : list (string * N))                  (* 372 *)
| WWrite (o : overview)                              (* 381 *)
| WEnd.                                              (* 384: returned *)

Record page := mk_page {
  p_seen  : N;                (* latestGlobalSequenceNumber, ui.go:351 *)
  p_place : place;
  p_sent  : list overview     (* the messages written so far *)
}.

(** ui.go:341-351: the handler has upgraded the connection. *)
Definition new_page : page := mk_page 0 WSleep [].

(** ui.go:353-386 [realtimeAggregateTypes]: one call of the projection or of the
    connection.  [ok]: what WriteMessage answers (simplification: JSON marshalling of
    the message cannot fail and is not modelled; the time slept is not modelled). *)
Definition page_step (d : stats) (ok : bool) (p : page) : page :=
  match p_place p with
  | WSleep => if latest_number d <=? p_seen p then p else mk_page (p_seen p) WLook (p_sent p)
  | WLook => mk_page (latest_number d) WTypes (p_sent p)
  | WTypes => mk_page (p_seen p) (WCount (sorted_types d) []) (p_sent p)
  | WCount (t :: ts) info => mk_page (p_seen p) (WCount ts (info ++ [(t, events_of_type t d)])) (p_sent p)
  | WCount [] info => mk_page (p_seen p) (WTotal info) (p_sent p)
  | WTotal info => mk_page (p_seen p) (WWrite (mk_overview info (total_events d))) (p_sent p)
  | WWrite o => if ok then mk_page (p_seen p) WSleep (p_sent p ++ [o]) else mk_page (p_seen p) WEnd (p_sent p)
  | WEnd => p
  end.

(** The projection and one handler, run concurrently: calls of the projection are
    atomic (its lock). *)
Inductive moment :=
| MAccept (r : record)      (* the subscription hands a record to the projection *)
| MPage (ok : bool).        (* the handler goes on *)

Definition watch_step (s : option (stats * page)) (l : moment) : option (stats * page) :=
  match s with
  | None => None
  | Some (d, p) =>
      match l with
      | MAccept r => match accept d r with Some d' => Some (d', p) | None => None end
      | MPage ok => Some (d, page_step d ok p)
      end
  end.
Definition watch (ls : list moment) : option (stats * page) := fold_left watch_step ls (Some (new_stats, new_page)).

(** * The page of one aggregate type *)

(** ui.go:288-291 [RecordEnvelope]. *)
Record envelope := mk_envelope { e_record : record; e_total : N }.

(** ui.go:309-315: the messages for the records the subscription hands over, [total]
    being what TotalEventsByAggregateType answered at 306 (simplification: a record
    that cannot be marshalled or written is not left out here). *)
Fixpoint envelopes (total : N) (rs : list record) : list envelope :=
  match rs with
  | [] => []
  | r :: rest => mk_envelope r (total + 1) :: envelopes (total + 1) rest
  end.

(** ui.go:330: its subscription, with a buffer of 20. *)
Definition page_sub (t : string) : list query * nat := ([Some t], 20%nat).

(** ui.go:305-306: the number the subscription is started from, read from the
    projection at one moment, and the count, read at another. *)
Definition page_start (d1 d2 : stats) (t : string) : N * N := (latest_number d1, events_of_type t d2).
