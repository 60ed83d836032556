(** Model of pkg/rangedbws/websocket_api.go: a second broadcaster, fed by a
    subscription of the API to the store (the relay), to which the WebSocket clients
    subscribe.  pkg/grpc/rangedbserver/server.go:46-73, 277-345 does the same for the
    clients of SubscribeToLiveEvents, SubscribeToEvents and
    SubscribeToEventsByAggregateType, with the same buffers (19-22). *)
From Coq Require Import PeanoNat.
From Verif Require Import Base LogSpec Core CoreSpec Broadcaster Subscription Text Http.
Open Scope N_scope.

(** * Requests *)

(** [NotThere]: 404; [Elsewhere]: mux redirects to the cleaned path or to the path
    without the slash at the end; [BadRequest]: 400; [Subscribed qs g]: the connection
    is upgraded (assumed to succeed) and a subscriber to [qs] is started from [g]. *)
Inductive ws_answer := NotThere | Elsewhere | BadRequest | Subscribed (qs : list query) (g : N).

(** websocket_api.go:130-142 [globalSequenceNumberFromRequest]; [param]: the value of
    the query parameter, "" if there is none. *)
Definition start_number (param : string) : option N :=
  if String.eqb param "" then Some 0 else parse_uint param.

(** websocket_api.go:99-104, 145-152, 163-170: the number is read first. *)
Definition subscribe_request (qs : list query) (param : string) : ws_answer :=
  match start_number param with None => BadRequest | Some g => Subscribed qs g end.

(** websocket_api.go:80-85 [initRoutes], 151-152. *)
Definition ws_segments (segs : list string) (param : string) : ws_answer :=
  match segs with
  | [a] => if String.eqb a "events" then subscribe_request [None] param else NotThere
  | [a; b] =>
      if String.eqb a "events" && negb (String.eqb b "") && all_chars type_char b
      then subscribe_request (map Some (split_str "," b)) param
      else NotThere
  | _ => NotThere
  end.
Definition ws_slashed (a : ws_answer) : ws_answer := match a with NotThere => NotThere | _ => Elsewhere end.
Definition ws_path (p param : string) : ws_answer :=
  if negb (String.eqb (clean_path p) p) then Elsewhere
  else match split_str "/" p with
       | _ :: segs =>
           if last_empty segs && Nat.ltb 1 (length segs)
           then ws_slashed (ws_segments (removelast segs) param)
           else ws_segments segs param
       | [] => NotThere
       end.
(** A bad escape in the path is answered with 400 by net/http itself. *)
Definition ws_request (raw param : string) : ws_answer :=
  match unescape false raw with Some p => ws_path p param | None => BadRequest end.

(** * The two broadcasters *)

(** websocket_api.go:23-26 *)
Definition api_buffer : nat := 100.
Definition sub_buffer : nat := 20.

(** websocket_api.go:87-94 [initBroadcaster]: the first subscriber of the store is the
    relay. *)
Definition relay : nat := 0.
Definition relay_sub : list query * nat := ([None], sub_buffer).

(** websocket_api.go:107-116, 158-168: a client. *)
Definition client (qs : list query) : list query * nat := (qs, sub_buffer).

(** How the relay hands over: [Direct], by calling Accept on the API's broadcaster, one
    record at a time; [Wire], by sending to a connection on which any number of records
    may be on their way, and which may fail (used in RemoteFeed.v). *)
Inductive link := Direct | Wire.
Definition is_wire (k : link) : bool := match k with Wire => true | Direct => false end.

(** [w_store]: the store with its broadcaster and its subscribers, the relay the first
    of them.  [w_held]: the record the relay has taken from its buffer and is handing to
    the API's broadcaster (oldest first, if there can be several).  [w_api]: the API's
    broadcaster and the clients.  The clients read the store's records under the store's
    lock: for their steps the machine of [w_api] sees the store's log and saves
    ([with_store]); the log and saves of [w_api] itself mean nothing. *)
Record ws := mk_ws { w_store : sys; w_held : list record; w_api : sys }.

Definition with_store (y z : sys) : sys :=
  mk_sys (y_log y) (y_pend y) (y_queue z) (y_now z) (y_b z) (y_open z) (y_closing z) (y_subs z).

(** The record at the head of the relay's buffer, if the relay passes it on
    (record_subscriber.go:103-107: it has not been sent yet). *)
Definition next_to_relay (y : sys) : list record :=
  match nth_error (y_subs y) relay with
  | Some u => match u_buf u with
              | r :: _ => if r_gsn r <=? u_last u then [] else [r]
              | [] => []
              end
  | None => []
  end.

(** broadcaster.go:68-70 [Accept] on the API's broadcaster, called by the relay
    (inmemory_store.go:366-369, leveldb_store.go:346-349): blocks when the buffer is full. *)
Definition accept (r : record) (z : sys) : option sys :=
  if Nat.ltb (length (y_queue z)) api_buffer
  then Some (mk_sys (y_log z) (y_pend z) (y_queue z ++ [r]) (y_now z) (y_b z) (y_open z) (y_closing z) (y_subs z))
  else None.

(** The relay's goroutine is not inside Accept. *)
Definition relay_free (k : link) (w : ws) : bool := is_wire k || Nat.eqb (length (w_held w)) 0.

(** A step of the store's part, of the API's part, or the end of the relay's Accept. *)
Inductive ws_label := AtStore (l : label) | AtApi (l : label) | Relay.

(** A step of the store's part that leaves the relay's hands alone. *)
Definition store_step (m : mode) (w : ws) (l : label) : option ws :=
  match ystep m (w_store w) l with Some y => Some (mk_ws y (w_held w) (w_api w)) | None => None end.

Definition link_step (k : link) (m : mode) (w : ws) (l : ws_label) : option ws :=
  match l with
  | AtStore l =>
      match l with
      | YCommit _ | YDelete _ =>
          (* the write lock: no client is reading *)
          if negb (m_wait m) || no_locks (y_subs (w_api w)) then store_step m w l else None
      | YWork 0 ok =>
          (* the relay's goroutine; Accept never fails *)
          if relay_free k w && (ok || is_wire k) then
            match ystep m (w_store w) (YWork 0 ok) with
            | Some y => Some (mk_ws y (w_held w ++ if ok then next_to_relay (w_store w) else []) (w_api w))
            | None => None
            end
          else None
      | YQuit 0 => if relay_free k w then store_step m w l else None
      | YStop 0 => if is_wire k then store_step m w l else None      (* the API keeps no handle of its subscription (87-94) *)
      | _ => store_step m w l
      end
  | AtApi l =>
      match l with
      | YCommit _ | YDelete _ | YAccept _ => None   (* steps of the store *)
      (* a WebSocket client is started with StartFrom only (121, 178); [YStart] is for the
         same machine's use in pkg/grpc/rangedbserver/server.go:286 *)
      | _ => match ystep (mk_mode (m_locked m) api_buffer true) (with_store (w_store w) (w_api w)) l with
             | Some z => Some (mk_ws (w_store w) (w_held w) z)
             | None => None
             end
      end
  | Relay =>
      match w_held w with
      | r :: rest => match accept r (w_api w) with Some z => Some (mk_ws (w_store w) rest z) | None => None end
      | [] => None
      end
  end.

Fixpoint link_run (k : link) (m : mode) (w : ws) (ls : list ws_label) : option ws :=
  match ls with
  | [] => Some w
  | l :: rest => match link_step k m w l with Some w1 => link_run k m w1 rest | None => None end
  end.
Definition ws_step : mode -> ws -> ws_label -> option ws := link_step Direct.
Definition ws_run : mode -> ws -> list ws_label -> option ws := link_run Direct.

(** websocket_api.go:55-78 [New] on a running store: the relay is subscribed and its
    goroutine runs, nothing has been passed on, no client is connected.  ([New] itself
    is the relay's [YStart] and [YSubscribe] steps among those of the store.)  *)
Definition link_new (y : sys) (subs : list (list query * nat)) : ws := mk_ws y [] (sys_init subs).
Definition ws_new (y : sys) (clients : list (list query)) : ws := link_new y (map client clients).
