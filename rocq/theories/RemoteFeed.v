(** Model of the subscriptions of a remote store (provider/remotestore/remote_store.go:
    46-61, 267-288, 306-371): the store's subscribers are served by a broadcaster of
    their own, fed by one SubscribeToLiveEvents call to the server (the feed), which is
    itself one of the clients of the server's broadcaster (WebSocket.v). *)
From Coq Require Import PeanoNat.
From Verif Require Import Base LogSpec Core CoreSpec Broadcaster Subscription WebSocket.

(** The call of the remote store is the first of the server's subscriptions;
    server.go:270-288 [SubscribeToLiveEvents]: to all events, with Start. *)
Definition feed : nat := 0.
Definition feed_queries : list query := [None].

(** [s_server]: the server with its store.  [s_wire]: the records sent on the call and
    not yet taken from it (in the connection, or in the hands of the goroutines of
    remote_store.go:309, 359, which add no more than a delay).  [s_up]: those goroutines
    are running.  [s_client]: the remote store's broadcaster and subscribers; they read
    the store's records with calls of their own, so the machine of [s_client] sees the
    store's log (its own log and saves mean nothing).  The store's lock is not kept from
    saves while such a reader is reading (it is, in fact, as long as the server's part
    of the call takes: more schedules are allowed here than there are). *)
Record rs := mk_rs { s_server : ws; s_wire : list record; s_up : bool; s_client : sys }.

Inductive rs_label :=
| AtServer (l : ws_label)      (* a step of the store or of the server *)
| AtClient (l : label)         (* a step of the remote store's broadcaster or subscribers *)
| Receive (ok : bool)          (* the feed takes a record from the call; [ok]: it can be converted (rangedbpb.ToRecord) *)
| Lose.                        (* the call ends *)

(** What a step of the server sends on the feed's call (server.go:347-361; a record
    whose sending fails is not sent). *)
Definition sent (w : ws) (l : ws_label) : list record :=
  match l with
  | AtApi (YWork 0 true) => next_to_relay (w_api w)
  | _ => []
  end.

(** The steps the server can take: the feed's call is started with Start. *)
Definition server_allowed (l : ws_label) : bool :=
  match l with AtApi (YStartFrom 0 _) => false | _ => true end.

(** remote_store.go:22: the buffer of the remote store's broadcaster is that of the
    server's: [accept]. *)
Definition rs_step (m : mode) (s : rs) (l : rs_label) : option rs :=
  match l with
  | AtServer l =>
      if server_allowed l then
        match ws_step m (s_server s) l with
        | Some w => Some (mk_rs w (s_wire s ++ sent (s_server s) l) (s_up s) (s_client s))
        | None => None
        end
      else None
  | AtClient l =>
      match l with
      | YCommit _ | YDelete _ | YAccept _ => None
      | _ => match ystep (mk_mode false api_buffer true) (with_store (w_store (s_server s)) (s_client s)) l with
             | Some z => Some (mk_rs (s_server s) (s_wire s) (s_up s) z)
             | None => None
             end
      end
  | Receive ok =>
      (* 309-341, 357-368 *)
      match s_wire s with
      | r :: rest =>
          if s_up s then
            if ok then
              match accept r (s_client s) with
              | Some z => Some (mk_rs (s_server s) rest true z)
              | None => None
              end
            else Some (mk_rs (s_server s) rest false (s_client s))   (* 330-335: readRecords returns *)
          else None
      | [] => None
      end
  | Lose => Some (mk_rs (s_server s) (s_wire s) false (s_client s))   (* 313-327 *)
  end.

Fixpoint rs_run (m : mode) (s : rs) (ls : list rs_label) : option rs :=
  match ls with
  | [] => Some s
  | l :: rest => match rs_step m s l with Some s1 => rs_run m s1 rest | None => None end
  end.

(** A server on a store in state [y], with the feed's subscription and those of
    [clients]. *)
Definition server_new (y : sys) (clients : list (list query)) : ws := ws_new y (feed_queries :: clients).

(** remote_store.go:46-61 [New] has returned: the call is made, which says nothing about
    what the server has done with it; [subs]: the subscriptions that will be made. *)
Definition rs_new (w : ws) (subs : list (list query * nat)) : rs := mk_rs w [] true (sys_init subs).

(** server.go:270-345: whether the handler of the [i]-th subscription call has returned
    after these steps of the server: when StartFrom fails ([consumeRecord] failed while
    catching up), or when the call's context is done (the caller hung up, or the
    connection is lost); that the subscriber was stopped by the broadcaster it does not
    notice. *)
Fixpoint returned (i : nat) (ls : list label) : bool :=
  match ls with
  | [] => false
  | YDeliver j false :: rest | YStop j :: rest => Nat.eqb i j || returned i rest
  | _ :: rest => returned i rest
  end.
