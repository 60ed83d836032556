(** Model of cmd/grpc-event-subscriber: a client that subscribes over gRPC, prints what
    it receives, and subscribes again from the last number it has seen whenever the
    connection is lost. *)
From Verif Require Import Base LogSpec Core Broadcaster Subscription.

(** main.go:46-50 [grpcEventSubscriber] and what it has printed (104).  [f_cur]: the
    subscriber on the server that serves the present call, and how many records of that
    call the client has received; [None] = dialing (62-64, 119-129). *)
Record follower := mk_follower {
  f_pos     : N;
  f_printed : list record;
  f_cur     : option (nat * nat)
}.

(** main.go:52-58 [NewGRPCEventSubscriber]. *)
Definition follower_new : follower := mk_follower 0 [] None.

(** [FSys]: any step of the server (Subscription.v).  [FConnect i]: the client has
    dialed and called SubscribeToEvents or SubscribeToEventsByAggregateType (82-92); the
    handler (server.go:293-336) created subscriber [i] for it and starts it from the
    number sent.  [FRecv]: events.Recv returns the next record (98-104); gRPC keeps the
    order of a call and loses at most its tail.  [FLost]: Recv returns an error (99-102),
    whatever the reason.  The server notices at some time of its own ([FSys (YStop i)]).
    Not modelled: the text printed, and the pause of up to five seconds in dialing. *)
Inductive flabel := FSys (l : label) | FConnect (i : nat) | FRecv | FLost.

Definition fstep (m : mode) (s : sys * follower) (l : flabel) : option (sys * follower) :=
  let '(y, f) := s in
  match l with
  | FSys a => match ystep m y a with Some y' => Some (y', f) | None => None end
  | FConnect i =>
      match f_cur f with
      | None =>
          match ystep m y (YStartFrom i (f_pos f)) with
          | Some y' => Some (y', mk_follower (f_pos f) (f_printed f) (Some (i, 0%nat)))
          | None => None
          end
      | Some _ => None
      end
  | FRecv =>
      match f_cur f with
      | Some (i, k) =>
          match nth_error (y_subs y) i with
          | Some u =>
              match nth_error (u_got u) k with
              | Some r => Some (y, mk_follower (r_gsn r) (f_printed f ++ [r]) (Some (i, S k)))  (* 103, 104 *)
              | None => None
              end
          | None => None
          end
      | None => None
      end
  | FLost =>
      match f_cur f with
      | Some _ => Some (y, mk_follower (f_pos f) (f_printed f) None)
      | None => None
      end
  end.

Fixpoint frun (m : mode) (s : sys * follower) (ls : list flabel) : option (sys * follower) :=
  match ls with
  | [] => Some s
  | l :: rest => match fstep m s l with Some s1 => frun m s1 rest | None => None end
  end.
