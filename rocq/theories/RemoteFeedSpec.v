(** Vocabulary of the statements about subscriptions to a remote store. *)
From Verif Require Import Base LogSpec Core CoreSpec Broadcaster Subscription SubscriptionSpec WebSocket WebSocketSpec RemoteFeed.

(** What the server, and what the remote store's own machine, does in a schedule. *)
Fixpoint server_steps (ls : list rs_label) : list ws_label :=
  match ls with [] => [] | AtServer l :: rest => l :: server_steps rest | _ :: rest => server_steps rest end.
Fixpoint client_steps (ls : list rs_label) : list label :=
  match ls with [] => [] | AtClient l :: rest => l :: client_steps rest | _ :: rest => client_steps rest end.

(** The server has taken the remote store's call: its subscription is live, and nothing
    has been sent on it yet. *)
Definition taken (w : ws) : Prop :=
  exists u, nth_error (y_subs (w_api w)) feed = Some u /\ u_phase u = PLive /\ u_got u = [].

(** The server's own subscription, the remote store's call and the remote store's
    reading from it are all still there. *)
Definition connected (s : rs) : Prop :=
  relaying (s_server s)
  /\ (exists u, nth_error (y_subs (w_api (s_server s))) feed = Some u /\ u_phase u = PLive)
  /\ s_up s = true.

(** Nothing is on its way to the subscriber any more. *)
Definition at_rest_to (s : rs) (u : sub) : Prop :=
  (forall v, nth_error (y_subs (w_api (s_server s))) feed = Some v -> at_rest (s_server s) v)
  /\ s_wire s = [] /\ y_queue (s_client s) = [] /\ y_now (s_client s) = None /\ u_buf u = [].

(** The remote store's broadcaster has the record for the subscriber. *)
Definition client_has (s : rs) (u : sub) (r : record) : Prop :=
  In r (u_buf u) \/ In r (y_queue (s_client s)) \/ exists ts, y_now (s_client s) = Some (r, ts).
