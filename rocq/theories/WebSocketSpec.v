(** Vocabulary of the statements about the WebSocket API. *)
From Verif Require Import Base LogSpec Core CoreSpec Broadcaster Subscription SubscriptionSpec Text PathSpec NumberSpec Http WebSocket.

(** What the store does, and what the API does, in a schedule. *)
Fixpoint store_steps (ls : list ws_label) : list label :=
  match ls with [] => [] | AtStore l :: rest => l :: store_steps rest | _ :: rest => store_steps rest end.
Fixpoint api_steps (ls : list ws_label) : list label :=
  match ls with [] => [] | AtApi l :: rest => l :: api_steps rest | _ :: rest => api_steps rest end.

(** [New] has just returned, on a store with any past and with any other subscribers:
    the API's subscription was started with Start, is live and has passed nothing on. *)
Definition opened (m : mode) (subs : list (list query * nat)) (ls : list label) (y : sys) : Prop :=
  yrun m (sys_init (relay_sub :: subs)) ls = Some y
  /\ (forall g, ~ In (YStartFrom relay g) ls)
  /\ exists u, nth_error (y_subs y) relay = Some u /\ u_phase u = PLive /\ u_got u = [].

(** The API's subscription to the store is still running. *)
Definition relaying (w : ws) : Prop :=
  exists u, nth_error (y_subs (w_store w)) relay = Some u /\ u_phase u = PLive.

(** Nothing is on its way to the client any more: no save is handing over its records,
    and all buffers on the way are empty. *)
Definition at_rest (w : ws) (u : sub) : Prop :=
  y_pend (w_store w) = [] /\ y_queue (w_store w) = [] /\ y_now (w_store w) = None
  /\ (forall v, nth_error (y_subs (w_store w)) relay = Some v -> u_buf v = [])
  /\ w_held w = []
  /\ y_queue (w_api w) = [] /\ y_now (w_api w) = None /\ u_buf u = [].

(** The API no longer gets anything from the store: its subscription is not with the
    store's broadcaster, which is not serving it, and what it had been given is passed
    on. *)
Definition cut_off (w : ws) : Prop :=
  exists u, nth_error (y_subs (w_store w)) relay = Some u
  /\ match u_phase u with PLive | PLeave _ _ | PDone | PGone => True | _ => False end
  /\ u_buf u = []
  /\ ~ In relay (b_all (y_b (w_store w)))
  /\ (forall t, ~ In (t, relay) (b_types (y_b (w_store w))))
  /\ (forall r ts t, y_now (w_store w) = Some (r, ts) -> In t ts -> t_id t <> relay)
  /\ w_held w = [].

(** The API has the record for the client. *)
Definition api_has (w : ws) (u : sub) (r : record) : Prop :=
  In r (u_buf u) \/ In r (y_queue (w_api w)) \/ exists ts, y_now (w_api w) = Some (r, ts).

(** * Requests *)

(** What the parameter asks for: nothing means 0. *)
Definition asks_from (param : string) (g : N) : Prop :=
  param = ""%string /\ g = 0
  \/ param <> ""%string /\ decimal_digits param /\ base_ten 0 param = g /\ g < two64.

(** The request's path, percent-escapes undone, is this. *)
Definition path_is (raw p : string) : Prop := spelled raw p.
