(** Vocabulary of the statements about subscriptions. *)
From Verif Require Import Base LogSpec Core CoreSpec Broadcaster Subscription.

(** A subscription asks for all events or for some aggregate types (config.go:20-54). *)
Definition asks_for (qs : list query) : Prop := qs = [None] \/ exists types, qs = map Some types.

(** The record is one the subscription asks for. *)
Definition asked (qs : list query) (r : record) : Prop :=
  In None qs \/ In (Some (r_atype r)) qs.

(** The schedule never gives up on subscriber [i]: the broadcaster does not time out
    on it and none of its reads fails. *)
Definition undisturbed (i : nat) (ls : list label) : Prop :=
  forall l, In l ls -> match l with
    | YTimeout t => t_id t <> i
    | YFetch j (Some _) => j <> i
    | _ => True
    end.

(** Nothing is on its way to the subscriber any more. *)
Definition quiet (y : sys) (u : sub) : Prop :=
  y_pend y = [] /\ y_queue y = [] /\ y_now y = None /\ u_buf u = [].

(** Saves hand their records to the broadcaster in turn: of those that have committed
    and not yet handed over all their records, the first to commit goes on.  (So it is
    if saves do not overlap.) *)
Definition in_turn (ls : list label) : Prop := forall k, In (YAccept k) ls -> k = 0%nat.

Definition record_numbers (l : list record) : list N := map r_gsn l.
