(** Vocabulary for requests that overlap, independent of the machine. *)
From Verif Require Import Base LocksSpec HttpConc.
Open Scope list_scope.

(** The requests that were sent. *)
Definition sent {Q A} (h : list (seen Q A)) : list Q :=
  flat_map (fun e => match e with Came _ q => [q] | Got _ _ => [] end) h.

(** The answers are as if the requests had come one after the other: there is an order
    of requests, each with an answer, such that
    - those answers may be given to the requests in that order ([allowed]);
    - a request occurs at most once, and only if it was sent;
    - every request that was answered occurs with its answer, but for those answered by
      [aside];
    - a request that was answered before another one was sent precedes it. *)
Definition one_by_one {Q A} (allowed : list Q -> list A -> Prop) (aside : Q -> A -> Prop) (h : list (seen Q A)) : Prop :=
  exists order : list (nat * (Q * A)),
    allowed (map (fun t => fst (snd t)) order) (map (fun t => snd (snd t)) order)
    /\ NoDup (map fst order)
    /\ (forall j q a, In (j, (q, a)) order -> In (Came j q) h)
    /\ (forall j a, In (Got j a) h -> exists q, In (Came j q) h /\ (In (j, (q, a)) order \/ aside q a))
    /\ (forall j a j' q' a' q0 a0, before (Got j a) (Came j' q') h -> In (j', (q', a')) order -> In (j, (q0, a0)) order ->
          before (j, (q0, a0)) (j', (q', a')) order).
