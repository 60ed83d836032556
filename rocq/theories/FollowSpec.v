(** Vocabulary of the statements about a client that reconnects. *)
From Verif Require Import Base LogSpec Core CoreSpec Broadcaster Subscription SubscriptionSpec Follow.

(** Every call of the client asks for [qs]. *)
Definition asking (subs : list (list query * nat)) (qs : list query) (ls : list flabel) : Prop :=
  forall i, In (FConnect i) ls -> exists cap, nth_error subs i = Some (qs, cap).

(** None of the server's reads for the client fails. *)
Definition reads_fine (ls : list flabel) : Prop :=
  forall i k, In (FConnect i) ls -> ~ In (FSys (YFetch i (Some k))) ls.

(** Saves do not overlap, or hand over in the order of their commits. *)
Definition saves_in_turn (ls : list flabel) : Prop := forall k, In (FSys (YAccept k)) ls -> k = 0%nat.

(** A list of records without immediate repetitions. *)
Fixpoint once (l : list record) : list record :=
  match l with
  | r :: ((r' :: _) as t) => if r_gsn r =? r_gsn r' then once t else r :: once t
  | _ => l
  end.

Definition connects (ls : list flabel) : nat :=
  length (filter (fun l => match l with FConnect _ => true | _ => false end) ls).

Definition commits (ls : list flabel) : list record :=
  flat_map (fun l => match l with FSys (YCommit rs) => rs | _ => [] end) ls.

(** The broadcaster does not time out on the call's subscriber. *)
Definition not_slow (i : nat) (ls : list flabel) : Prop := forall t, In (FSys (YTimeout t)) ls -> t_id t <> i.
