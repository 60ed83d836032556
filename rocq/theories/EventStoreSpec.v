(** Vocabulary for the statements about the EventStoreDB provider. *)
From Coq Require Import Sorted.
From Verif Require Import Base Locks Postgres PostgresSpec StoreSpec EventStore.

(** What an event of a save for stream [s] looks like on the server. *)
Definition entry_for (j : jlib) (s : string) (e : event) (x : entry) : Prop :=
  en_type x = ev_type e /\ exists r, en_rec x = Some r /\ row_for j s e r.

(** The record the user gets back for it. *)
Definition record_back (j : jlib) (s : string) (e : event) (r : record) : Prop :=
  record_for s e r /\ j_meta j e = Some (r_meta r).

(** What other applications and the server itself write is not meant for this store:
    system events, or events in streams without the store's prefix. *)
Definition harmless (prefix : option string) (lb : xlabel) : Prop :=
  match lb with
  | XForeign sn ty _ _ =>
      String.prefix "$" ty = true \/ (exists p, prefix = Some p /\ String.prefix p sn = false)
  | _ => True
  end.

Definition no_restart (ls : list xlabel) : Prop := ~ In XRestart ls.

(** The event type is not one EventStoreDB reserves. *)
Definition user_type (e : event) : Prop := String.prefix "$" (ev_type e) = false.

Definition increasing (f : record -> N) (l : list record) : Prop := StronglySorted (fun r r' => f r < f r') l.

(** The call made now and carried out at once is answered [x]. *)
Definition asked (j : jlib) (prefix : option string) (recdel : bool) (k : esconf) (o : op) (x : out) : Prop :=
  exists k', xrun j prefix recdel k [XInvoke o; XStep (length (x_calls k)) []] = Some k'
    /\ x_hist k' = x_hist k ++ [Inv (length (x_calls k)) o; Ret (length (x_calls k)) x].

(** The subscription of the process still runs. *)
Definition listening (k : esconf) : Prop := x_sub k <> None.
