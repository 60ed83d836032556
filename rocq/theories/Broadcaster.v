(** Model of pkg/broadcast: the broadcaster goroutine. *)
From Verif Require Import Base.

(** broadcaster.go:44-45: the two subscriber maps.  Subscribers are numbered. *)
Record bcast := mk_bcast { b_all : list nat; b_types : list (string * nat) }.

Definition b_new : bcast := mk_bcast [] [].

Definition in_all (i : nat) (b : bcast) : bool := existsb (Nat.eqb i) (b_all b).
Definition same_sub (p q : string * nat) : bool := String.eqb (fst p) (fst q) && Nat.eqb (snd p) (snd q).
Definition in_type (t : string) (i : nat) (b : bcast) : bool := existsb (same_sub (t, i)) (b_types b).

(** broadcaster.go:104-105. *)
Definition add_all (i : nat) (b : bcast) : bcast :=
  if in_all i b then b else mk_bcast (b_all b ++ [i]) (b_types b).
(** broadcaster.go:107-108 and 133. *)
Definition del_all (i : nat) (b : bcast) : bcast :=
  mk_bcast (filter (fun j => negb (Nat.eqb i j)) (b_all b)) (b_types b).
(** broadcaster.go:110-114. *)
Definition add_type (t : string) (i : nat) (b : bcast) : bcast :=
  if in_type t i b then b else mk_bcast (b_all b) (b_types b ++ [(t, i)]).
(** broadcaster.go:116-117 and 143. *)
Definition del_type (t : string) (i : nat) (b : bcast) : bcast :=
  mk_bcast (b_all b) (filter (fun p => negb (same_sub (t, i) p)) (b_types b)).

(** broadcaster.go:140: the subscribers of the record's aggregate type. *)
Definition type_subs (t : string) (b : bcast) : list nat :=
  map snd (filter (fun p => String.eqb t (fst p)) (b_types b)).

(** The broadcaster with what it did to the outside world: the records put into
    each subscriber's channel, oldest first, and how often Stop() was called. *)
Record net := mk_net { n_b : bcast; n_got : nat -> list record; n_stops : nat -> nat }.

Definition net_init : net := mk_net b_new (fun _ => []) (fun _ => O).

Definition put {A} (f : nat -> A) (i : nat) (x : A) : nat -> A := fun j => if Nat.eqb i j then x else f j.

(** broadcaster.go:131-137: [slow]: the timeout fires before the channel takes the record. *)
Definition serve_all (r : record) (slow : nat -> bool) (n : net) (i : nat) : net :=
  if slow i then mk_net (del_all i (n_b n)) (n_got n) (put (n_stops n) i (S (n_stops n i)))
  else mk_net (n_b n) (put (n_got n) i (n_got n i ++ [r])) (n_stops n).
(** broadcaster.go:141-147. *)
Definition serve_type (r : record) (slow : nat -> bool) (n : net) (i : nat) : net :=
  if slow i then mk_net (del_type (r_atype r) i (n_b n)) (n_got n) (put (n_stops n) i (S (n_stops n i)))
  else mk_net (n_b n) (put (n_got n) i (n_got n i ++ [r])) (n_stops n).

(** broadcaster.go:129-149 [broadcastRecord].  Go's map iteration order is not
    specified; the subscribers of one map are distinct and each iteration touches
    only its own subscriber, so the order is not observable. *)
Definition broadcast_record (r : record) (slow1 slow2 : nat -> bool) (n : net) : net :=
  let n1 := fold_left (serve_all r slow1) (b_all (n_b n)) n in
  fold_left (serve_type r slow2) (type_subs (r_atype r) (n_b n1)) n1.

(** broadcaster.go:155-165 [closeAllSubscribers]. *)
Definition stop_one (n : net) (i : nat) : net :=
  mk_net (n_b n) (n_got n) (put (n_stops n) i (S (n_stops n i))).
Definition close_all (n : net) : net :=
  fold_left stop_one (map snd (b_types (n_b n))) (fold_left stop_one (b_all (n_b n)) n).

(** What the goroutine of broadcaster.go:101-127 takes from its channels. *)
Inductive bmsg :=
| BSubAll (i : nat)
| BUnsubAll (i : nat)
| BSubType (t : string) (i : nat)
| BUnsubType (t : string) (i : nat)
| BRecord (r : record) (slow1 slow2 : nat -> bool).

Definition bstep (n : net) (m : bmsg) : net :=
  match m with
  | BSubAll i => mk_net (add_all i (n_b n)) (n_got n) (n_stops n)
  | BUnsubAll i => mk_net (del_all i (n_b n)) (n_got n) (n_stops n)
  | BSubType t i => mk_net (add_type t i (n_b n)) (n_got n) (n_stops n)
  | BUnsubType t i => mk_net (del_type t i (n_b n)) (n_got n) (n_stops n)
  | BRecord r slow1 slow2 => broadcast_record r slow1 slow2 n
  end.

Definition brun (n : net) (ms : list bmsg) : net := fold_left bstep ms n.
