(** What a subscriber of the broadcaster should see, told from the history of
    messages alone. *)
From Verif Require Import Base Broadcaster.

(** Is subscriber [i] on the list of all events after this history?  (Oldest
    message first.)  It leaves the list by unsubscribing or by being too slow. *)
Definition on_all (i : nat) (past : list bmsg) : bool :=
  fold_left (fun on m => match m with
    | BSubAll j => on || Nat.eqb i j
    | BUnsubAll j => on && negb (Nat.eqb i j)
    | BRecord _ slow _ => on && negb (slow i)
    | _ => on
    end) past false.

(** The same for the list of one aggregate type. *)
Definition on_type (t : string) (i : nat) (past : list bmsg) : bool :=
  fold_left (fun on m => match m with
    | BSubType u j => on || (String.eqb t u && Nat.eqb i j)
    | BUnsubType u j => on && negb (String.eqb t u && Nat.eqb i j)
    | BRecord r _ slow => on && negb (String.eqb t (r_atype r) && slow i)
    | _ => on
    end) past false.

(** The records subscriber [i] should find in its channel: one copy for each list
    it is on, unless it is too slow for that list. *)
Fixpoint due (i : nat) (past future : list bmsg) : list record :=
  match future with
  | [] => []
  | m :: rest =>
      match m with
      | BRecord r slow1 slow2 =>
          (if on_all i past && negb (slow1 i) then [r] else [])
          ++ (if on_type (r_atype r) i past && negb (slow2 i) then [r] else [])
      | _ => []
      end ++ due i (past ++ [m]) rest
  end.

(** How often subscriber [i] is told to stop: once for each list it was too slow for. *)
Fixpoint stops_due (i : nat) (past future : list bmsg) : nat :=
  match future with
  | [] => O
  | m :: rest =>
      (match m with
       | BRecord r slow1 slow2 =>
           (if on_all i past && slow1 i then 1 else 0)
           + (if on_type (r_atype r) i past && slow2 i then 1 else 0)
       | _ => 0
       end + stops_due i (past ++ [m]) rest)%nat
  end.

(** Two histories that look the same to subscriber [i]: same records, same messages
    of its own, same slowness of its own. Messages of others may differ in whose
    they are and how slow they are. *)
Definition same_for (i : nat) (m m' : bmsg) : Prop :=
  match m, m' with
  | BSubAll j, BSubAll k => (j = i <-> k = i)
  | BUnsubAll j, BUnsubAll k => (j = i <-> k = i)
  | BSubType t j, BSubType u k => (j = i <-> k = i) /\ (j = i -> t = u)
  | BUnsubType t j, BUnsubType u k => (j = i <-> k = i) /\ (j = i -> t = u)
  | BRecord r s1 s2, BRecord r' s1' s2' => r = r' /\ s1 i = s1' i /\ s2 i = s2' i
  | _, _ => False
  end.
