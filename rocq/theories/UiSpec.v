(** Vocabulary of the statements about the live pages. *)
From Verif Require Import Base LogSpec Core CoreSpec Subscription Stats StatsSpec Ui.
Open Scope N_scope.

(** The records handed to the projection in a schedule. *)
Definition accepted (ls : list moment) : list record :=
  flat_map (fun l => match l with MAccept r => [r] | _ => [] end) ls.

(** The message tells the truth about the records: each type that occurs, once, with
    its count, and the total. *)
Definition tells_of (o : overview) (rs : list record) : Prop :=
  NoDup (map fst (o_types o))
  /\ (forall t n, In (t, n) (o_types o) <-> (exists r, In r rs /\ r_atype r = t) /\ n = how_many (of_type t rs))
  /\ o_total o = how_many rs.

(** Each number of the message was true at some moment between the [lo]-th and the
    [hi]-th record: not necessarily all at the same one. *)
Definition true_between (rs : list record) (lo hi : nat) (o : overview) : Prop :=
  (exists k, (lo <= k <= hi)%nat /\ forall t, In t (map fst (o_types o)) <-> exists r, In r (firstn k rs) /\ r_atype r = t)
  /\ (forall t n, In (t, n) (o_types o) -> exists k, (lo <= k <= hi)%nat /\ n = how_many (of_type t (firstn k rs)))
  /\ exists k, (lo <= k <= hi)%nat /\ o_total o = how_many (firstn k rs).

(** The second message says nothing less than the first. *)
Definition at_least (o o' : overview) : Prop :=
  (forall t n, In (t, n) (o_types o) -> exists n', In (t, n') (o_types o') /\ n <= n')
  /\ o_total o <= o_total o'.

(** The numbers of the message add up. *)
Definition adds_up (o : overview) : Prop := o_total o = fold_right N.add 0 (map snd (o_types o)).

(** The events of type [t] among the records that are numbered [g] or less. *)
Definition of_type_until (t : string) (g : N) (rs : list record) : list record :=
  filter (fun r => r_gsn r <=? g) (of_type t rs).
