(** Vocabulary of the statements about statistics. *)
From Verif Require Import Base LogSpec Core CoreSpec Subscription Stats JsonTextSpec.
Open Scope N_scope.

Definition of_type (t : string) (rs : list record) : list record :=
  filter (fun r => String.eqb (r_atype r) t) rs.
Definition how_many (rs : list record) : N := N.of_nat (length rs).

(** [n] is the greatest number among the records; zero if there are none. *)
Definition greatest (n : N) (rs : list record) : Prop :=
  match rs with
  | [] => n = 0
  | _ => (exists r, In r rs /\ r_gsn r = n) /\ forall r, In r rs -> r_gsn r <= n
  end.

(** The statistics tell the truth about the records. *)
Record reports (d : stats) (rs : list record) : Prop := {
  rp_types : forall t, events_of_type t d = how_many (of_type t rs);
  rp_total : total_events d = how_many rs;
  rp_latest : greatest (latest_number d) rs;
  rp_listed : forall t, In t (sorted_types d) <-> exists r, In r rs /\ r_atype r = t
}.

(** Aggregate types are texts (valid UTF-8), numbers fit in 64 bits. *)
Definition ordinary (rs : list record) : Prop :=
  (forall r, In r rs -> is_text (r_atype r) /\ r_gsn r <= max64) /\ how_many rs <= max64.

(** No stream is deleted. *)
Definition no_deletion (ls : list label) : Prop := forall s, ~ In (YDelete s) ls.

(** The records the schedule saves. *)
Definition saved_by (ls : list label) : list record :=
  flat_map (fun l => match l with YCommit rs => rs | _ => [] end) ls.
