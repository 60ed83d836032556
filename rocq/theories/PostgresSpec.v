(** Vocabulary for the statements about the PostgreSQL store. *)
From Coq Require Import Sorted.
From Verif Require Import Base Locks LocksSpec Postgres.

(** The rows of a stream. *)
Definition rows_of (s : string) (rows : list record) : list record :=
  filter (fun r => String.eqb (r_stream r) s) rows.

(** n, n+1, ..., n+len-1 *)
Definition numbers_from (n : N) (len : nat) : list N := map (fun k => n + N.of_nat k) (seq 0 len).

Definition gsn_lt (r r' : record) : Prop := r_gsn r < r_gsn r'.

(** What is assumed of encoding/json: an event that was encoded decodes to its
    data.  (The empty metadata [""] stands for nil.) *)
Definition json_ok (j : jlib) : Prop :=
  forall e d, j_data j e = Some d -> j_decode j (ev_type e) d = Some (ev_data e).

(** [P] holds at every moment of the run. *)
Fixpoint always (j : jlib) (key : string -> N) (limit : nat) (P : pgconf -> Prop) (k : pgconf) (ls : list plabel) : Prop :=
  P k /\ match ls with
         | [] => True
         | lb :: rest => match gstep j key limit k lb with Some k' => always j key limit P k' rest | None => True end
         end.

(** A save or delete of stream [s] that has made its sequence number check and is
    not finished. *)
Definition saving_past_check (s : string) (c : pgcall) : Prop :=
  (exists ex evs cn, pg_op c = OpSave ex s evs cn) /\ (exists todo mine, pg_pc c = PInsert todo mine).
Definition deleting_past_check (s : string) (c : pgcall) : Prop :=
  (exists ex cn, pg_op c = OpDelete ex s cn) /\ (pg_pc c = PDelGo \/ exists todo done, pg_pc c = PDeleting todo done).

(** No delete of [s] is past its check together with another delete or save of [s]. *)
Definition apart (s : string) (k : pgconf) : Prop :=
  forall i j c c', nth_error (g_calls k) i = Some c -> nth_error (g_calls k) j = Some c' ->
  deleting_past_check s c -> saving_past_check s c' \/ deleting_past_check s c' -> i = j.

(** Nobody deletes [s]. *)
Definition never_deleted (s : string) (h : list act) : Prop := forall ex cn, ~ In (OpDelete ex s cn) (made h).

(** Rows that have a number but are not committed, of all calls together. *)
Definition mine_of (c : pgcall) : list record := match pg_pc c with PInsert _ mine => mine | _ => [] end.
Definition inserting (c : pgcall) : Prop := mine_of c <> [].

(** At most one call has uncommitted rows. *)
Definition one_inserter (k : pgconf) : Prop :=
  forall i j c c', nth_error (g_calls k) i = Some c -> nth_error (g_calls k) j = Some c' ->
  inserting c -> inserting c' -> i = j.

(** The row an event is written as, and the record it is read back as. *)
Definition row_for (j : jlib) (s : string) (e : event) (r : record) : Prop :=
  r_stream r = s /\ r_atype r = ev_atype e /\ r_aid r = ev_aid e /\ r_ts r = ev_now e /\ r_eid r = ev_uuid e
  /\ r_etype r = ev_type e /\ j_data j e = Some (r_data r) /\ j_meta j e = Some (r_meta r).
Definition record_for (s : string) (e : event) (r : record) : Prop :=
  r_stream r = s /\ r_atype r = ev_atype e /\ r_aid r = ev_aid e /\ r_ts r = ev_now e /\ r_eid r = ev_uuid e
  /\ r_etype r = ev_type e /\ r_data r = ev_data e.
