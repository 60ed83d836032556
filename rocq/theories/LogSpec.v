(** The specification the stores are measured against: an event store is an
    ordered list of records.  Short enough to be read on its own; it shares no
    helper with the models of the stores. *)
From Verif Require Import Base.

(** All records, oldest first, and the greatest global sequence number ever used. *)
Record log := mk_log { l_recs : list record; l_last : N }.

Definition empty_log : log := mk_log [] 0.

Definition in_stream (s : string) (r : record) : bool := String.eqb (r_stream r) s.
Definition of_stream (s : string) (L : log) : list record := filter (in_stream s) (l_recs L).
Definition stream_length (s : string) (L : log) : N := N.of_nat (length (of_stream s L)).

(** The record an event becomes at global position [g] and stream position [k]. *)
Definition record_at (s : string) (g k : N) (e : event) : record :=
  mk_record s (ev_atype e) (ev_aid e) g k (ev_now e) (ev_uuid e) (ev_type e) (ev_data e) (ev_meta e).

(** A batch appended after global position [g] and stream position [k]. *)
Fixpoint records_from (s : string) (g k : N) (evs : list event) : list record :=
  match evs with
  | [] => []
  | e :: rest => record_at s (g + 1) (k + 1) e :: records_from s (g + 1) (k + 1) rest
  end.

(** Why a batch is refused, if it is: the first reason found going through the
    batch in order.  [t],[i] are the aggregate type and ID of the first event. *)
Fixpoint refusal (c : codec) (cn : option nat) (s t i : string) (g k : N) (n : nat) (evs : list event) : option err :=
  match evs with
  | [] => None
  | e :: rest =>
      if negb (String.eqb (ev_atype e) t) then Some EUnmatchedType
      else if negb (String.eqb (ev_aid e) i) then Some EUnmatchedID
      else if done_at cn n then Some ECanceled
      else match ser c (record_at s (g + 1) (k + 1) e) with
           | None => Some ESerialize
           | Some _ => refusal c cn s t i (g + 1) (k + 1) (S n) rest
           end
  end.

(** The expected number is looked at after cancellation and before anything is
    encoded. *)
Definition save_refused (c : codec) (L : log) (expected : option N) (s : string) (evs : list event) (cn : option nat) : option err :=
  match evs with
  | [] => Some EMissingEvents
  | e0 :: _ =>
      if done_at cn 0 then Some ECanceled
      else match expected with
           | Some x =>
               if N.eqb x (stream_length s L)
               then refusal c cn s (ev_atype e0) (ev_aid e0) (l_last L) (stream_length s L) 0 evs
               else Some (EUnexpectedSeq x (stream_length s L))
           | None => refusal c cn s (ev_atype e0) (ev_aid e0) (l_last L) (stream_length s L) 0 evs
           end
  end.

Definition appended (L : log) (s : string) (evs : list event) : list record :=
  records_from s (l_last L) (stream_length s L) evs.

Definition append_log (L : log) (s : string) (evs : list event) : log :=
  mk_log (l_recs L ++ appended L s evs) (l_last L + N.of_nat (length evs)).

Definition remove_stream (s : string) (L : log) : log :=
  mk_log (filter (fun r => negb (in_stream s r)) (l_recs L)) (l_last L).

Definition delete_refused (L : log) (expected : N) (s : string) (cn : option nat) : option err :=
  if done_at cn 0 then Some ECanceled
  else if N.eqb (stream_length s L) 0 then Some EStreamNotFound
  else if N.eqb expected (stream_length s L) then None
  else Some (EUnexpectedSeq expected (stream_length s L)).

(** Reads. *)
Definition log_events (g : N) (L : log) : list record :=
  filter (fun r => N.leb g (r_gsn r)) (l_recs L).
Definition log_by_types (g : N) (types : list string) (L : log) : list record :=
  filter (fun r => N.leb g (r_gsn r) && memb (r_atype r) types) (l_recs L).
Definition log_by_stream (k : N) (s : string) (L : log) : list record :=
  filter (fun r => N.leb k (r_ssn r)) (of_stream s L).

Definition read_result (L : log) (o : op) : option out :=
  match o with
  | OpEvents g => Some (OutResults (map RRec (log_events g L)))
  | OpByTypes g types => Some (OutResults (map RRec (log_by_types g types L)))
  | OpByStream k s =>
      Some (OutResults (if N.eqb (stream_length s L) 0 then [RErr EStreamNotFound]
                        else map RRec (log_by_stream k s L)))
  | OpTotal s cn => Some (if done_at cn 0 then OutFailed ECanceled else OutTotal (stream_length s L))
  | _ => None
  end.

(** One call.  A refused save may burn global sequence numbers (they must only
    grow), but nothing else changes. *)
Inductive log_step (c : codec) : log -> op -> out -> log -> Prop :=
| LSaved : forall L ex s evs cn,
    save_refused c L ex s evs cn = None ->
    log_step c L (OpSave ex s evs cn)
      (OutSaved (stream_length s L + N.of_nat (length evs)) (appended L s evs))
      (append_log L s evs)
| LSaveRefused : forall L ex s evs cn e last,
    save_refused c L ex s evs cn = Some e -> l_last L <= last ->
    log_step c L (OpSave ex s evs cn) (OutFailed e) (mk_log (l_recs L) last)
| LDeleted : forall L ex s cn,
    delete_refused L ex s cn = None ->
    log_step c L (OpDelete ex s cn) OutDeleted (remove_stream s L)
| LDeleteRefused : forall L ex s cn e,
    delete_refused L ex s cn = Some e ->
    log_step c L (OpDelete ex s cn) (OutFailed e) L
| LRead : forall L o x,
    read_result L o = Some x ->
    log_step c L o x L.

Inductive log_run (c : codec) : log -> list op -> list out -> log -> Prop :=
| LRnil : forall L, log_run c L [] [] L
| LRcons : forall L o x L1 ops xs L2,
    log_step c L o x L1 -> log_run c L1 ops xs L2 ->
    log_run c L (o :: ops) (x :: xs) L2.

(** The deterministic version: a refused save burns no number. *)
Definition log_exec (c : codec) (L : log) (o : op) : log * out :=
  match o with
  | OpSave ex s evs cn =>
      match save_refused c L ex s evs cn with
      | Some e => (L, OutFailed e)
      | None => (append_log L s evs,
                 OutSaved (stream_length s L + N.of_nat (length evs)) (appended L s evs))
      end
  | OpDelete ex s cn =>
      match delete_refused L ex s cn with
      | Some e => (L, OutFailed e)
      | None => (remove_stream s L, OutDeleted)
      end
  | _ => match read_result L o with Some x => (L, x) | None => (L, OutPanic) end
  end.
