(** Independent vocabulary for the statements about stores. *)
From Verif Require Import Base LogSpec.

(** All events of a batch belong to one aggregate. *)
Definition one_aggregate (evs : list event) : Prop :=
  forall e e', In e evs -> In e' evs -> ev_atype e = ev_atype e' /\ ev_aid e = ev_aid e'.

(** The stream is named "type!id" after the aggregate of the events. *)
Definition named_after_aggregate (s : string) (evs : list event) : Prop :=
  forall e, In e evs -> s = (ev_atype e ++ "!" ++ ev_aid e)%string.

(** Saves for which an encoding failure in the middle of the batch cannot hit the
    wrong stream. *)
Definition tame_call (c : codec) (o : op) : Prop :=
  match o with
  | OpSave _ s evs _ =>
      codec_total c \/ (length evs <= 1)%nat \/ (one_aggregate evs /\ named_after_aggregate s evs)
  | _ => True
  end.

(** Moreover: one aggregate per batch, no cancellation in the middle of a save, no
    type asked for twice. *)
Definition plain_call (c : codec) (o : op) : Prop :=
  match o with
  | OpSave _ s evs cn => one_aggregate evs /\ (cn = None \/ cn = Some O) /\ tame_call c o
  | OpByTypes _ ts => NoDup ts
  | _ => True
  end.

(** Records a call made visible: saved ones and read ones. *)
Definition saved (x : out) : list record :=
  match x with OutSaved _ bc => bc | _ => [] end.
Fixpoint recs_of (l : list result) : list record :=
  match l with
  | [] => []
  | RRec r :: rest => r :: recs_of rest
  | RErr _ :: rest => recs_of rest
  end.
Definition shown (x : out) : list record :=
  match x with OutSaved _ bc => bc | OutResults l => recs_of l | _ => [] end.

(** 1, 2, ..., n *)
Definition one_to (n : nat) : list N := map N.of_nat (seq 1 n).

(** The one observable liberty of the in-memory store against the log: a delete of
    a stream without events may report success for expected number 0, or a
    sequence-number mismatch for another expected number, instead of "not found". *)
Definition agrees (o : op) (spec real : out) : Prop :=
  spec = real \/
  match o, spec with
  | OpDelete ex _ _, OutFailed EStreamNotFound =>
      real = (if N.eqb ex 0 then OutDeleted else OutFailed (EUnexpectedSeq ex 0))
  | _, _ => False
  end.

Fixpoint all_agree (ops : list op) (specs reals : list out) : Prop :=
  match ops, specs, reals with
  | [], [], [] => True
  | o :: ops', x :: specs', y :: reals' => agrees o x y /\ all_agree ops' specs' reals'
  | _, _, _ => False
  end.

(** Every event of the batch can be encoded, wherever it lands in the stream. *)
Definition encodable (c : codec) (s : string) (evs : list event) : Prop :=
  forall e g k, In e evs -> ser c (record_at s g k e) <> None.

(** No read can tell the two states apart. *)
Definition same_reads {S : Type} (step : S -> op -> S * out) (a b : S) : Prop :=
  forall o, (match o with OpSave _ _ _ _ | OpDelete _ _ _ => False | _ => True end) ->
  snd (step a o) = snd (step b o).
