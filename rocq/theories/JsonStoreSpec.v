(** Events the JSON serializer can keep: the specification C103 is about. *)
From Verif Require Import Base Text Json JsonTextSpec RecordIoSpec HttpBytes StoreSpec.
Open Scope N_scope.

(** The text encoding/json gives a value that is not nested too deeply. *)
Definition json_written (show : float -> num) (v : goval) (t : string) : Prop :=
  carried v /\ levels v + 1 <= 10000 /\ t = text_of_value show v.

(** Names that are UTF-8 texts, a time that is a uint64, and data that is not null. *)
Definition json_event (show : float -> num) (e : event) : Prop :=
  is_text (ev_atype e) /\ is_text (ev_aid e) /\ is_text (ev_type e) /\ is_text (ev_uuid e) /\ ev_now e < 2 ^ 64
  /\ (exists v, v <> GNil /\ json_written show v (ev_data e)) /\ (exists v, json_written show v (ev_meta e)).

Definition json_call (show : float -> num) (o : op) : Prop :=
  match o with OpSave _ s evs _ => is_text s /\ Forall (json_event show) evs | _ => True end.

(** Batches of one aggregate, not cancelled in the middle, and no type asked for twice. *)
Definition simple_call (o : op) : Prop :=
  match o with
  | OpSave _ _ evs cn => one_aggregate evs /\ (cn = None \/ cn = Some O)
  | OpByTypes _ ts => NoDup ts
  | _ => True
  end.
