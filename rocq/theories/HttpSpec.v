(** Independent vocabulary for the statements about the HTTP interface. *)
From Coq Require Import Permutation.
From Verif Require Import Base Text PathSpec Json Http.
Open Scope string_scope.
Open Scope list_scope.

(** An event as a client describes it. *)
Record client_event := mk_client_event {
  ce_atype : string; ce_aid : string; ce_etype : string; ce_data : json; ce_meta : json
}.

(** A JSON object describing it: the five members, in any order. *)
Definition describes (j : json) (e : client_event) : Prop :=
  exists l, j = JObj l /\ Permutation l
    [ ("aggregateType", JStr (ce_atype e)); ("aggregateID", JStr (ce_aid e)); ("eventType", JStr (ce_etype e));
      ("data", ce_data e); ("metadata", ce_meta e) ].

(** A request body describing a list of events. *)
Definition describes_all (b : option json) (es : list client_event) : Prop :=
  exists l, b = Some (JArr l) /\ Forall2 describes l es.

(** Names that can stand in a path. *)
Definition addressable (name : string) : Prop :=
  lacks "/" name = true /\ name <> "" /\ name <> "." /\ name <> "..".

(** The request goes to /[action]/[name], percent-escapes undone. *)
Definition addressed (q : request) (action name : string) : Prop :=
  spelled (q_path q) ("/" ++ action ++ "/" ++ name)%string.

(** What a stored record says, apart from its numbers, ID and time. *)
Definition said (r : record) : string * string * string * string * string * string :=
  (r_stream r, r_atype r, r_aid r, r_etype r, r_data r, r_meta r).
Definition described_as (print : json -> string) (stream : string) (e : client_event) :=
  (stream, ce_atype e, ce_aid e, ce_etype e, print (ce_data e), print (ce_meta e)).

Definition client_aggregate (es : list client_event) : Prop :=
  forall e e', In e es -> In e' es -> ce_atype e = ce_atype e' /\ ce_aid e = ce_aid e'.

(** Letters and hyphens only. *)
Definition plain_letter (a : ascii) : Prop :=
  let n := N_of_ascii a in ((65 <= n /\ n <= 90) \/ (97 <= n /\ n <= 122) \/ n = 45)%N.
Fixpoint only_letters (s : string) : Prop :=
  match s with EmptyString => True | String a rest => plain_letter a /\ only_letters rest end.

(** The same request, its path written otherwise. *)
Definition with_path (raw : string) (q : request) : request :=
  mk_request (q_method q) raw (q_ctype q) (q_expected q) (q_body q) (q_stamp q) (q_cancel q).

(** What a request asks the store to do, judged by its path alone. *)
Definition ext_of (e : string) : Prop := In e ["json"; "ndjson"; "msgpack"].
Definition asks (q : request) (o : op) : Prop :=
  match o with
  | OpSave _ n _ _ => addressable n /\ addressed q "save-events" n
  | OpDelete _ n _ => addressable n /\ addressed q "delete-stream" n
  | OpEvents g => g = 0%N /\ exists e, ext_of e /\ spelled (q_path q) ("/all-events." ++ e)%string
  | OpByStream k n => k = 0%N /\ n <> "" /\ lacks "/" n = true
      /\ exists e, ext_of e /\ addressed q "events-by-stream" (n ++ "." ++ e)%string
  | OpByTypes g ts => g = 0%N /\ Forall only_letters ts
      /\ exists e, ext_of e /\ addressed q "events-by-aggregate-type" (join "," ts ++ "." ++ e)%string
  | OpTotal _ _ => False
  end.

(** Calls about streams without a slash and types of letters and hyphens. *)
Definition plain_names (o : op) : Prop :=
  match o with
  | OpSave _ n _ _ | OpDelete _ n _ | OpByStream _ n | OpTotal n _ => lacks "/" n = true
  | OpByTypes _ ts => Forall only_letters ts
  | OpEvents _ => True
  end.
Definition reads_only (o : op) : Prop := match o with OpSave _ _ _ _ | OpDelete _ _ _ => False | _ => True end.
