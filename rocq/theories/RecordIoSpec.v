(** Independent vocabulary for statements about record streams. *)
From Coq Require Import ZArith.
From Verif Require Import Base DecText Json JsonSpec JsonText JsonTextSpec RecordIo.
Open Scope string_scope.
Open Scope N_scope.

(** Go values as a JSON reader with UseNumber makes them: nil, booleans, texts,
    json.Number, slices of and maps from texts to such values. *)
Inductive carried : goval -> Prop :=
| carried_nil : carried GNil
| carried_bool b : carried (GBool b)
| carried_str s : is_text s -> carried (GStr s)
| carried_number n : number n -> carried (GNumber n)
| carried_slice l : (forall x, In x l -> carried x) -> carried (GSlice l)
| carried_map l : keys_sorted l -> (forall k x, In (k, x) l -> is_text k /\ carried x) -> carried (GMap l).

(** How many slices and maps are inside one another at most. *)
Fixpoint levels (v : goval) : N :=
  match v with
  | GSlice l => 1 + fold_right N.max 0 (map levels l)
  | GMap l => 1 + fold_right N.max 0 (map (fun p => levels (snd p)) l)
  | _ => 0
  end.

(** The field [f] has the type of the field [zero] and a value that type has. *)
Definition of_type (zero f : field) : Prop :=
  match zero, f with
  | TText _, TText s => is_text s
  | TInt _, TInt z => (- 2 ^ 63 <= z < 2 ^ 63)%Z
  | TUint _, TUint n => n < 2 ^ 64
  | TBool _, TBool _ => True
  | TAny _, TAny v => carried v /\ levels v + 2 <= 10000
  | _, _ => False
  end.

(** The data is what a reader that knows [types] can produce: a struct of the type
    bound to the event type's name; else a value, not nil. *)
Definition data_of_type (types : string -> option (list (string * field))) (etype : string) (d : payload) : Prop :=
  match types etype, d with
  | Some zero, Struct l =>
      NoDup (map fst zero) /\ Forall2 (fun z f => fst z = fst f /\ is_text (fst f) /\ of_type (snd z) (snd f)) zero l
  | None, Value v => v <> GNil /\ carried v /\ levels v + 1 <= 10000
  | _, _ => False
  end.

Definition ordinary (types : string -> option (list (string * field))) (e : entry) : Prop :=
  is_text (e_stream e) /\ is_text (e_atype e) /\ is_text (e_aid e) /\ is_text (e_eid e) /\ is_text (e_etype e)
  /\ e_gsn e < 2 ^ 64 /\ e_ssn e < 2 ^ 64 /\ e_ts e < 2 ^ 64
  /\ carried (e_meta e) /\ levels (e_meta e) + 1 <= 10000
  /\ data_of_type types (e_etype e) (e_data e).

(** [p] is the text [s] cut short, or all of it. *)
Definition cut_of (p s : string) : Prop := exists q, s = p ++ q.

(** What reading part of a stream may yield: the first records, unchanged and in
    order, then the end or an error. *)
Definition part_of (es : list entry) (out : list item) : Prop :=
  exists k, out = map Rec (firstn k es) \/ out = (map Rec (firstn k es) ++ [Bad EDeserialize])%list.
