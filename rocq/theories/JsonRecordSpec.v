(** What a JSON object says about a record, apart from the decoder of RecordIo.v: which
    member means which field, what a member's value makes of a field, and what it makes
    of a Go value of no particular type. *)
From Coq Require Import ZArith.
From Verif Require Import Base DecText Json JsonSpec JsonText JsonTextSpec JsonGrammar RecordIo.
Open Scope string_scope.
Open Scope N_scope.

(** * Names *)

Definition same_letter (a b : ascii) : Prop :=
  a = b \/ (65 <= N_of_ascii a <= 90 /\ N_of_ascii b = N_of_ascii a + 32) \/ (65 <= N_of_ascii b <= 90 /\ N_of_ascii a = N_of_ascii b + 32).
Definition same_but_case (s t : string) : Prop := Forall2 same_letter (list_ascii_of_string s) (list_ascii_of_string t).

(** The member name [k] means the field [n] of a struct with the fields [ns]: the
    field of that very name, and if there is none, the first one of that name up to
    upper and lower case. *)
Definition means (ns : list string) (k n : string) : Prop :=
  (In k ns /\ n = k)
  \/ (~ In k ns /\ exists before after, ns = (before ++ n :: after)%list /\ same_but_case n k
        /\ forall m, In m before -> ~ same_but_case m k).

(** No two members mean the same field. *)
Fixpoint clean (ns : list string) (ms : list (string * json)) : Prop :=
  match ms with
  | [] => True
  | (k, _) :: rest => (forall n k' j', means ns k n -> In (k', j') rest -> ~ means ns k' n) /\ clean ns rest
  end.

(** * Values *)

(** The Go value (interface{}, numbers as json.Number) a JSON value becomes.  Of members
    of the same name the last one counts. *)
Inductive holds : json -> goval -> Prop :=
| holds_null : holds JNull GNil
| holds_bool b : holds (JBool b) (GBool b)
| holds_num n : holds (JNum n) (GNumber n)
| holds_str s : holds (JStr s) (GStr s)
| holds_arr l l' : length l = length l' ->
    (forall i x v, nth_error l i = Some x -> nth_error l' i = Some v -> holds x v) -> holds (JArr l) (GSlice l')
| holds_obj ms l : keys_sorted l -> (forall k, last_member k ms = None <-> last_member k l = None) ->
    (forall k x v, last_member k ms = Some x -> last_member k l = Some v -> holds x v) -> holds (JObj ms) (GMap l).

(** [sets before j after]: the field, given the value [j].  A null leaves a field of a
    plain type as it was. *)
Inductive sets : field -> json -> field -> Prop :=
| sets_any v j v' : holds j v' -> sets (TAny v) j (TAny v')
| sets_text s s' : sets (TText s) (JStr s') (TText s')
| sets_text_null s : sets (TText s) JNull (TText s)
| sets_int z z' : (- 2 ^ 63 <= z' < 2 ^ 63)%Z -> sets (TInt z) (JNum (Int z')) (TInt z')
| sets_int_zero z : sets (TInt z) (JNum (Lit "-0")) (TInt 0)
| sets_int_null z : sets (TInt z) JNull (TInt z)
| sets_uint n n' : n' < 2 ^ 64 -> sets (TUint n) (JNum (Int (Z.of_N n'))) (TUint n')
| sets_uint_null n : sets (TUint n) JNull (TUint n)
| sets_bool b b' : sets (TBool b) (JBool b') (TBool b')
| sets_bool_null b : sets (TBool b) JNull (TBool b)
| sets_raw raw j : j <> JNull -> sets (TRaw raw true) j (TRaw (Some j) true)
| sets_raw_null raw : sets (TRaw raw true) JNull (TRaw raw false)
| sets_raw_lost raw j : sets (TRaw raw false) j (TRaw raw false).

(** * Structs *)

(** What members say about the field [n], which was [zero] before: the member that
    means it sets it, and without one it stays. *)
Definition tells (ns : list string) (ms : list (string * json)) (n : string) (zero f : field) : Prop :=
  (exists k j, In (k, j) ms /\ means ns k n /\ sets zero j f)
  \/ ((forall k j, In (k, j) ms -> ~ means ns k n) /\ f = zero).
Definition fills (ms : list (string * json)) (zero l : list (string * field)) : Prop :=
  Forall2 (fun z f => fst z = fst f /\ tells (map fst zero) ms (fst z) (snd z) (snd f)) zero l.

(** * Records *)

Definition record_names : list string :=
  ["streamName"; "aggregateType"; "aggregateID"; "globalSequenceNumber"; "streamSequenceNumber"; "insertTimestamp";
   "eventID"; "eventType"; "data"; "metadata"].

(** The data of an event: of a type the reader knows, its struct; else any value. *)
Definition data_says (types : string -> option (list (string * field))) (etype : string) (j : json) (d : payload) : Prop :=
  match types etype with
  | Some zero => exists ms l, j = JObj ms /\ d = Struct l /\ fills ms zero l
  | None => exists v, d = Value v /\ holds j v
  end.

(** The JSON value [j] is an object that says the record [e]: texts are empty and
    numbers 0 unless a member says otherwise, and there is data other than null. *)
Definition record_says (types : string -> option (list (string * field))) (j : json) (e : entry) : Prop :=
  exists ms, j = JObj ms
  /\ tells record_names ms "streamName" (TText "") (TText (e_stream e))
  /\ tells record_names ms "aggregateType" (TText "") (TText (e_atype e))
  /\ tells record_names ms "aggregateID" (TText "") (TText (e_aid e))
  /\ tells record_names ms "globalSequenceNumber" (TUint 0) (TUint (e_gsn e))
  /\ tells record_names ms "streamSequenceNumber" (TUint 0) (TUint (e_ssn e))
  /\ tells record_names ms "insertTimestamp" (TUint 0) (TUint (e_ts e))
  /\ tells record_names ms "eventID" (TText "") (TText (e_eid e))
  /\ tells record_names ms "eventType" (TText "") (TText (e_etype e))
  /\ tells record_names ms "metadata" (TAny GNil) (TAny (e_meta e))
  /\ exists k d, In (k, d) ms /\ means record_names k "data" /\ d <> JNull /\ data_says types (e_etype e) d (e_data e).

(** No object in it says two things about one field. *)
Definition tidy (types : string -> option (list (string * field))) (j : json) : Prop :=
  forall ms, j = JObj ms -> clean record_names ms
  /\ forall k ms' t zero, In (k, JObj ms') ms -> means record_names k "data" -> types t = Some zero -> clean (map fst zero) ms'.

(** The fields of each known struct have different names. *)
Definition proper (types : string -> option (list (string * field))) : Prop :=
  forall t zero, types t = Some zero -> NoDup (map fst zero).

(** * Streams *)

(** JSON texts one behind the other, with any white space between and around them. *)
Inductive series : list json -> string -> Prop :=
| series_end w : blanks w -> series [] w
| series_more w j t l s : blanks w -> text_of 10000 j t -> (forall n, j = JNum n -> ends_number s) ->
    series l s -> series (j :: l) (w ++ t ++ s).

(** An array of texts, and whatever stands behind it. *)
Inductive array_text : list json -> string -> Prop :=
| array_none w w' rest : blanks w -> blanks w' -> array_text [] (w ++ "[" ++ w' ++ "]" ++ rest)
| array_some w l body rest : blanks w -> items_text 10000 l body -> array_text l (w ++ "[" ++ body ++ "]" ++ rest).
