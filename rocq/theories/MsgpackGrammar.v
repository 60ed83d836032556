(** The MessagePack format (github.com/msgpack/msgpack, spec.md), written down as a
    grammar: which bytes are the objects of which values.  Nothing of the model of the
    encoder or of the reader is used, but for the vocabulary of records at the end. *)
From Coq Require Import ZArith Permutation.
From Verif Require Import Base Msgpack.
Open Scope string_scope.
Open Scope N_scope.

(** Values.  Floating point numbers are given by their bits, maps by their members in
    the order they are written.  Simplification: extension types are left out; nothing
    here writes them. *)
Inductive obj :=
| ONil
| OBool (b : bool)
| OInt (z : Z)
| OSingle (bits : N)
| ODouble (bits : N)
| OText (s : string)
| OBytes (s : string)
| OArray (l : list obj)
| OMap (l : list (obj * obj)).

(** A number in big-endian order, and in two's complement. *)
Fixpoint number_from (a : N) (s : string) : N :=
  match s with EmptyString => a | String c r => number_from (a * 256 + N_of_ascii c) r end.
Definition unsigned (s : string) : N := number_from 0 s.
Definition signed (s : string) : Z :=
  let bits := 8 * N.of_nat (String.length s) in
  if unsigned s <? 2 ^ (bits - 1) then Z.of_N (unsigned s) else (Z.of_N (unsigned s) - 2 ^ Z.of_N bits)%Z.

(** What the first bytes of an object say: a value without parts, or what follows. *)
Inductive opening := Done (o : obj) | Text (n : N) | Bin (n : N) | Items (n : N) | Members (n : N).


Inductive opens : opening -> string -> Prop :=
| op_nil : opens (Done ONil) (String "192" "")
| op_false : opens (Done (OBool false)) (String "194" "")
| op_true : opens (Done (OBool true)) (String "195" "")
| op_positive c : N_of_ascii c < 128 -> opens (Done (OInt (Z.of_N (N_of_ascii c)))) (String c "")
| op_negative c : 224 <= N_of_ascii c -> opens (Done (OInt (Z.of_N (N_of_ascii c) - 256))) (String c "")
| op_uint c s : In (c, String.length s) [("204", 1%nat); ("205", 2%nat); ("206", 4%nat); ("207", 8%nat)]%char ->
    opens (Done (OInt (Z.of_N (unsigned s)))) (String c s)
| op_int c s : In (c, String.length s) [("208", 1%nat); ("209", 2%nat); ("210", 4%nat); ("211", 8%nat)]%char ->
    opens (Done (OInt (signed s))) (String c s)
| op_single s : String.length s = 4%nat -> opens (Done (OSingle (unsigned s))) (String "202" s)
| op_double s : String.length s = 8%nat -> opens (Done (ODouble (unsigned s))) (String "203" s)
| op_text_short c : 160 <= N_of_ascii c < 192 -> opens (Text (N_of_ascii c - 160)) (String c "")
| op_text c s : In (c, String.length s) [("217", 1%nat); ("218", 2%nat); ("219", 4%nat)]%char -> opens (Text (unsigned s)) (String c s)
| op_bin c s : In (c, String.length s) [("196", 1%nat); ("197", 2%nat); ("198", 4%nat)]%char -> opens (Bin (unsigned s)) (String c s)
| op_items_short c : 144 <= N_of_ascii c < 160 -> opens (Items (N_of_ascii c - 144)) (String c "")
| op_items c s : In (c, String.length s) [("220", 2%nat); ("221", 4%nat)]%char -> opens (Items (unsigned s)) (String c s)
| op_members_short c : 128 <= N_of_ascii c < 144 -> opens (Members (N_of_ascii c - 128)) (String c "")
| op_members c s : In (c, String.length s) [("222", 2%nat); ("223", 4%nat)]%char -> opens (Members (unsigned s)) (String c s).

(** [spells o t]: [t] is an object with the value [o]; [sequence]: objects one behind
    the other. *)
Inductive spells : obj -> string -> Prop :=
| sp_done o t : opens (Done o) t -> spells o t
| sp_text s t : opens (Text (N.of_nat (String.length s))) t -> spells (OText s) (t ++ s)
| sp_bytes s t : opens (Bin (N.of_nat (String.length s))) t -> spells (OBytes s) (t ++ s)
| sp_array l t u : opens (Items (N.of_nat (List.length l))) t -> sequence l u -> spells (OArray l) (t ++ u)
| sp_map l t u : opens (Members (N.of_nat (List.length l))) t -> members l u -> spells (OMap l) (t ++ u)
with sequence : list obj -> string -> Prop :=
| sq_none : sequence [] ""
| sq_more o l t u : spells o t -> sequence l u -> sequence (o :: l) (t ++ u)
with members : list (obj * obj) -> string -> Prop :=
| mb_none : members [] ""
| mb_more k v l t1 t2 u : spells k t1 -> spells v t2 -> members l u -> members ((k, v) :: l) (t1 ++ t2 ++ u).

(** * Records *)

(** The value of a Go value: json.Number is a text; the members of a map come in some
    order. *)
Inductive means : mval -> obj -> Prop :=
| me_nil : means MNil ONil
| me_bool b : means (MBool b) (OBool b)
| me_int z : means (MInt z) (OInt z)
| me_uint n : means (MUint n) (OInt (Z.of_N n))
| me_float n : means (MFloat n) (ODouble n)
| me_str s : means (MStr s) (OText s)
| me_number s : means (MNumber s) (OText s)
| me_slice l os : List.length l = List.length os ->
    (forall i x o, nth_error l i = Some x -> nth_error os i = Some o -> means x o) -> means (MSlice l) (OArray os)
| me_map l l' ps : Permutation l l' -> List.length l' = List.length ps ->
    (forall i k x p, nth_error l' i = Some (k, x) -> nth_error ps i = Some p -> fst p = OText k /\ means x (snd p)) -> means (MMap l) (OMap ps).

Definition field_means (f : mfield) (o : obj) : Prop :=
  match f with
  | MfText s => o = OText s
  | MfInt z => o = OInt z
  | MfUint n => o = OInt (Z.of_N n)
  | MfBool b => o = OBool b
  | MfAny v => means v o
  end.
(** The data of an event: a value; a struct as a map from its field names; a raw event as
    an empty map (C53). *)
Definition data_means (d : mpayload) (o : obj) : Prop :=
  match d with
  | MValue v => means v o
  | MStruct l => exists ps, o = OMap ps /\ Forall2 (fun f p => fst p = OText (fst f) /\ field_means (snd f) (snd p)) l ps
  | MRaw _ => o = OMap []
  end.

(** The two objects of a record: a map with its ten fields (the data being nil there),
    and its data. *)
Definition record_is (e : mentry) (head data : obj) : Prop :=
  exists meta, means (m_meta e) meta /\ data_means (m_data e) data
  /\ head = OMap [(OText "n", OText (m_stream e)); (OText "a", OText (m_atype e)); (OText "i", OText (m_aid e));
                  (OText "g", OInt (Z.of_N (m_gsn e))); (OText "s", OInt (Z.of_N (m_ssn e))); (OText "u", OInt (Z.of_N (m_ts e)));
                  (OText "e", OText (m_eid e)); (OText "t", OText (m_etype e)); (OText "d", ONil); (OText "m", meta)].

Inductive records_are : list mentry -> list obj -> Prop :=
| ra_none : records_are [] []
| ra_more e h d es os : record_is e h d -> records_are es os -> records_are (e :: es) (h :: d :: os).

(** Values that have a MessagePack object: numbers within 64 bits, texts, arrays and maps
    with fewer than 2^32 parts. *)
Inductive expressible : mval -> Prop :=
| ex_nil : expressible MNil
| ex_bool b : expressible (MBool b)
| ex_int z : (- 2 ^ 63 <= z < 2 ^ 63)%Z -> expressible (MInt z)
| ex_uint n : n < 2 ^ 64 -> expressible (MUint n)
| ex_float n : n < 2 ^ 64 -> expressible (MFloat n)
| ex_str s : N.of_nat (String.length s) < 2 ^ 32 -> expressible (MStr s)
| ex_number s : N.of_nat (String.length s) < 2 ^ 32 -> expressible (MNumber s)
| ex_slice l : N.of_nat (List.length l) < 2 ^ 32 -> (forall x, In x l -> expressible x) -> expressible (MSlice l)
| ex_map l : N.of_nat (List.length l) < 2 ^ 32 -> NoDup (map fst l) ->
    (forall k x, In (k, x) l -> N.of_nat (String.length k) < 2 ^ 32) -> (forall k x, In (k, x) l -> expressible x) -> expressible (MMap l).
Definition expressible_field (f : mfield) : Prop :=
  match f with
  | MfText s => expressible (MStr s) | MfInt z => expressible (MInt z) | MfUint n => expressible (MUint n) | MfBool _ => True | MfAny v => expressible v
  end.
Definition expressible_record (e : mentry) : Prop :=
  Forall (fun s => expressible (MStr s)) [m_stream e; m_atype e; m_aid e; m_eid e; m_etype e]
  /\ m_gsn e < 2 ^ 64 /\ m_ssn e < 2 ^ 64 /\ m_ts e < 2 ^ 64 /\ expressible (m_meta e)
  /\ match m_data e with
     | MValue v => expressible v
     | MStruct l => N.of_nat (List.length l) < 2 ^ 32 /\ Forall (fun f => expressible (MStr (fst f)) /\ expressible_field (snd f)) l
     | MRaw _ => True
     end.
