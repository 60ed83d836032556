(** Independent vocabulary for statements about MessagePack record streams. *)
From Coq Require Import ZArith Permutation.
From Verif Require Import Base Json JsonSpec Msgpack.
Open Scope string_scope.
Open Scope N_scope.

(** Lengths MessagePack can express. *)
Definition fits (s : string) : Prop := size s < 2 ^ 32.

(** Values MessagePack has a form of its own for, within the ranges of their Go
    types: everything but json.Number. *)
Inductive plain_value : mval -> Prop :=
| plain_nil : plain_value MNil
| plain_bool b : plain_value (MBool b)
| plain_int z : (- 2 ^ 63 <= z < 2 ^ 63)%Z -> plain_value (MInt z)
| plain_uint n : n < 2 ^ 64 -> plain_value (MUint n)
| plain_float n : n < 2 ^ 64 -> plain_value (MFloat n)
| plain_str s : fits s -> plain_value (MStr s)
| plain_slice l : count l < 2 ^ 32 -> (forall x, In x l -> plain_value x) -> plain_value (MSlice l)
| plain_map l : count l < 2 ^ 32 -> keys_sorted l -> (forall k x, In (k, x) l -> fits k /\ plain_value x) -> plain_value (MMap l).

Definition of_mtype (zero f : mfield) : Prop :=
  match zero, f with
  | MfText _, MfText s => fits s
  | MfInt _, MfInt z => (- 2 ^ 63 <= z < 2 ^ 63)%Z
  | MfUint _, MfUint n => n < 2 ^ 64
  | MfBool _, MfBool _ => True
  | MfAny _, MfAny v => plain_value v
  | _, _ => False
  end.

Definition mdata_of_type (types : string -> option (list (string * mfield))) (etype : string) (d : mpayload) : Prop :=
  match types etype, d with
  | Some zero, MStruct l =>
      NoDup (map fst zero) /\ count zero < 2 ^ 32
      /\ Forall2 (fun z f => fst z = fst f /\ fits (fst f) /\ of_mtype (snd z) (snd f)) zero l
  | None, MValue v => plain_value v
  | _, _ => False
  end.

Definition mordinary (types : string -> option (list (string * mfield))) (e : mentry) : Prop :=
  fits (m_stream e) /\ fits (m_atype e) /\ fits (m_aid e) /\ fits (m_eid e) /\ fits (m_etype e)
  /\ m_gsn e < 2 ^ 64 /\ m_ssn e < 2 ^ 64 /\ m_ts e < 2 ^ 64
  /\ plain_value (m_meta e) /\ mdata_of_type types (m_etype e) (m_data e).

(** Reading part of a stream: the first records, then the end or an error. *)
Definition mpart_of (es : list mentry) (out : list mitem) : Prop :=
  exists k, out = map MRec (firstn k es) \/ out = (map MRec (firstn k es) ++ [MBad EDeserialize])%list.

(** Go may hand out the entries of a map in any order. *)
Definition any_order (order : list string -> list string) : Prop := forall l, Permutation l (order l).
