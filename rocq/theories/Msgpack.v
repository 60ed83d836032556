(** Record streams in MessagePack:
    provider/msgpackrecordserializer/msgpack_record_serializer.go and
    provider/msgpackrecordiostream/msgpack_record_io_stream.go, on the part of
    github.com/vmihailenco/msgpack/v4 (v4.3.11) they call.  The library is not in
    /repo; the bytes agree with the ones its users' tests pin down
    (msgpack_record_serializer_test.go:158, 189). *)
From Coq Require Import ZArith.
From Verif Require Import Base DecText Json.
Open Scope string_scope.
Open Scope N_scope.

(** Go values.  A map is kept with its keys sorted, each once.  [MNumber]: a
    json.Number, for msgpack a string like any other.  A float64 is given by its
    bits.  Simplification: the other sized integers, []byte and structs inside
    interface{} values are left out. *)
Inductive mval :=
| MNil
| MBool (b : bool)
| MInt (z : Z)        (* int, int64 *)
| MUint (n : N)       (* uint64 *)
| MFloat (bits : N)   (* float64 *)
| MStr (s : string)
| MNumber (s : string)
| MSlice (l : list mval)
| MMap (l : list (string * mval)).

(** Fields of a Go struct, as in RecordIo.v. *)
Inductive mfield := MfText (s : string) | MfInt (z : Z) | MfUint (n : N) | MfBool (b : bool) | MfAny (v : mval).

(** The data of a record: a struct, any other value, or the raw event of
    store.go:164-195 holding a value. *)
Inductive mpayload := MValue (v : mval) | MStruct (l : list (string * mfield)) | MRaw (v : mval).

(** store.go:14-25 [Record]. *)
Record mentry := mk_mentry {
  m_stream : string; m_atype : string; m_aid : string;
  m_gsn : N; m_ssn : N; m_ts : N;
  m_eid : string; m_etype : string;
  m_data : mpayload; m_meta : mval
}.
Inductive mitem := MRec (e : mentry) | MBad (x : err).

(** * Encoding *)

Definition byte (n : N) : ascii := ascii_of_N (n mod 256).
(** encoding/binary.BigEndian: the last [k] bytes of a number. *)
Fixpoint big_endian (k : nat) (n : N) : string :=
  match k with O => "" | S k' => String (byte (n / 256 ^ N.of_nat k')) (big_endian k' n) end.

(** A 64-bit two's complement number. *)
Definition to_u64 (z : Z) : N := Z.to_N (z mod 2 ^ 64).
Definition of_u64 (n : N) : Z := if n <? 2 ^ 63 then Z.of_N n else (Z.of_N n - 2 ^ 64)%Z.

(** encode_number.go [EncodeInt64], [EncodeUint64], [EncodeFloat64]: no compact
    encoding. *)
Definition put_int (z : Z) : string := String "211" (big_endian 8 (to_u64 z)).
Definition put_uint (n : N) : string := String "207" (big_endian 8 n).
Definition put_float (n : N) : string := String "203" (big_endian 8 n).

(** encode_slice.go [encodeStringLen], [EncodeArrayLen], encode_map.go
    [EncodeMapLen]; above 2^32-1 the length is cut off. *)
Definition put_length (fix_code fix_max : N) (code8 : option N) (code16 code32 n : N) : string :=
  if n <? fix_max then String (byte (fix_code + n)) ""
  else match code8 with
       | Some c => if n <? 256 then String (byte c) (big_endian 1 n)
                   else if n <? 65536 then String (byte code16) (big_endian 2 n)
                   else String (byte code32) (big_endian 4 n)
       | None => if n <? 65536 then String (byte code16) (big_endian 2 n)
                 else String (byte code32) (big_endian 4 n)
       end.
Definition size (s : string) : N := N.of_nat (String.length s).
Definition count {A} (l : list A) : N := N.of_nat (List.length l).
Definition put_string (s : string) : string := put_length 160 32 (Some 217) 218 219 (size s) ++ s.
Definition put_array_len (n : N) : string := put_length 144 16 None 220 221 n.
Definition put_map_len (n : N) : string := put_length 128 16 None 222 223 n.

Section Order.
(** The order in which Go hands out the entries of a map with these keys: any. *)
Variable order : list string -> list string.

Definition lookup {A} (k : string) (l : list (string * A)) : option A :=
  match List.find (fun p => String.eqb (fst p) k) l with Some p => Some (snd p) | None => None end.

(** encode_map.go [encodeMapStringInterfaceValue] writes the entries in that order:
    the encoded values are looked up by key. *)
Definition entries (l : list (string * string)) : string :=
  fold_right (fun k rest => match lookup k l with Some t => put_string k ++ t ++ rest | None => rest end)
             "" (order (map fst l)).

(** encode.go, encode_value.go. *)
Fixpoint put_value (v : mval) : string :=
  match v with
  | MNil => String "192" ""
  | MBool true => String "195" ""
  | MBool false => String "194" ""
  | MInt z => put_int z
  | MUint n => put_uint n
  | MFloat n => put_float n
  | MStr s => put_string s
  | MNumber s => put_string s
  | MSlice l => put_array_len (count l) ++ fold_right (fun x rest => put_value x ++ rest) "" l
  | MMap l => put_map_len (count l) ++ entries (map (fun p => (fst p, put_value (snd p))) l)
  end.

Definition put_field (f : mfield) : string :=
  match f with
  | MfText s => put_string s
  | MfInt z => put_int z
  | MfUint n => put_uint n
  | MfBool b => put_value (MBool b)
  | MfAny v => put_value v
  end.
(** encode_map.go [encodeStructValue]: the fields in their order, under their msgpack
    or JSON names. *)
Definition put_struct (l : list (string * mfield)) : string :=
  put_map_len (count l) ++ fold_right (fun p rest => put_string (fst p) ++ put_field (snd p) ++ rest) "" l.

(** A raw event has no exported field, and no msgpack method: it is written as an
    empty struct. *)
Definition put_payload (d : mpayload) : string :=
  match d with MValue v => put_value v | MStruct l => put_struct l | MRaw _ => put_struct [] end.

(** msgpack_record_serializer.go:44-65 [MarshalRecord] with the names of
    store.go:14-25: the record without its data, then the data. *)
Definition header (e : mentry) : list (string * mfield) :=
  [("n", MfText (m_stream e)); ("a", MfText (m_atype e)); ("i", MfText (m_aid e));
   ("g", MfUint (m_gsn e)); ("s", MfUint (m_ssn e)); ("u", MfUint (m_ts e));
   ("e", MfText (m_eid e)); ("t", MfText (m_etype e)); ("d", MfAny MNil); ("m", MfAny (m_meta e))].
Definition put_record (e : mentry) : string := put_struct (header e) ++ put_payload (m_data e).

(** msgpack_record_io_stream.go:28-51 [Write].  Next is false for an error as it is
    at the end (record_iterator.go:17-25), so the error check inside the loop (34-37)
    never sees one.  Simplification: values msgpack refuses (channels, functions) are
    not in the model, so there is no marshalling error. *)
Fixpoint msgpack_write (l : list mitem) : string * option err :=
  match l with
  | MRec e :: rest => let (w, x) := msgpack_write rest in (put_record e ++ w, x)
  | _ => ("", None)
  end.
End Order.

(** * Decoding *)

(** What reading yields: a value and the bytes behind it; io.EOF (no byte was left
    when one was asked for); or another error (io.ErrUnexpectedEOF, wrong code). *)
Inductive got (A : Type) := Got (x : A) (rest : string) | End | Wrong.
Arguments Got {A}. Arguments End {A}. Arguments Wrong {A}.
Definition then_read {A B} (g : got A) (k : A -> string -> got B) : got B :=
  match g with Got x s => k x s | End => End | Wrong => Wrong end.

Definition read_code (s : string) : got N :=
  match s with EmptyString => End | String a r => Got (N_of_ascii a) r end.

(** decode.go [readN], io.ReadFull: EOF if nothing is there, unexpected EOF if less
    than [n] bytes are. *)
Fixpoint take (n : nat) (s : string) : option (string * string) :=
  match n, s with
  | O, _ => Some ("", s)
  | S n', String a r => match take n' r with Some (x, r') => Some (String a x, r') | None => None end
  | S _, EmptyString => None
  end.
Definition read_n (n : N) (s : string) : got string :=
  match s with
  | EmptyString => if n =? 0 then Got "" "" else End
  | _ => if size s <? n then Wrong
         else match take (N.to_nat n) s with Some (x, r) => Got x r | None => Wrong end
  end.
Definition value_of_bytes (s : string) : N :=
  (fix go (a : N) (s : string) : N := match s with EmptyString => a | String c r => go (a * 256 + N_of_ascii c) r end) 0 s.
Definition read_big (n : N) (s : string) : got N := then_read (read_n n s) (fun x r => Got (value_of_bytes x) r).

Definition in_range (lo hi c : N) : bool := (lo <=? c) && (c <=? hi).

(** decode_string.go [bytesLen] for text codes (bin codes are never written); a nil
    reads as no text. *)
Definition read_string_as (c : N) (s : string) : got string :=
  if c =? 192 then Got "" s
  else if in_range 160 191 c then read_n (c - 160) s
  else if c =? 217 then then_read (read_big 1 s) read_n
  else if c =? 218 then then_read (read_big 2 s) read_n
  else if c =? 219 then then_read (read_big 4 s) read_n
  else Wrong.
Definition read_string (s : string) : got string := then_read (read_code s) read_string_as.

(** decode_map.go [mapLen], decode_slice.go [arrayLen]; nil lengths are handled by the
    callers. *)
Definition read_map_len (c : N) (s : string) : got N :=
  if in_range 128 143 c then Got (c - 128) s
  else if c =? 222 then read_big 2 s
  else if c =? 223 then read_big 4 s
  else Wrong.
Definition read_array_len (c : N) (s : string) : got N :=
  if in_range 144 159 c then Got (c - 144) s
  else if c =? 220 then read_big 2 s
  else if c =? 221 then read_big 4 s
  else Wrong.

(** decode.go [DecodeInterface], for the codes the encoder writes (simplification:
    the other codes are errors here). *)
Fixpoint get_value (fuel : nat) (s : string) : got mval :=
  match fuel with
  | O => Wrong
  | S f =>
      then_read (read_code s) (fun c r =>
        if c =? 192 then Got MNil r
        else if c =? 195 then Got (MBool true) r
        else if c =? 194 then Got (MBool false) r
        else if c =? 211 then then_read (read_big 8 r) (fun n r' => Got (MInt (of_u64 n)) r')
        else if c =? 207 then then_read (read_big 8 r) (fun n r' => Got (MUint n) r')
        else if c =? 203 then then_read (read_big 8 r) (fun n r' => Got (MFloat n) r')
        else if in_range 160 191 c || in_range 217 219 c then then_read (read_string_as c r) (fun t r' => Got (MStr t) r')
        else if in_range 144 159 c || in_range 220 221 c then
          then_read (read_array_len c r) (fun n r' => then_read (get_list f n r') (fun l r'' => Got (MSlice l) r''))
        else if in_range 128 143 c || in_range 222 223 c then
          then_read (read_map_len c r) (fun n r' => then_read (get_map f n [] r') (fun l r'' => Got (MMap l) r''))
        else Wrong)
  end
with get_list (fuel : nat) (n : N) (s : string) : got (list mval) :=
  match fuel with
  | O => Wrong
  | S f =>
      if n =? 0 then Got [] s
      else then_read (get_value f s) (fun x r => then_read (get_list f (n - 1) r) (fun l r' => Got (x :: l)%list r'))
  end
with get_map (fuel : nat) (n : N) (m : list (string * mval)) (s : string) : got (list (string * mval)) :=
  match fuel with
  | O => Wrong
  | S f =>
      if n =? 0 then Got m s
      else then_read (read_string s) (fun k r => then_read (get_value f r) (fun x r' => get_map f (n - 1) (put k x m) r'))
  end.
(** [fuel]: enough for a text of this length. *)
Definition enough (s : string) : nat := (2 * String.length s + 2)%nat.

(** decode_number.go [DecodeInt64], [DecodeUint64] on the codes written here, a nil
    reads as 0; decode_value.go for the other kinds of fields. *)
Definition get_number (s : string) : got N :=
  then_read (read_code s) (fun c r =>
    if c =? 192 then Got 0 r
    else if (c =? 211) || (c =? 207) then read_big 8 r
    else Wrong).
Definition get_field (f : mfield) (s : string) : got mfield :=
  match f with
  | MfText _ => then_read (read_string s) (fun t r => Got (MfText t) r)
  | MfInt _ => then_read (get_number s) (fun n r => Got (MfInt (of_u64 n)) r)
  | MfUint _ => then_read (get_number s) (fun n r => Got (MfUint n) r)
  | MfBool _ => then_read (read_code s) (fun c r =>
      if c =? 195 then Got (MfBool true) r else if c =? 194 then Got (MfBool false) r else Wrong)
  | MfAny _ => then_read (get_value (enough s) s) (fun v r => Got (MfAny v) r)
  end.
Fixpoint replace_field (k : string) (f : mfield) (l : list (string * mfield)) : list (string * mfield) :=
  match l with
  | [] => []
  | (k', f') :: rest => if String.eqb k' k then ((k', f) :: rest)%list else ((k', f') :: replace_field k f rest)%list
  end.

(** decode_map.go [decodeStructValue]: unknown names are skipped with their value.
    A loop over [n] members; [fuel] as for values. *)
Fixpoint get_members (fuel : nat) (n : N) (l : list (string * mfield)) (s : string) : got (list (string * mfield)) :=
  match fuel with
  | O => Wrong
  | S f =>
      if n =? 0 then Got l s
      else then_read (read_string s) (fun k r =>
             match lookup k l with
             | Some fd => then_read (get_field fd r) (fun fd' r' => get_members f (n - 1) (replace_field k fd' l) r')
             | None => then_read (get_value (enough r) r) (fun _ r' => get_members f (n - 1) l r')
             end)
  end.
Definition get_struct (zero : list (string * mfield)) (s : string) : got (list (string * mfield)) :=
  then_read (read_code s) (fun c r =>
    if c =? 192 then Got zero r
    else then_read (read_map_len c r) (fun n r' => get_members (enough r') n zero r')).

Definition empty_mrecord : list (string * mfield) :=
  [("n", MfText ""); ("a", MfText ""); ("i", MfText ""); ("g", MfUint 0); ("s", MfUint 0); ("u", MfUint 0);
   ("e", MfText ""); ("t", MfText ""); ("d", MfAny MNil); ("m", MfAny MNil)].

Section Reader.
(** The event types bound to the reader, with their zero structs. *)
Variable types : string -> option (list (string * mfield)).

Definition get_payload (etype : string) (s : string) : got mpayload :=
  match types etype with
  | Some zero => then_read (get_struct zero s) (fun l r => Got (MStruct l) r)
  | None => then_read (get_value (enough s) s) (fun v r => Got (MValue v) r)
  end.

(** msgpack_record_serializer.go:71-108 [UnmarshalRecord]: an EOF anywhere inside the
    record proper is passed on as ErrorEOF, inside the data it is a failure. *)
Definition get_record (s : string) : got mentry :=
  match get_struct empty_mrecord s with
  | End => End
  | Got [(_, MfText stream); (_, MfText atype); (_, MfText aid); (_, MfUint gsn); (_, MfUint ssn); (_, MfUint ts);
         (_, MfText eid); (_, MfText etype); (_, MfAny _); (_, MfAny meta)] r =>
      match get_payload etype r with
      | Got d r' => Got (mk_mentry stream atype aid gsn ssn ts eid etype d meta) r'
      | _ => Wrong
      end
  | _ => Wrong
  end.

(** msgpack_record_io_stream.go:53-85 [Read]: ends at ErrorEOF. *)
Fixpoint mrecords (fuel : nat) (s : string) : list mitem :=
  match fuel with
  | O => []
  | S f =>
      match get_record s with
      | Got e r => (MRec e :: mrecords f r)%list
      | End => []
      | Wrong => [MBad EDeserialize]
      end
  end.
Definition msgpack_read (s : string) : list mitem := mrecords (S (String.length s)) s.
End Reader.
