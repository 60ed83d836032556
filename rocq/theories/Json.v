(** JSON payloads on their way through the gRPC and HTTP interfaces:
    pkg/grpc/rangedbserver/server.go, pkg/grpc/rangedbpb/translate.go,
    provider/jsonrecordserializer/json_record_serializer.go, pkg/rangedbapi/api.go. *)
From Coq Require Import ZArith.
From Verif Require Import Base.
Open Scope string_scope.
Open Scope Z_scope.

(** A number literal: an integer, or any other literal (fraction, exponent). *)
Inductive num := Int (z : Z) | Lit (s : string).

(** A JSON text, as its parse tree: members of objects in their order, repeated
    names included.  Simplification: strings are valid UTF-8; printing and parsing of the
    tree are left out here and modelled in JsonText.v. *)
Inductive json :=
| JNull
| JBool (b : bool)
| JNum (n : num)
| JStr (s : string)
| JArr (l : list json)
| JObj (l : list (string * json)).

(** A float64: integral, or something else identified by a name. *)
Inductive float := FInt (z : Z) | FOther (s : string).

(** The Go values encoding/json decodes into an interface{}.  A map is kept with
    its keys sorted, each once: maps equal in Go are equal here. *)
Inductive goval :=
| GNil
| GBool (b : bool)
| GFloat (f : float)          (* float64 *)
| GNumber (n : num)           (* json.Number *)
| GStr (s : string)
| GSlice (l : list goval)
| GMap (l : list (string * goval)).

(** Nearest float64 to an integer, ties to even (below 2^1024). *)
Definition f64 (z : Z) : Z :=
  if Z.abs z <? 2 ^ 53 then z
  else let u := 2 ^ (Z.log2 (Z.abs z) - 52) in
       let q := Z.abs z / u in
       let r := Z.abs z mod u in
       let q' := if 2 * r <? u then q else if u <? 2 * r then q + 1 else if Z.even q then q else q + 1 in
       Z.sgn z * (q' * u).

Fixpoint put {A} (k : string) (v : A) (m : list (string * A)) : list (string * A) :=
  match m with
  | [] => [(k, v)]
  | (k', v') :: rest =>
      match String.compare k k' with
      | Lt => (k, v) :: m
      | Eq => (k, v) :: rest
      | Gt => (k', v') :: put k v rest
      end
  end.

Section Floats.
(** strconv.ParseFloat on literals that are not integers, and the printing of
    encoding/json's floatEncoder. *)
Variable of_lit : string -> float.
Variable show : float -> num.

Definition float_of (n : num) : float := match n with Int z => FInt (f64 z) | Lit s => of_lit s end.

(** encoding/json decoding into an interface{}: with UseNumber ([exact]) numbers keep
    their text (json_record_serializer.go:39, 76), without it they become float64
    (server.go:166, 178, 221, 233; translate.go:51; api.go:268).
    Of a repeated member name the last one counts. *)
Fixpoint decode (exact : bool) (j : json) : goval :=
  match j with
  | JNull => GNil
  | JBool b => GBool b
  | JNum n => if exact then GNumber n else GFloat (float_of n)
  | JStr s => GStr s
  | JArr l => GSlice (map (decode exact) l)
  | JObj l => GMap ((fix go (acc : list (string * goval)) (l : list (string * json)) :=
                       match l with
                       | [] => acc
                       | (k, v) :: rest => go (put k (decode exact v) acc) rest
                       end) [] l)
  end.

(** encoding/json encoding: keys of a map come out sorted. *)
Fixpoint encode (v : goval) : json :=
  match v with
  | GNil => JNull
  | GBool b => JBool b
  | GFloat f => JNum (show f)
  | GNumber n => JNum n
  | GStr s => JStr s
  | GSlice l => JArr (map encode l)
  | GMap l => JObj (map (fun p => (fst p, encode (snd p))) l)
  end.

(** * The way of a payload *)

(** server.go:165-189 [OptimisticSave], 220-244 [Save]; api.go:260-282
    [getEventRecords]: the request's JSON becomes the data of a raw event. *)
Definition received_value (j : json) : goval := decode false j.

(** store.go:193-195 [rawEvent.MarshalJSON] through json_record_serializer.go:28-35
    [Serialize]: what the store keeps. *)
Definition stored_text (j : json) : json := encode (received_value j).

(** json_record_serializer.go:37-42, 51-93 [Deserialize] for an event type the
    server does not know.  The data is first taken as raw text; a null leaves that
    text empty, and decoding an empty text fails with EOF ([None]). *)
Definition load_data (j : json) : option goval :=
  match j with JNull => None | _ => Some (decode true j) end.
Definition load_meta (j : json) : goval := decode true j.

(** translate.go:13-36 [ToPbRecord] and 39-69 [ToRecord]: data is decoded with
    UseNumber, metadata without, unless it is the text null. *)
Record pb := mk_pb { pb_head : record; pb_data : json; pb_meta : json }.
Record grecord := mk_grecord { g_head : record; g_data : goval; g_meta : goval }.
Definition to_pb (r : grecord) : pb := mk_pb (g_head r) (encode (g_data r)) (encode (g_meta r)).
Definition of_pb (p : pb) : grecord :=
  mk_grecord (pb_head p) (decode true (pb_data p))
    (match pb_meta p with JNull => GNil | m => decode false m end).

(** The data text the client's decoder is given for an event that was saved with
    data [j] through the remote store; [None]: the server cannot read the record. *)
Definition data_back (j : json) : option json :=
  match load_data (stored_text j) with Some v => Some (encode v) | None => None end.

(** The metadata value the client gets. *)
Definition meta_back (j : json) : goval :=
  g_meta (of_pb (mk_pb (mk_record "" "" "" 0 0 0 "" "" "" "") JNull (encode (load_meta (stored_text j))))).
End Floats.

(** Decoding a number into a Go int64 field; [None] is an UnmarshalTypeError. *)
Definition as_int64 (n : num) : option Z :=
  match n with Int z => if (- 2 ^ 63 <=? z) && (z <? 2 ^ 63) then Some z else None | Lit _ => None end.
