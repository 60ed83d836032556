(** The data cell of a page of records. *)
From Verif Require Import Base Json JsonText RecordIo.
Open Scope string_scope.

(** pkg/rangedbui/functions.go:27-30 [formatJson]: json.Marshal; the error is dropped and
    what is left is the empty text.  Simplification: data is a tree of Go values as in
    Json.v, [show] is how a float64 is printed. *)
Definition format_json (show : float -> num) (v : goval) : string :=
  if numbers_ok (encode show v) then print (encode show v) else "".
