(** Independent vocabulary for the statements about JSON payloads. *)
From Coq Require Import ZArith.
From Verif Require Import Base Json.
Open Scope Z_scope.

(** One step down a JSON text: an element of an array, a member of an object. *)
Inductive step := Elem (i : nat) | Member (k : string).

Fixpoint last_member {A} (k : string) (l : list (string * A)) : option A :=
  match l with
  | [] => None
  | (k', v) :: rest =>
      match last_member k rest with
      | Some x => Some x
      | None => if String.eqb k k' then Some v else None
      end
  end.

(** The value found by walking down a text; of members with the same name the last
    one is meant (as every JSON decoder of Go does). *)
Fixpoint at_ (path : list step) (j : json) : option json :=
  match path with
  | [] => Some j
  | Elem i :: rest => match j with JArr l => match nth_error l i with Some x => at_ rest x | None => None end | _ => None end
  | Member k :: rest => match j with JObj l => match last_member k l with Some x => at_ rest x | None => None end | _ => None end
  end.

(** The same in a Go value. *)
Fixpoint find (path : list step) (v : goval) : option goval :=
  match path with
  | [] => Some v
  | Elem i :: rest => match v with GSlice l => match nth_error l i with Some x => find rest x | None => None end | _ => None end
  | Member k :: rest => match v with GMap l => match last_member k l with Some x => find rest x | None => None end | _ => None end
  end.

(** A Go map lists its keys in order, each once. *)
Fixpoint keys_sorted {A} (l : list (string * A)) : Prop :=
  match l with
  | (k, _) :: (((k', _) :: _) as rest) => String.compare k k' = Lt /\ keys_sorted rest
  | _ => True
  end.

(** The float64 values: those some literal denotes. *)
Definition is_float64 (of_lit : string -> float) (f : float) : Prop := exists n, float_of of_lit n = f.

(** All numbers inside are of one Go type: json.Number, or float64. *)
Inductive value_of (of_lit : string -> float) (exact : bool) : goval -> Prop :=
| VNil : value_of of_lit exact GNil
| VBool b : value_of of_lit exact (GBool b)
| VStr s : value_of of_lit exact (GStr s)
| VNumber n : exact = true -> value_of of_lit exact (GNumber n)
| VFloat f : exact = false -> is_float64 of_lit f -> value_of of_lit exact (GFloat f)
| VSlice l : (forall x, In x l -> value_of of_lit exact x) -> value_of of_lit exact (GSlice l)
| VMap l : keys_sorted l -> (forall k x, In (k, x) l -> value_of of_lit exact x) -> value_of of_lit exact (GMap l).

(** What Go promises about printing floats: the printed text reads back as the same
    float64, and integral values below 1e21 are printed as integers. *)
Definition prints_back (of_lit : string -> float) (show : float -> num) : Prop :=
  forall f, is_float64 of_lit f -> float_of of_lit (show f) = f.
Definition prints_integers (show : float -> num) : Prop :=
  forall z, Z.abs z < 10 ^ 21 -> exists p, show (FInt z) = Int p.
