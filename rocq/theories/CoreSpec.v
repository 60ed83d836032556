(** Independent vocabulary for the statements about the root package. *)
From Coq Require Export Sorted Permutation.
From Verif Require Import Base.

(** The records published before the first error. *)
Fixpoint before_error (l : list result) : list record :=
  match l with
  | RRec r :: rest => r :: before_error rest
  | _ => []
  end.

(** The first error published, if any. *)
Fixpoint first_error (l : list result) : option err :=
  match l with
  | [] => None
  | RRec _ :: rest => first_error rest
  | RErr e :: _ => Some e
  end.

(** Global sequence numbers strictly increase along the list. *)
Definition gsn_increasing (l : list record) : Prop :=
  StronglySorted (fun a b => r_gsn a < r_gsn b) l.

(** No "!" in a string. *)
Fixpoint no_char (a : ascii) (s : string) : Prop :=
  match s with
  | EmptyString => True
  | String b rest => b <> a /\ no_char a rest
  end.
