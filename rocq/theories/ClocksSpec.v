(** What it means that the clock and the ID generator of a store are good ones, over the
    events in the order in which they are passed to the store.

    An event carries the time and the ID it is given if it gets as far (Base.v).  A batch
    that is refused half-way does not ask for those of the rest; these may be taken to be
    any, so that the conditions do not restrict them. *)
From Coq Require Import Sorting.Sorted.
From Verif Require Import Base.

Definition batch (o : op) : list event := match o with OpSave _ _ evs _ => evs | _ => [] end.
Definition passed (ops : list op) : list event := flat_map batch ops.

(** The clock never goes back; no ID is given out twice. *)
Definition clock_never_back (ops : list op) : Prop := StronglySorted N.le (map ev_now (passed ops)).
Definition fresh_ids (ops : list op) : Prop := NoDup (map ev_uuid (passed ops)).

(** One list is part of another, in the same order. *)
Inductive part_of {A} : list A -> list A -> Prop :=
| po_nil : forall l, part_of [] l
| po_take : forall x l l', part_of l l' -> part_of (x :: l) (x :: l')
| po_skip : forall x l l', part_of l l' -> part_of l (x :: l').
