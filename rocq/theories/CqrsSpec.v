(** Vocabulary of the statements about dispatching commands. *)
From Verif Require Import Base Core Cqrs.
Open Scope list_scope.

(** [part] keeps some of the elements of [whole], in order. *)
Inductive subsequence {A} : list A -> list A -> Prop :=
| sub_nil : subsequence [] []
| sub_keep x part whole : subsequence part whole -> subsequence (x :: part) (x :: whole)
| sub_drop x part whole : subsequence part whole -> subsequence part (x :: whole).

(** The state an aggregate reaches from the beginning by a history. *)
Definition replay {E S} (apply : S -> E -> S) (init : S) (history : list E) : S := fold_left apply history init.

(** Loading a history onto a state that has seen a beginning of it gives the same as
    loading it onto a new aggregate. *)
Definition reloadable {E S} (apply : S -> E -> S) (init : S) : Prop :=
  forall before more, replay apply (replay apply init before) (before ++ more) = replay apply init (before ++ more).

(** The schedule takes steps of dispatch [i] only. *)
Definition only {C} (i : nat) (ls : list (label C)) : Prop :=
  forall l, In l ls -> exists cut ok, l = LStep i cut ok.

(** No aggregate has events pending. *)
Definition nothing_pending {E S} (insts : list (S * list E)) : Prop := forall st p, In (st, p) insts -> p = [].
