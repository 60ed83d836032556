(** The list of events of HttpStorySpec.v, kept by a process that may die: the
    specification of C100. *)
From Verif Require Import Base PathSpec Json Http HttpSpec HttpStorySpec HttpCrash.
Open Scope list_scope.
Open Scope N_scope.

(** What happens, in terms of what the clients want. *)
Inductive deed := Wanted (w : wish) | Interrupted (w : wish) | Rebooted.

Definition happens (h : happening) (d : deed) : Prop :=
  match h, d with
  | Asked q, Wanted w => says q w
  | DiedIn q _, Interrupted w => says q w
  | Restarted, Rebooted => True
  | _, _ => False
  end.

Definition wish_of (d : deed) : list wish := match d with Wanted w | Interrupted w => [w] | Rebooted => [] end.

Definition delete_refused_by (w : wish) (a : answer) : Prop :=
  match w with Delete _ _ => forall body, a <> Answer 200 body | _ => False end.

(** A life: what was wanted, what the clients saw, what is in the book in the end.
    - A request is answered as the book says, or not at all; the latter only after a
      delete was refused (C18) and before the next restart, and then it changes nothing.
    - A request during which the process dies has happened wholly, or not at all.
    - A restart changes nothing.
    [stuck]: a delete was refused since the last restart. *)
Inductive life (show : json -> string) : Prop -> book -> list deed -> list answer -> book -> Prop :=
| over (stuck : Prop) b : life show stuck b [] [] b
| answered (stuck : Prop) b w a b1 ds l b2 :
    served show b w a b1 -> life show (stuck \/ delete_refused_by w a) b1 ds l b2 ->
    life show stuck b (Wanted w :: ds) (a :: l) b2
| hung (stuck : Prop) b w ds l b2 :
    stuck -> life show stuck b ds l b2 -> life show stuck b (Wanted w :: ds) (NoAnswer :: l) b2
| struck_before (stuck : Prop) b w ds l b2 :
    life show False b ds l b2 -> life show stuck b (Interrupted w :: ds) l b2
| struck_after (stuck : Prop) b w a b1 ds l b2 :
    served show b w a b1 -> life show False b1 ds l b2 -> life show stuck b (Interrupted w :: ds) l b2
| rebooted (stuck : Prop) b ds l b2 :
    life show False b ds l b2 -> life show stuck b (Rebooted :: ds) l b2.
