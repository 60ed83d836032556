(** The notebook of HttpBytesSpec.v, kept by a process that may die: the specification
    of C104. *)
From Verif Require Import Base Json Http HttpSpec HttpStorySpec HttpBytes HttpBytesSpec HttpBytesCrash.
Open Scope list_scope.
Open Scope N_scope.

(** What happens, with what the clients want by it. *)
Inductive chapter := Told (q : wire) (w : wish) | Cut (q : wire) (w : wish) | Again.
Definition recounts (m : moment) (c : chapter) : Prop :=
  match m, c with
  | Asks q, Told q' w => q = q' /\ wants q w /\ sane_stamps q
  | Dies q _, Cut q' w => q = q' /\ wants q w /\ sane_stamps q
  | Restarts, Again => True
  | _, _ => False
  end.
Definition wishes (c : chapter) : list wish := match c with Told _ w | Cut _ w => [w] | Again => [] end.
Definition is_told (c : chapter) : bool := match c with Told _ _ => true | _ => false end.

Definition refuses_delete (w : wish) (a : reply_bytes) : Prop :=
  match w with Delete _ _ => forall body, a <> Bytes 200 body | _ => False end.

(** What was wanted, the bytes the clients got, what is in the notebook in the end.
    - A request is answered as the notebook says, or not at all; the latter only after a
      delete was refused (C18) and before the next restart, and then it changes nothing.
    - A request during which the process dies has happened wholly, or not at all.
    - A restart changes nothing.
    [stuck]: a delete was refused since the last restart. *)
Inductive chronicle (back : num -> num) : Prop -> notebook -> list chapter -> list reply_bytes -> notebook -> Prop :=
| c_end (stuck : Prop) b : chronicle back stuck b [] [] b
| c_answered (stuck : Prop) b q w a b1 cs l b2 :
    answered back b q w a b1 -> chronicle back (stuck \/ refuses_delete w a) b1 cs l b2 ->
    chronicle back stuck b (Told q w :: cs) (a :: l) b2
| c_hung (stuck : Prop) b q w cs l b2 :
    stuck -> chronicle back stuck b cs l b2 -> chronicle back stuck b (Told q w :: cs) (Silence :: l) b2
| c_before (stuck : Prop) b q w cs l b2 :
    chronicle back False b cs l b2 -> chronicle back stuck b (Cut q w :: cs) l b2
| c_after (stuck : Prop) b q w a b1 cs l b2 :
    answered back b q w a b1 -> chronicle back False b1 cs l b2 -> chronicle back stuck b (Cut q w :: cs) l b2
| c_again (stuck : Prop) b cs l b2 :
    chronicle back False b cs l b2 -> chronicle back stuck b (Again :: cs) l b2.

(** Nobody wanted to delete the stream. *)
Definition spared (name : string) (c : chapter) : Prop := forall n, ~ In (Delete name n) (wishes c).
