(** Vocabulary of the statements about the LevelDB store. *)
From Verif Require Import Base LogSpec StoreSpec.

Definition two64 : N := 18446744073709551616.

(** The byte pair "$!" does not occur in the name. *)
Definition clean (s : string) : Prop := forall a b, s <> (a ++ "$!" ++ b)%string.

(** An empty aggregate type (or ID) at the head of a batch only with all of them empty. *)
Definition definite_batch (evs : list event) : Prop :=
  match evs with
  | [] => True
  | e0 :: _ => (ev_atype e0 = "" -> forall e, In e evs -> ev_atype e = "")
               /\ (ev_aid e0 = "" -> forall e, In e evs -> ev_aid e = "")
  end.

(** Calls covered by the refinement: names without "$!", numbers that fit into 64
    bits, no type asked for twice. *)
Definition clean_call (o : op) : Prop :=
  match o with
  | OpSave _ s evs _ => clean s /\ Forall (fun e => clean (ev_atype e)) evs /\ definite_batch evs
  | OpDelete _ s _ => clean s
  | OpEvents g => g < two64
  | OpByTypes g ts => g < two64 /\ NoDup ts /\ Forall clean ts
  | OpByStream _ s => clean s
  | OpTotal s _ => clean s
  end.

Definition added (o : op) : N := match o with OpSave _ _ evs _ => N.of_nat (length evs) | _ => 0 end.

Definition events_in (ops : list op) : N := fold_right (fun o n => added o + n) 0 ops.

(** A delete that the store refuses leaves a transaction open. *)
Definition refused_delete (o : op) (x : out) : Prop :=
  match o, x with
  | OpDelete _ _ _, OutFailed e => e <> ECanceled
  | _, _ => False
  end.

(** Calls that returned, with their answers. *)
Fixpoint returned (ops : list op) (xs : list out) : list (op * out) :=
  match ops, xs with
  | o :: ops', x :: xs' =>
      match x with OutBlocked => returned ops' xs' | _ => (o, x) :: returned ops' xs' end
  | _, _ => []
  end.

(** Which calls count: those that returned success do, those that returned anything
    else do not, those cut short by a crash may. *)
Inductive survives : list (op * option nat) -> list (option out) -> list op -> Prop :=
| Snil : survives [] [] []
| Ssuccess : forall o h x xs kept, (match x with OutSaved _ _ | OutDeleted => True | _ => False end) ->
    survives h xs kept -> survives ((o, None) :: h) (Some x :: xs) (o :: kept)
| Sother : forall o h x xs kept, (match x with OutSaved _ _ | OutDeleted => False | _ => True end) ->
    survives h xs kept -> survives ((o, None) :: h) (Some x :: xs) kept
| Scrash_in : forall o k h xs kept, survives h xs kept -> survives ((o, Some k) :: h) (None :: xs) (o :: kept)
| Scrash_out : forall o k h xs kept, survives h xs kept -> survives ((o, Some k) :: h) (None :: xs) kept.
