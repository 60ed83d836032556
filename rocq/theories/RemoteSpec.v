(** Independent vocabulary for the statements about the remote store. *)
From Verif Require Import Base CoreSpec LogSpec StoreSpec Remote.
Open Scope list_scope.
Open Scope N_scope.

(** An error text in which "unexpected sequence number:" first occurs right after [pre]. *)
Definition first_at_end (pre : string) : Prop :=
  forall x y, (pre ++ "unexpected sequence number:" = x ++ "unexpected sequence number:" ++ y)%string -> y = EmptyString.

(** Nothing is lost or refused on the way. *)
Definition faithful {A} (f : A -> string + A) : Prop := forall x, f x = inr x.

(** The answer a direct caller gets is of the kind the call asks for. *)
Definition fits (o : op) (x : out) : Prop :=
  match o, x with
  | OpSave _ _ _ _, (OutSaved _ _ | OutFailed _) => True
  | OpDelete _ _ _, (OutDeleted | OutFailed _) => True
  | (OpEvents _ | OpByTypes _ _ | OpByStream _ _), OutResults _ => True
  | OpTotal _ _, (OutTotal _ | OutFailed _) => True
  | _, (OutPanic | OutBlocked) => True
  | _, _ => False
  end.

(** Refusals on which a caller acts: a wrong sequence number (of uint64 values) when
    one was given, and a stream that does not exist when deleting one. *)
Definition telling (o : op) (e : err) : Prop :=
  match o, e with
  | (OpSave (Some _) _ _ _ | OpDelete _ _ _), EUnexpectedSeq x a => x < 2 ^ 64 /\ a < 2 ^ 64
  | OpDelete _ _ _, EStreamNotFound => True
  | OpSave _ _ [] _, EMissingEvents => True
  | _, _ => False
  end.

(** Two callers, one of the store and one of the remote store in front of it, are
    told the same about the call [o]: the same counts, the same records in the same
    order, the same telling refusals (the texts of other errors may differ).  Of a
    read that fails after the records [rs] the remote caller gets these records; then,
    when one stream is read, an error, which says "stream not found" if the store
    said so - and otherwise, see C35, nothing. *)
Definition told_the_same (o : op) (x : out) (y : cout) : Prop :=
  match x, y with
  | OutSaved n _, CSaved m => n = m
  | OutFailed e, CFailed e' => telling o e -> e' = CErr e
  | OutDeleted, CDeleted => True
  | OutResults l, CResults l' =>
      (forall rs, l = map RRec rs -> l' = map inl rs)
      /\ (forall rs e rest, l = map RRec rs ++ RErr e :: rest ->
            match o with
            | OpByStream _ _ => exists e', l' = map inl rs ++ [inr e'] /\ (e = EStreamNotFound -> e' = CErr e)
            | _ => l' = map inl rs
            end)
  | OutTotal n, CTotal m => n = m
  | (OutPanic | OutBlocked), CLost => True
  | _, _ => False
  end.

(** The store refuses an empty batch, and answers every call with an answer to it. *)
Definition answers {St : Type} (store : St -> op -> St * out) : Prop :=
  (forall s o, fits o (snd (store s o)))
  /\ forall s ex st cn, store s (OpSave ex st [] cn) = (s, OutFailed EMissingEvents).

(** A call that is not cancelled and, if it saves, saves events of one aggregate. *)
Definition plain_call (o : op) : Prop :=
  match o with
  | OpSave _ _ evs cn => one_aggregate evs /\ cn = None
  | OpDelete _ _ cn | OpTotal _ cn => cn = None
  | _ => True
  end.

(** Batches of one aggregate with a non-empty type and ID. *)
Definition aggregate_named (evs : list event) : Prop :=
  forall e, In e evs -> ev_atype e <> EmptyString /\ ev_aid e <> EmptyString.

Fixpoint remote_run {S : Type} (step : S -> op -> S * cout) (s : S) (ops : list op) : S * list cout :=
  match ops with
  | [] => (s, [])
  | o :: rest => let '(s1, x) := step s o in let '(s2, xs) := remote_run step s1 rest in (s2, x :: xs)
  end.
