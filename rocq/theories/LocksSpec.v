(** Vocabulary for statements about concurrent calls; independent of the machine. *)
From Verif Require Import Base Locks.

(** [x] is what remains of the full answer [y] of a read cut short: a prefix of its
    results, possibly followed by the cancellation error. *)
Definition cut_short (x y : out) : Prop :=
  exists p rest, y = OutResults (p ++ rest) /\
    (x = OutResults p \/ x = OutResults (p ++ [RErr ECanceled])).

(** [a] occurs in [l] before [b]. *)
Definition before {A} (a b : A) (l : list A) : Prop :=
  exists l1 l2 l3, l = l1 ++ a :: l2 ++ b :: l3.

(** Herlihy and Wing's linearizability of a history against a sequential object:
    there is an order of calls, each with an answer, such that
    - the sequential object given the calls in that order may give those answers
      ([linearizable]: started in [s0] gives exactly those answers);
    - a call occurs in it at most once, and only if it was made;
    - every call that was answered occurs, with its answer (a read that was cut short
      with an answer of which the client saw a prefix);
    - a call that was answered before another one was made precedes it. *)
Definition linearizable_as (allowed : list op -> list out -> Prop) (h : list act) : Prop :=
  exists order : list (nat * op * out),
    allowed (map (fun t => snd (fst t)) order) (map snd order)
    /\ NoDup (map (fun t => fst (fst t)) order)
    /\ (forall i o x, In (i, o, x) order -> In (Inv i o) h)
    /\ (forall i x, In (Ret i x) h -> exists o, In (i, o, x) order)
    /\ (forall i x, In (Cut i x) h -> exists o y, In (i, o, y) order /\ cut_short x y)
    /\ (forall a i x j o x', before a (Inv j o) h -> a = Ret i x \/ a = Cut i x -> In (j, o, x') order ->
          exists oi y, before (i, oi, y) (j, o, x') order).

Definition linearizable {S} (step : S -> op -> S * out) (s0 : S) (h : list act) : Prop :=
  linearizable_as (fun ops outs => snd (run step s0 ops) = outs) h.

(** The calls made in a history. *)
Definition made (h : list act) : list op :=
  flat_map (fun a => match a with Inv _ o => [o] | _ => [] end) h.

(** A read of at most one aggregate type, or any other call. *)
Definition one_lock (o : op) : Prop :=
  match o with OpByTypes _ ts => (length ts <= 1)%nat | _ => True end.

(** The call was answered. *)
Definition answered (i : nat) (h : list act) : Prop := exists x, In (Ret i x) h \/ In (Cut i x) h.

(** Every call that was made was answered. *)
Definition all_answered (h : list act) : Prop := forall i o, In (Inv i o) h -> answered i h.

(** Steps other than a new call. *)
Definition internal (lb : label) : Prop := match lb with LInvoke _ => False | _ => True end.

(** Whatever the scheduler does, and whatever contexts are cancelled, [P] comes true
    after finitely many steps if no new call is made: it holds now, or some goroutine
    can move and after every possible move [P] is inevitable. *)
Inductive inevitable {S L Q R} (ob : obj S L Q R) (P : conf -> Prop) (k : conf) : Prop :=
| in_now : P k -> inevitable ob P k
| in_step : (exists lb k', internal lb /\ kstep ob k lb = Some k') ->
            (forall lb k', internal lb -> kstep ob k lb = Some k' -> inevitable ob P k') ->
            inevitable ob P k.
