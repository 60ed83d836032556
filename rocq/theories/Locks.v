(** Goroutines sharing a store behind its [sync.RWMutex]: a small-step machine for
    any number of concurrent calls.  The machine is generic in the store; the
    in-memory and the LevelDB store are plugged in in [LocksStores.v]. *)
From Verif Require Import Base.

(** Outcome of one small step inside the write-locked section. *)
Inductive wres (S L : Type) :=
| WMore (s : S) (l : L)
| WDone (s : S) (x : out) (release : bool)   (* result decided; [release]: the lock will be released *)
| WStuck.                                    (* the step blocks for ever *)
Arguments WMore {S L}. Arguments WDone {S L}. Arguments WStuck {S L}.

(** One small step of a reading goroutine. *)
Inductive rres (R : Type) :=
| RSkip (r : R)
| RSend (x : result) (r : R)                 (* wants to hand [x] to the consumer *)
| REnd.
Arguments RSkip {R}. Arguments RSend {R}. Arguments REnd {R}.

(** What happens right after a read lock was obtained. *)
Inductive rbegin (R : Type) :=
| RGo (r : R)                                (* a goroutine is started that owns the lock *)
| RNow (x : out).                            (* the lock is released and the call answers *)
Arguments RGo {R}. Arguments RNow {R}.

(** A store, as far as its locking is concerned. *)
Record obj (S L Q R : Type) := mk_obj {
  o_direct  : op -> S -> option out;         (* answers without taking the lock *)
  o_writes  : op -> option L;                (* takes the write side and starts there *)
  o_wstep   : L -> S -> wres S L;
  o_queries : op -> list Q;                  (* one read lock and one goroutine each *)
  o_rbegin  : Q -> S -> rbegin R;
  o_rstep   : R -> S -> rres R;
  o_combine : op -> list (list result) -> out
}.
Arguments o_direct {S L Q R}. Arguments o_writes {S L Q R}. Arguments o_wstep {S L Q R}.
Arguments o_queries {S L Q R}. Arguments o_rbegin {S L Q R}. Arguments o_rstep {S L Q R}.
Arguments o_combine {S L Q R}. Arguments mk_obj {S L Q R}.

(** What clients observe, in time order. [Ret i x]: call [i] answered [x] (for an
    iterator: its last record was consumed and the channel was closed).  [Cut i x]:
    the context was cancelled while call [i] was being read, [x] is what it got. *)
Inductive act :=
| Inv (i : nat) (o : op)
| Ret (i : nat) (x : out)
| Cut (i : nat) (x : out).

Section Machine.
Context {S L Q R : Type}.
Variable ob : obj S L Q R.

(** A reading goroutine: running, or ended (and whether it was cancelled), with
    what its consumer received so far. *)
Inductive sub :=
| SRun (r : R) (sent : list result)
| SEnd (sent : list result) (cut : bool).

(** Where a call is. *)
Inductive pc :=
| CNew
| CWantW                                     (* in Lock(), another writer is in or waiting *)
| CWaitW                                     (* in Lock(), waiting for the readers to leave *)
| CWrite (l : L)                             (* write lock held *)
| CWritten (x : out) (release : bool)        (* write lock held, result decided *)
| CAfter (x : out)                           (* lock released, about to answer *)
| CWantR (subs : list sub) (q : Q) (todo : list Q)    (* about to RLock() *)
| CBlocked (subs : list sub) (q : Q) (todo : list Q)  (* in RLock(), a writer is in or waiting *)
| CHave (subs : list sub) (q : Q) (todo : list Q)     (* RLock() succeeded *)
| CRead (subs : list sub)                    (* iterator returned; being consumed *)
| CDone.

Record call := mk_call { c_op : op; c_pc : pc }.

(** sync.RWMutex: number of read locks held; the writer that announced itself and
    whether it already holds the lock.  As documented in the Go standard library a
    waiting writer keeps new readers out, and Unlock lets in all readers that were
    kept out. *)
Record conf := mk_conf {
  k_shared  : S;
  k_readers : nat;
  k_writer  : option (nat * bool);
  k_calls   : list call;
  k_hist    : list act
}.
Definition start (s : S) : conf := mk_conf s 0 None [] [].

Inductive label :=
| LInvoke (o : op)               (* a goroutine calls the store *)
| LStep (i : nat)                (* the goroutine of call [i] moves *)
| LSub (i j : nat)               (* the [j]-th reading goroutine of call [i] moves *)
| LCancel (i j : nat) (told : bool).  (* ... sees its context cancelled; [told]: the consumer took the error *)

Fixpoint upd {A} (i : nat) (x : A) (l : list A) : list A :=
  match l, i with
  | [], _ => []
  | _ :: rest, O => x :: rest
  | y :: rest, Datatypes.S i' => y :: upd i' x rest
  end.

(** Move call [i] to [p]. *)
Definition set_pc (i : nat) (o : op) (p : pc) (k : conf) : conf :=
  mk_conf (k_shared k) (k_readers k) (k_writer k) (upd i (mk_call o p) (k_calls k)) (k_hist k).
Definition set_lock (n : nat) (w : option (nat * bool)) (k : conf) : conf :=
  mk_conf (k_shared k) n w (k_calls k) (k_hist k).
Definition set_shared (s : S) (k : conf) : conf :=
  mk_conf s (k_readers k) (k_writer k) (k_calls k) (k_hist k).
Definition note (a : act) (k : conf) : conf :=
  mk_conf (k_shared k) (k_readers k) (k_writer k) (k_calls k) (k_hist k ++ [a]).

Definition is_blocked (c : call) : bool :=
  match c_pc c with CBlocked _ _ _ => true | _ => false end.
Definition let_in (c : call) : call :=
  match c_pc c with CBlocked subs q todo => mk_call (c_op c) (CHave subs q todo) | _ => c end.

(** RWMutex.Unlock. *)
Definition unlock (k : conf) : conf :=
  mk_conf (k_shared k) (k_readers k + length (filter is_blocked (k_calls k))) None
    (map let_in (k_calls k)) (k_hist k).

Definition sent_of (u : sub) : list result := match u with SRun _ l => l | SEnd l _ => l end.
Definition ended (u : sub) : bool := match u with SEnd _ _ => true | _ => false end.
Definition was_cut (u : sub) : bool := match u with SEnd _ true => true | _ => false end.

(** A step of the call's own goroutine. *)
Definition step_call (k : conf) (i : nat) (c : call) : option conf :=
  let o := c_op c in
  match c_pc c with
  | CNew =>
      match o_direct ob o (k_shared k) with
      | Some x => Some (note (Ret i x) (set_pc i o CDone k))
      | None =>
          match o_writes ob o with
          | Some _ => Some (set_pc i o CWantW k)
          | None => match o_queries ob o with
                    | [] => None
                    | q :: todo => Some (set_pc i o (CWantR [] q todo) k)
                    end
          end
      end
  | CWantW =>
      match k_writer k with
      | None => Some (set_pc i o CWaitW (set_lock (k_readers k) (Some (i, false)) k))
      | Some _ => None
      end
  | CWaitW =>
      match k_readers k, o_writes ob o with
      | O, Some l => Some (set_pc i o (CWrite l) (set_lock 0 (Some (i, true)) k))
      | _, _ => None
      end
  | CWrite l =>
      match o_wstep ob l (k_shared k) with
      | WMore s l' => Some (set_pc i o (CWrite l') (set_shared s k))
      | WDone s x rel => Some (set_pc i o (CWritten x rel) (set_shared s k))
      | WStuck => None
      end
  | CWritten x rel =>
      if rel then Some (set_pc i o (CAfter x) (unlock k))
      else Some (note (Ret i x) (set_pc i o CDone k))
  | CAfter x => Some (note (Ret i x) (set_pc i o CDone k))
  | CWantR subs q todo =>
      match k_writer k with
      | None => Some (set_pc i o (CHave subs q todo) (set_lock (Datatypes.S (k_readers k)) None k))
      | Some _ => Some (set_pc i o (CBlocked subs q todo) k)
      end
  | CBlocked _ _ _ => None
  | CHave subs q todo =>
      match o_rbegin ob q (k_shared k), subs, todo with
      | RNow x, [], [] => Some (set_pc i o (CAfter x) (set_lock (pred (k_readers k)) (k_writer k) k))
      | RNow _, _, _ => None
      | RGo r, _, [] => Some (set_pc i o (CRead (subs ++ [SRun r []])) k)
      | RGo r, _, q' :: todo' => Some (set_pc i o (CWantR (subs ++ [SRun r []]) q' todo') k)
      end
  | CRead subs =>
      if forallb ended subs then
        let x := o_combine ob o (map sent_of subs) in
        Some (note (if existsb was_cut subs then Cut i x else Ret i x) (set_pc i o CDone k))
      else None
  | CDone => None
  end.

(** The reading goroutines of a call, whether the iterator is already in the hands
    of the consumer, and the call's place with other goroutines in it. *)
Definition subs_of (p : pc) : option (list sub * bool * (list sub -> pc)) :=
  match p with
  | CWantR subs q todo => Some (subs, false, fun l => CWantR l q todo)
  | CBlocked subs q todo => Some (subs, false, fun l => CBlocked l q todo)
  | CHave subs q todo => Some (subs, false, fun l => CHave l q todo)
  | CRead subs => Some (subs, true, CRead)
  | _ => None
  end.

(** A step of a reading goroutine: the channel is unbuffered, so a result is handed
    over only when the consumer is there. *)
Definition step_sub (k : conf) (i : nat) (c : call) (j : nat) : option conf :=
  match subs_of (c_pc c) with
  | None => None
  | Some (subs, consumer, back) =>
      match nth_error subs j with
      | Some (SRun r sent) =>
          match o_rstep ob r (k_shared k) with
          | RSkip r' => Some (set_pc i (c_op c) (back (upd j (SRun r' sent) subs)) k)
          | RSend x r' =>
              if consumer then Some (set_pc i (c_op c) (back (upd j (SRun r' (sent ++ [x])) subs)) k)
              else None
          | REnd => Some (set_pc i (c_op c) (back (upd j (SEnd sent false) subs))
                           (set_lock (pred (k_readers k)) (k_writer k) k))
          end
      | _ => None
      end
  end.

(** publish_record.go:9-33: a goroutine that wants to send notices the cancelled
    context and leaves, after handing over the error if the consumer takes it within
    a second.  (An error result is sent without looking at the context,
    inmemory_store.go:145,153.) *)
Definition cancel_sub (k : conf) (i : nat) (c : call) (j : nat) (told : bool) : option conf :=
  match subs_of (c_pc c) with
  | None => None
  | Some (subs, consumer, back) =>
      match nth_error subs j with
      | Some (SRun r sent) =>
          match o_rstep ob r (k_shared k) with
          | RSend (RRec _) _ =>
              if implb told consumer
              then Some (set_pc i (c_op c)
                           (back (upd j (SEnd (sent ++ if told then [RErr ECanceled] else []) true) subs))
                           (set_lock (pred (k_readers k)) (k_writer k) k))
              else None
          | _ => None
          end
      | _ => None
      end
  end.

Definition kstep (k : conf) (lb : label) : option conf :=
  match lb with
  | LInvoke o =>
      Some (note (Inv (length (k_calls k)) o)
              (mk_conf (k_shared k) (k_readers k) (k_writer k) (k_calls k ++ [mk_call o CNew]) (k_hist k)))
  | LStep i => match nth_error (k_calls k) i with Some c => step_call k i c | None => None end
  | LSub i j => match nth_error (k_calls k) i with Some c => step_sub k i c j | None => None end
  | LCancel i j b => match nth_error (k_calls k) i with Some c => cancel_sub k i c j b | None => None end
  end.

Fixpoint krun (k : conf) (ls : list label) : option conf :=
  match ls with
  | [] => Some k
  | lb :: rest => match kstep k lb with Some k' => krun k' rest | None => None end
  end.

End Machine.
