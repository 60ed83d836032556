(** Concurrent programs over a server: a call is a sequence of requests to a server
    that carries out one request at a time; calls interleave between requests. *)
From Coq Require Import PeanoNat.
From Verif Require Import Base.
Open Scope nat_scope.

(** What a call does: return, or send a request and go on with the answer. *)
Inductive prog (Q A B : Type) : Type :=
| Ret (b : B)
| Ask (q : Q) (k : A -> prog Q A B).
Arguments Ret {Q A B}. Arguments Ask {Q A B}.

Fixpoint bind {Q A B C} (p : prog Q A B) (f : B -> prog Q A C) : prog Q A C :=
  match p with Ret b => f b | Ask q k => Ask q (fun a => bind (k a) f) end.
(** A program over an interface, on top of an implementation of that interface. *)
Fixpoint over {Q A B Q' A'} (impl : Q -> prog Q' A' A) (p : prog Q A B) : prog Q' A' B :=
  match p with Ret b => Ret b | Ask q k => bind (impl q) (fun a => over impl (k a)) end.

Section Run.
(** State, requests, answers, outside influence on a request (loss, staleness), calls
    and their results. *)
Variables S Q A F O B : Type.
Variable server : F -> S -> Q -> S * A.
Variable code : O -> prog Q A B.

(** What is seen of a run: a call begins, or the call that began at position [from]
    of the trace is done. *)
Inductive seen := Began (o : O) | Done (from : nat) (o : O) (b : B).
Record world := mk_world {
  state : S;
  running : list (nat * (O * prog Q A B));
  trace : list seen
}.
Fixpoint thread (n : nat) (l : list (nat * (O * prog Q A B))) : option (O * prog Q A B) :=
  match l with [] => None | (m, x) :: r => if m =? n then Some x else thread n r end.
Definition without (n : nat) (l : list (nat * (O * prog Q A B))) : list (nat * (O * prog Q A B)) :=
  filter (fun x => negb (fst x =? n)) l.

(** A scheduler starts calls and lets a call make its next request. *)
Inductive move := Start (o : O) | Step (n : nat) (f : F).
Definition settle (n : nat) (o : O) (p : prog Q A B) (w : world) : world :=
  match p with
  | Ret b => mk_world (state w) (running w) (trace w ++ [Done n o b])
  | _ => mk_world (state w) ((n, (o, p)) :: running w) (trace w)
  end.
Definition do_move (w : world) (m : move) : world :=
  match m with
  | Start o => settle (length (trace w)) o (code o) (mk_world (state w) (running w) (trace w ++ [Began o]))
  | Step n f =>
      match thread n (running w) with
      | Some (o, Ask q k) =>
          let (s', a) := server f (state w) q in
          settle n o (k a) (mk_world s' (without n (running w)) (trace w))
      | _ => w
      end
  end.
Definition run_moves (w : world) (ms : list move) : world := fold_left do_move ms w.
Definition fresh (s : S) : world := mk_world s [] [].

(** One call at a time, from beginning to end; [fs] are the outside influences. *)
Fixpoint finish (fs : list F) (dflt : F) (s : S) (p : prog Q A B) : S * B :=
  match p with
  | Ret b => (s, b)
  | Ask q k =>
      let (s', a) := server (hd dflt fs) s q in finish (tl fs) dflt s' (k a)
  end.
(** A sequence of calls, each from beginning to end, and their results. *)
Fixpoint one_by_one (dflt : F) (s : S) (os : list O) : list B :=
  match os with
  | [] => []
  | o :: rest => let (s', b) := finish [] dflt s (code o) in b :: one_by_one dflt s' rest
  end.
End Run.
Arguments Began {O B}. Arguments Done {O B}.
Arguments Start {F O}. Arguments Step {F O}.
Arguments state {S Q A O B}. Arguments running {S Q A O B}. Arguments trace {S Q A O B}.
Arguments thread {Q A O B}. Arguments without {Q A O B}. Arguments settle {S Q A O B}.
Arguments mk_world {S Q A O B}.
Arguments do_move {S Q A F O B}. Arguments run_moves {S Q A F O B}. Arguments fresh {S Q A O B}.
Arguments finish {S Q A F B}.
Arguments one_by_one {S Q A F O B}.
