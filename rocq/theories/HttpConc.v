(** HTTP requests that overlap: a goroutine for each, in front of one store.

    pkg/rangedbapi/api.go: net/http runs ServeHTTP (api.go:45-69) in a goroutine per
    request.  A handler either answers by itself or makes one call of the store and
    answers when that has returned (saveEvents 210-253, deleteStream 176-208, the reads
    151-174).  The store and its lock are those of Locks.v and LocksStores.v. *)
From Verif Require Import Base Json RecordIo Http HttpBytes Locks.
Open Scope list_scope.

(** What the clients observe, in time order: request [j] is sent; its answer is there. *)
Inductive seen (Q A : Type) := Came (j : nat) (q : Q) | Got (j : nat) (a : A).
Arguments Came {Q A}. Arguments Got {Q A}.

(** Where the goroutine of a request is: not begun; in the store's call [i]; at the end,
    having made that call if any. *)
Inductive stage := Arrived | Calling (i : nat) | Over (i : option nat).

Section Requests.
Context {S L Q R : Type}.
Variable ob : obj S L Q R.
Context {Req Ans : Type}.
(** The handler: the call a request leads to, if any, and the answer made of its outcome. *)
Variable call_made : Req -> option op.
Variable answer_for : Req -> out -> Ans.

Record hconf := mk_hconf {
  h_store : conf (S := S) (L := L) (Q := Q) (R := R);
  h_reqs  : list (Req * stage);
  h_seen  : list (seen Req Ans)
}.
Definition hstart (s : S) : hconf := mk_hconf (start s) [] [].

Inductive hlabel :=
| HArrive (q : Req)        (* a request arrives *)
| HServe (j : nat)         (* its goroutine moves *)
| HStore (lb : label).     (* a goroutine moves inside the store *)

Fixpoint result_of (i : nat) (h : list act) : option out :=
  match h with
  | [] => None
  | Ret i' x :: rest => if Nat.eqb i' i then Some x else result_of i rest
  | _ :: rest => result_of i rest
  end.

(** A read whose context ends (the client has gone) is not answered any more.  The
    records of a read are written as they come; the answer is there when it is complete. *)
Definition hstep (k : hconf) (lb : hlabel) : option hconf :=
  match lb with
  | HArrive q => Some (mk_hconf (h_store k) (h_reqs k ++ [(q, Arrived)]) (h_seen k ++ [Came (length (h_reqs k)) q]))
  | HServe j =>
      match nth_error (h_reqs k) j with
      | Some (q, Arrived) =>
          match call_made q with
          | None => Some (mk_hconf (h_store k) (upd j (q, Over None) (h_reqs k)) (h_seen k ++ [Got j (answer_for q OutBlocked)]))
          | Some o =>
              match kstep ob (h_store k) (LInvoke o) with
              | Some st => Some (mk_hconf st (upd j (q, Calling (length (k_calls (h_store k)))) (h_reqs k)) (h_seen k))
              | None => None
              end
          end
      | Some (q, Calling i) =>
          match result_of i (k_hist (h_store k)) with
          | Some x => Some (mk_hconf (h_store k) (upd j (q, Over (Some i)) (h_reqs k)) (h_seen k ++ [Got j (answer_for q x)]))
          | None => None
          end
      | _ => None
      end
  | HStore (LInvoke _) => None
  | HStore lb' =>
      match kstep ob (h_store k) lb' with
      | Some st => Some (mk_hconf st (h_reqs k) (h_seen k))
      | None => None
      end
  end.
Fixpoint hrun (k : hconf) (ls : list hlabel) : option hconf :=
  match ls with
  | [] => Some k
  | lb :: rest => match hstep k lb with Some k' => hrun k' rest | None => None end
  end.
End Requests.

(** The handlers of Http.v seen in this way: the call they make, and the answer they give
    when it returned [x]. *)
Section Api.
Variables (of_lit : string -> float) (print : goval -> string).
Definition http_call (q : request) : option op :=
  fst (http_step of_lit print (option op) (fun _ o => (Some o, OutBlocked)) None q).
Definition http_answer (q : request) (x : out) : answer :=
  snd (http_step of_lit print unit (fun s _ => (s, x)) tt q).
End Api.

(** The same for HttpBytes.v. *)
Section Bytes.
Variables (of_lit : string -> float) (show : float -> num) (packed : list entry -> string).
Definition bytes_call (q : wire) : option op :=
  fst (bytes_step of_lit show packed (option op) (fun _ o => (Some o, OutBlocked)) None q).
Definition bytes_answer (q : wire) (x : out) : reply_bytes :=
  snd (bytes_step of_lit show packed unit (fun s _ => (s, x)) tt q).
End Bytes.
