(** Independent vocabulary for statements about key stores: what a trace of calls, each
    with a beginning and an end, must look like. *)
From Verif Require Import Base Crypto Prog KeyStores.
Open Scope string_scope.
Open Scope nat_scope.

(** At position [i] of the trace the call [o] that began at position [from] ended
    with [r]. *)
Definition ended {O B} (tr : list (seen O B)) (i from : nat) (o : O) (r : B) : Prop := nth_error tr i = Some (Done from o r).
Definition begun {O B} (tr : list (seen O B)) (i : nat) (o : O) : Prop := nth_error tr i = Some (Began o).

(** From position [i] on, the subject is gone: calls that begin later find no key and
    cannot set one.  [down]: a backend may be out of reach, which is another error. *)
Definition gone_after (down : Prop) (tr : list (seen kop kout)) (i : nat) (s : string) : Prop :=
  forall j from q r, i < from -> ended tr j from q r ->
    (q = Get s -> r = Got "" (Some WasDeleted) \/ down /\ r = Got "" (Some Other))
    /\ (forall k, q = Set_ s k -> r <> Did None).
(** A successful Set of the subject ended before position [i]. *)
Definition known_before (tr : list (seen kop kout)) (i : nat) (s : string) : Prop :=
  exists j from k, j < i /\ ended tr j from (Set_ s k) (Did None).

(** A subject whose key was deleted stays so; [always]: also a subject that never had
    a key. *)
Definition deletion_is_permanent (down always : Prop) (tr : list (seen kop kout)) : Prop :=
  forall i from s, ended tr i from (Delete s) (Did None) -> always \/ known_before tr from s -> gone_after down tr i s.
(** No key value is set twice. *)
Definition keys_are_unique (tr : list (seen kop kout)) : Prop :=
  forall i j fi fj s t k, ended tr i fi (Set_ s k) (Did None) -> ended tr j fj (Set_ t k) (Did None) -> i = j.
(** A key that was set is what Get returns until a Delete of the subject begins. *)
Definition keys_are_kept (down : Prop) (tr : list (seen kop kout)) : Prop :=
  forall i j fi fj s k r, ended tr i fi (Set_ s k) (Did None) -> ended tr j fj (Get s) r -> i < j ->
    (forall m, m < j -> ~ begun tr m (Delete s)) -> r = Got k None \/ down /\ r = Got "" (Some Other).
(** Delete succeeds. *)
Definition deletes_succeed (tr : list (seen kop kout)) : Prop :=
  forall i from s r, ended tr i from (Delete s) r -> r = Did None.
(** Get returns only keys that a Set of that subject was called with. *)
Definition keys_come_from_sets (tr : list (seen kop kout)) : Prop :=
  forall j from s k, ended tr j from (Get s) (Got k None) -> exists i, i < j /\ begun tr i (Set_ s k).

(** The subject of a call to the engine. *)
Definition subject (o : eop) : string := match o with Encrypt s _ _ _ => s | Decrypt s _ => s | Deleting s => s end.
Definition uses_key (o : eop) : Prop := match o with Deleting _ => False | _ => True end.

(** The subject was encrypted for before position [i]. *)
Definition encrypted_before (tr : list (seen eop eout)) (i : nat) (s : string) : Prop :=
  exists j from text random nonce a, j < i /\ ended tr j from (Encrypt s text random nonce) (Answer a).
(** After deletion the engine neither encrypts nor decrypts for the subject. *)
Definition engine_honours_deletion (down always : Prop) (tr : list (seen eop eout)) : Prop :=
  forall i from0 j from s o r, ended tr i from0 (Deleting s) (Deletion None) -> always \/ encrypted_before tr from0 s ->
    i < from -> ended tr j from o r -> subject o = s -> uses_key o ->
    r = KeyError WasDeleted \/ down /\ r = KeyError Other.
(** All that is ever encrypted for a subject is encrypted with one key. *)
Definition one_key_per_subject (enc : string -> option string -> string -> Crypto.answer) (tr : list (seen eop eout)) : Prop :=
  forall s, exists key, forall i from text random nonce a,
    ended tr i from (Encrypt s text random nonce) (Answer a) -> a = enc key nonce text.
(** What was encrypted for a subject can be decrypted until its deletion begins. *)
Definition decrypts_until_deleted (down : Prop) (tr : list (seen eop eout)) : Prop :=
  forall i j from from' s text random nonce c r,
    ended tr i from (Encrypt s text random nonce) (Answer (Crypto.Text c)) -> ended tr j from' (Decrypt s c) r -> i < j ->
    (forall m, m < j -> ~ begun tr m (Deleting s)) ->
    r = Answer (Crypto.Text text) \/ down /\ r = KeyError Other.

(** A schedule of one process that may be restarted: calls are made under the number of
    the latest start, and calls of an earlier one make no more requests. *)
Fixpoint one_process {S Q A F B} (server : F -> S -> Q -> S * A) (code : nat * kop -> prog Q A B)
    (now : nat) (w : world S Q A (nat * kop) B) (ms : list (move F (nat * kop))) : Prop :=
  match ms with
  | [] => True
  | m :: rest =>
      match m with
      | Start (p, _) => now <= p /\ one_process server code p (do_move server code w m) rest
      | Step n _ => (forall o p, thread n (running w) = Some (o, p) -> fst o = now) /\ one_process server code now (do_move server code w m) rest
      end
  end.
(** Calls made one after the other, each under the number of a start of the process. *)
Fixpoint ascending (now : nat) (cs : list (nat * kop)) : Prop :=
  match cs with [] => True | (p, _) :: r => now <= p /\ ascending p r end.
(** Deletion is permanent, as above, for calls of the cached store. *)
Definition honoured (tr : list (seen (nat * kop) kout)) : Prop :=
  forall i from0 p0 s, ended tr i from0 (p0, Delete s) (Did None) ->
  forall j from p q r, i < from -> ended tr j from (p, q) r ->
    (q = Get s -> r = Got "" (Some WasDeleted)) /\ (forall k, q = Set_ s k -> r <> Did None).

(** How often the key of the secret at this path was set, in a list of calls and results. *)
Fixpoint times_set (path : string) (h : list (kop * kout)) : nat :=
  match h with
  | [] => 0
  | (Set_ s _, Did None) :: r => (if String.eqb (url_path s) path then 1 else 0) + times_set path r
  | _ :: r => times_set path r
  end.
