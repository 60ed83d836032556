(** Key stores (crypto.KeyStore): in memory, PostgreSQL, DynamoDB, HashiCorp Vault, and
    the caching decorator; the encryption engine on top of them.

    A call to a store is a program over the requests its backend carries out one at a
    time (a statement, an item operation, an HTTP request, or, in memory, the whole
    call, which holds the mutex). *)
From Coq Require Import PeanoNat.
From Verif Require Import Base Text Encodings Crypto Prog.
Open Scope string_scope.

(** crypto.go:34-48; [Other]: any other error. *)
Inductive kerr := NotFound | WasDeleted | KeyExists | KeyUsed | InvalidKey | Other.
(** crypto.go:27-32 [KeyStore]. *)
Inductive kop := Get (s : string) | Set_ (s k : string) | Delete (s : string).
(** Get returns a key and an error, which may both be there. *)
Inductive kout := Got (k : string) (e : option kerr) | Did (e : option kerr).

(** A table with one entry per name. *)
Fixpoint entry {X} (s : string) (l : list (string * X)) : option X :=
  match l with [] => None | (t, x) :: r => if String.eqb t s then Some x else entry s r end.
Fixpoint enter {X} (s : string) (x : X) (l : list (string * X)) : list (string * X) :=
  match l with
  | [] => [(s, x)]
  | (t, y) :: r => if String.eqb t s then (t, x) :: r else (t, y) :: enter s x r
  end.
Definition member (k : string) (l : list string) : bool := existsb (String.eqb k) l.

(** What can go wrong with a request to a remote backend: it is lost before it takes
    effect, or its answer is lost. *)
Inductive fault := Fine | Lost | Unanswered.

(** * In memory *)

(** inmemory_keystore.go:9-20. *)
Record mem := mk_mem { keys_of : list (string * string); used : list string }.
Definition mem_new : mem := mk_mem [] [].

(** inmemory_keystore.go:22-35 [Get], 37-57 [Set], 59-66 [Delete]; each call holds the
    mutex throughout, and nothing outside influences it. *)
Definition mem_server (_ : fault) (m : mem) (q : kop) : mem * kout :=
  match q with
  | Get s =>
      (m, match entry s (keys_of m) with
          | Some k => if String.eqb k "" then Got "" (Some WasDeleted) else Got k None
          | None => Got "" (Some NotFound)
          end)
  | Set_ s k =>
      if String.eqb k "" then (m, Did (Some InvalidKey))
      else if member k (used m) then (m, Did (Some KeyUsed))
      else match entry s (keys_of m) with
           | Some _ => (m, Did (Some KeyExists))
           | None => (mk_mem (enter s k (keys_of m)) (k :: used m), Did None)
           end
  | Delete s => (mk_mem (enter s "" (keys_of m)) (used m), Did None)
  end.
Definition mem_call (q : kop) : prog kop kout kout := Ask q Ret.

(** * PostgreSQL *)

(** postgres_keystore.go:116-133: the table vault; a row is the subject, the key, and
    whether DeletedAtTimestamp is set (its value is not looked at). *)
Definition vault_table := list (string * (string * bool)).
Inductive pg_ask := PgSelect (s : string) | PgInsert (s k : string) | PgUpdate (s : string).
Inductive pg_answer := PgRow (k : string) (deleted : bool) | PgNoRow | PgOk | PgSubjectTaken | PgKeyTaken | PgError.

Definition has_key (k : string) (except : string) (t : vault_table) : bool :=
  existsb (fun r => negb (String.eqb (fst r) except) && String.eqb (fst (snd r)) k) t.

(** One statement.  SubjectID is the primary key, EncryptionKey is UNIQUE (118-122);
    PostgreSQL checks the primary key first, it is the older index.  (Subjects with NUL
    bytes or invalid UTF-8, which PostgreSQL refuses, are out of scope.) *)
Definition pg_do (t : vault_table) (q : pg_ask) : vault_table * pg_answer :=
  match q with
  | PgSelect s => (t, match entry s t with Some (k, d) => PgRow k d | None => PgNoRow end)
  | PgInsert s k =>
      match entry s t with
      | Some _ => (t, PgSubjectTaken)
      | None => if has_key k s t then (t, PgKeyTaken) else (enter s (k, false) t, PgOk)
      end
  | PgUpdate s =>
      match entry s t with
      | None => (t, PgOk)
      | Some _ => if has_key "" s t then (t, PgKeyTaken) else (enter s ("", true) t, PgOk)
      end
  end.
Definition pg_server (f : fault) (t : vault_table) (q : pg_ask) : vault_table * pg_answer :=
  match f with
  | Fine => pg_do t q
  | Lost => (t, PgError)
  | Unanswered => (fst (pg_do t q), PgError)
  end.

(** postgres_keystore.go:42-62 [Get], 64-87 [Set], 89-98 [Delete]: a violation of a
    constraint is translated in Set, not in Delete. *)
Definition pg_call (q : kop) : prog pg_ask pg_answer kout :=
  match q with
  | Get s => Ask (PgSelect s) (fun a => Ret
      match a with
      | PgRow k d => if d then Got "" (Some WasDeleted) else Got k None
      | PgNoRow => Got "" (Some NotFound)
      | _ => Got "" (Some Other)
      end)
  | Set_ s k =>
      if String.eqb k "" then Ret (Did (Some InvalidKey))
      else Ask (PgInsert s k) (fun a => Ret
        match a with
        | PgOk => Did None
        | PgSubjectTaken => Did (Some KeyExists)
        | PgKeyTaken => Did (Some KeyUsed)
        | _ => Did (Some Other)
        end)
  | Delete s => Ask (PgUpdate s) (fun a => Ret match a with PgOk => Did None | _ => Did (Some Other) end)
  end.

(** A call sends at most one statement, which is atomic: the store as a server of calls. *)
Definition pg_store (f : fault) (t : vault_table) (q : kop) : vault_table * kout := finish pg_server [f] Fine t (pg_call q).

(** * DynamoDB *)

(** An item: EncryptionKey and DeletedAtTimestamp, 0 if not there. *)
Definition items := list (string * (string * N)).
(** The table and, newest first, what it was before each write: a read that does not
    ask for consistency (dynamodb_keystore.go:37-48 does not) may see any of them. *)
Definition dynamo := (items * list items)%type.
Inductive dy_ask := DyGet (s : string) | DyPut (s k : string) | DyUpdate (s : string) (now : N).
Inductive dy_answer := DyItem (k : string) (deleted_at : N) | DyNoItem | DyOk | DyConditionFailed | DyError.

(** [behind]: how many writes a read is behind.  An empty subject is refused: the key
    attribute of an item must not be empty. *)
Definition dy_do (behind : nat) (d : dynamo) (q : dy_ask) : dynamo * dy_answer :=
  match q with
  | DyGet s =>
      if String.eqb s "" then (d, DyError)
      else (d, match entry s (nth behind (fst d :: snd d) []) with Some (k, t) => DyItem k t | None => DyNoItem end)
  | DyPut s k =>
      if String.eqb s "" then (d, DyError)
      else match entry s (fst d) with
           | Some _ => (d, DyConditionFailed)
           | None => ((enter s (k, 0%N) (fst d), fst d :: snd d), DyOk)
           end
  | DyUpdate s now =>
      if String.eqb s "" then (d, DyError)
      else ((enter s ("", now) (fst d), fst d :: snd d), DyOk)
  end.
Definition dy_server (f : fault * nat) (d : dynamo) (q : dy_ask) : dynamo * dy_answer :=
  match fst f with
  | Fine => dy_do (snd f) d q
  | Lost => (d, DyError)
  | Unanswered => (fst (dy_do (snd f) d q), DyError)
  end.

(** dynamodb_keystore.go:36-82 [Get], 84-114 [Set], 116-147 [Delete]; [now]: the clock. *)
Definition dy_call (now : N) (q : kop) : prog dy_ask dy_answer kout :=
  match q with
  | Get s => Ask (DyGet s) (fun a => Ret
      match a with
      | DyItem k t => if (0 <? t)%N then Got "" (Some WasDeleted) else Got k None
      | DyNoItem => Got "" (Some NotFound)
      | _ => Got "" (Some Other)
      end)
  | Set_ s k =>
      if String.eqb k "" then Ret (Did (Some InvalidKey))
      else Ask (DyPut s k) (fun a => Ret
        match a with
        | DyOk => Did None
        | DyConditionFailed => Did (Some KeyExists)
        | _ => Did (Some Other)
        end)
  | Delete s => Ask (DyUpdate s now) (fun a => Ret match a with DyOk => Did None | _ => Did (Some Other) end)
  end.

(** The store as a server of calls, as for PostgreSQL; the clock may differ from call to
    call. *)
Definition dy_store (f : fault * nat * N) (d : dynamo) (q : kop) : dynamo * kout :=
  finish dy_server [fst f] (Fine, 0%nat) d (dy_call (snd f) q).
(** With reads that are consistent, and a clock later than 1970. *)
Definition dy_consistent (f : fault * N) (d : dynamo) (q : kop) : dynamo * kout := dy_store (fst f, 0%nat, N.succ (snd f)) d q.

(** * HashiCorp Vault, key/value engine, version 2 *)

(** A secret: its versions, oldest first, each a key or destroyed.  Writing appends a
    version, reading reads the newest.  (The limit of ten kept versions is out of scope:
    only the newest is read.) *)
Definition secrets := list (string * list (option string)).
Inductive va_ask := VaRead (p : string) | VaWrite (p k : string) | VaDestroy (p : string) (versions : list nat).
Inductive va_answer := VaKey (k : string) | VaDestroyed | VaMissing | VaOk | VaError.

Fixpoint destroy (n : nat) (versions : list nat) (l : list (option string)) : list (option string) :=
  match l with
  | [] => []
  | v :: r => (if existsb (Nat.eqb n) versions then None else v) :: destroy (S n) versions r
  end.
Definition va_do (t : secrets) (q : va_ask) : secrets * va_answer :=
  match q with
  | VaRead p =>
      (t, match entry p t with
          | None => VaMissing
          | Some vs => match last vs None with Some k => VaKey k | None => VaDestroyed end
          end)
  | VaWrite p k => (enter p (match entry p t with Some vs => vs | None => [] end ++ [Some k])%list t, VaOk)
  | VaDestroy p versions =>
      match entry p t with
      | None => (t, VaOk)
      | Some vs => (enter p (destroy 1 versions vs) t, VaOk)
      end
  end.
Definition va_server (f : fault) (t : secrets) (q : va_ask) : secrets * va_answer :=
  match f with
  | Fine => va_do t q
  | Lost => (t, VaError)
  | Unanswered => (fst (va_do t q), VaError)
  end.

(** hashicorp_vault_keystore.go:158-164 [getPath], [getDestroyPath]: the subject is put
    into the URL as it is, so the path ends at a question mark or a hash.  (Percent
    signs and dot segments are out of scope.) *)
Fixpoint url_path (s : string) : string :=
  match s with
  | EmptyString => ""
  | String a r => if Ascii.eqb a "?" || Ascii.eqb a "#" then "" else String a (url_path r)
  end.

(** hashicorp_vault_keystore.go:37-70 [Get]. *)
Definition va_get (s : string) : prog va_ask va_answer kout :=
  Ask (VaRead (url_path s)) (fun a => Ret
    match a with
    | VaKey k => Got k None
    | VaDestroyed => Got "" (Some WasDeleted)
    | VaMissing => Got "" (Some NotFound)
    | _ => Got "" (Some Other)
    end).
(** 16: the versions Delete destroys. *)
Definition all_versions : list nat := [1; 2]%nat.
(** 72-109 [Set]: any error of Get is taken for absence (77-80). 111-131 [Delete]. *)
Definition va_call (q : kop) : prog va_ask va_answer kout :=
  match q with
  | Get s => va_get s
  | Set_ s k =>
      if String.eqb k "" then Ret (Did (Some InvalidKey))
      else bind (va_get s) (fun g =>
        match g with
        | Got _ None => Ret (Did (Some KeyExists))
        | _ => Ask (VaWrite (url_path s) k) (fun a => Ret match a with VaOk => Did None | _ => Did (Some Other) end)
        end)
  | Delete s => Ask (VaDestroy (url_path s) all_versions) (fun a => Ret match a with VaOk => Did None | _ => Did (Some Other) end)
  end.

(** * The caching decorator *)

(** cache_keystore.go:7-10: a first store, an in-memory one, of which every process
    (every start of a process) has its own, and a second one that all share. *)
Inductive ca_ask (Q : Type) := First (process : nat) (q : kop) | Second (q : Q).
Inductive ca_answer (A : Type) := FromFirst (r : kout) | FromSecond (a : A).
Arguments First {Q}. Arguments Second {Q}. Arguments FromFirst {A}. Arguments FromSecond {A}.

Section Cache.
Context {S2 Q2 A2 F : Type}.
Variable server2 : F -> S2 -> Q2 -> S2 * A2.
Variable call2 : kop -> prog Q2 A2 kout.

Definition first_of (p : nat) (l : list (nat * mem)) : mem :=
  match find (fun x => Nat.eqb (fst x) p) l with Some x => snd x | None => mem_new end.
Definition ca_server (f : F) (s : list (nat * mem) * S2) (q : ca_ask Q2) : (list (nat * mem) * S2) * ca_answer A2 :=
  match q with
  | First p q =>
      let (m, r) := mem_server Fine (first_of p (fst s)) q in
      (((p, m) :: fst s, snd s), FromFirst r)
  | Second q => let (t, a) := server2 f (snd s) q in ((fst s, t), FromSecond a)
  end.

(** A call to the second store; an answer of the first cannot come here. *)
Fixpoint to_second (p : prog Q2 A2 kout) : prog (ca_ask Q2) (ca_answer A2) kout :=
  match p with
  | Ret r => Ret r
  | Ask q k => Ask (Second q) (fun a => match a with FromSecond a => to_second (k a) | FromFirst r => Ret r end)
  end.
Definition to_first (p : nat) (q : kop) : prog (ca_ask Q2) (ca_answer A2) kout :=
  Ask (First p q) (fun a => match a with FromFirst r => Ret r | FromSecond _ => Ret (Did (Some Other)) end).

Definition error_of (r : kout) : option kerr := match r with Got _ e => e | Did e => e end.
Definition key_of (r : kout) : string := match r with Got k _ => k | Did _ => "" end.

(** cache_keystore.go:19-31 [Get], 33-40 [Set], 42-49 [Delete]. *)
Definition ca_call (c : nat * kop) : prog (ca_ask Q2) (ca_answer A2) kout :=
  let (p, q) := c in
  match q with
  | Get s =>
      bind (to_first p (Get s)) (fun r1 =>
        match error_of r1 with
        | None => Ret (Got (key_of r1) None)
        | Some _ =>
            bind (to_second (call2 (Get s))) (fun r2 =>
              match error_of r2 with
              | Some e => Ret (Got "" (Some e))
              | None => bind (to_first p (Set_ s (key_of r2))) (fun r3 => Ret (Got (key_of r2) (error_of r3)))
              end)
        end)
  | Set_ s k =>
      bind (to_second (call2 (Set_ s k))) (fun r2 =>
        match error_of r2 with
        | Some e => Ret (Did (Some e))
        | None => to_first p (Set_ s k)
        end)
  | Delete s =>
      bind (to_second (call2 (Delete s))) (fun r2 =>
        match error_of r2 with
        | Some e => Ret (Did (Some e))
        | None => to_first p (Delete s)
        end)
  end.
End Cache.

(** * The encryption engine *)

(** Calls: Encrypt a text for a subject, Decrypt one, and deletion of the subject's key
    on the key store.  [random]: the 32 bytes the engine draws should it make a key;
    [nonce]: what the encryptor draws.  [Deleting] stands for KeyStore.Delete. *)
Inductive eop := Encrypt (s text : string) (random nonce : option string) | Decrypt (s text : string) | Deleting (s : string).
(** What the call returns: the encryptor's answer, or an error before it is asked. *)
Inductive eout := Answer (a : answer) | KeyError (e : kerr) | NoRandom | Deletion (e : option kerr).

Section Engine.
(** crypto.go:10-13 [Encryptor]. *)
Variable enc : string -> option string -> string -> answer.
Variable dec : string -> string -> answer.

(** event_encryptor.go:56-72 [Encrypt], 74-81 [Decrypt], 83-91 [newBase64AES256Key]. *)
Definition engine (o : eop) : prog kop kout eout :=
  match o with
  | Encrypt s text random nonce =>
      Ask (Get s) (fun r =>
        match error_of r with
        | None => Ret (Answer (enc (key_of r) nonce text))
        | Some NotFound =>
            match random with
            | None => Ret NoRandom
            | Some bytes =>
                let key := base64 true bytes in
                Ask (Set_ s key) (fun r' =>
                  match error_of r' with
                  | None => Ret (Answer (enc key nonce text))
                  | Some e => Ret (KeyError e)
                  end)
            end
        | Some e => Ret (KeyError e)
        end)
  | Decrypt s text =>
      Ask (Get s) (fun r =>
        match error_of r with
        | None => Ret (Answer (dec (key_of r) text))
        | Some e => Ret (KeyError e)
        end)
  | Deleting s => Ask (Delete s) (fun r => Ret (Deletion (error_of r)))
  end.
End Engine.
