(** The HTTP server with the bytes of its bodies, in front of a LevelDB store with the
    JSON serializer, in a process that may die: HttpBytes.v and HttpCrash.v together.

    pkg/rangedbapi/api.go over provider/leveldbstore and provider/jsonrecordserializer;
    cmd/rangedb/main.go: the process opens the store and serves requests until it ends. *)
From Verif Require Import Base Json RecordIo Http HttpBytes LevelDB.
Open Scope list_scope.

Section Crash.
Variables (of_lit : string -> float) (show : float -> num) (packed : list entry -> string).

(** A request is served (api.go:45-69); the process dies while it serves one, the
    store's call having made [k] database operations, and is started again
    (leveldb_store.go:85-104); or it is stopped and started again between requests.
    Simplification: requests come one after the other. *)
Inductive moment := Asks (q : wire) | Dies (q : wire) (k : nat) | Restarts.

(** The request as far as the crash lets it come; then the store is opened again. *)
Definition struck (st : ldb) (q : wire) (k : nat) : ldb :=
  ldb_reopen (fst (bytes_step of_lit show packed ldb (fun s o => (ldb_crash (json_serializer show) s o k, OutBlocked)) st q)).

(** The bytes the clients got. *)
Fixpoint received (st : ldb) (ms : list moment) : list reply_bytes :=
  match ms with
  | [] => []
  | Asks q :: rest => let '(st', a) := bytes_step of_lit show packed ldb (ldb_step (json_serializer show)) st q in a :: received st' rest
  | Dies q k :: rest => received (struck st q k) rest
  | Restarts :: rest => received (ldb_reopen st) rest
  end.
End Crash.
