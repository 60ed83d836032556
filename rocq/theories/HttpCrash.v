(** The HTTP server in front of a LevelDB store, in a process that may die.

    pkg/rangedbapi/api.go over provider/leveldbstore; cmd/rangedb/main.go: the process
    opens the store and serves requests until it ends. *)
From Verif Require Import Base Json Http LevelDB.
Open Scope list_scope.

Section Crash.
Variables (of_lit : string -> float) (print : goval -> string) (c : codec).

(** A request is served (api.go:45-69); the process dies while it serves one, the
    store's call having made [k] database operations, and is started again
    (leveldb_store.go:85-104); or it is stopped and started again between requests.
    Simplification: requests come one after the other. *)
Inductive happening :=
| Asked (q : request)
| DiedIn (q : request) (k : nat)
| Restarted.

(** The request as far as the crash lets it come. *)
Definition dies_in (st : ldb) (q : request) (k : nat) : ldb :=
  ldb_reopen (fst (http_step of_lit print ldb (fun s o => (ldb_crash c s o k, OutBlocked)) st q)).

(** The answers the clients saw. *)
Fixpoint witnessed (st : ldb) (hs : list happening) : list answer :=
  match hs with
  | [] => []
  | Asked q :: rest => let '(st', a) := http_step of_lit print ldb (ldb_step c) st q in a :: witnessed st' rest
  | DiedIn q k :: rest => witnessed (dies_in st q k) rest
  | Restarted :: rest => witnessed (ldb_reopen st) rest
  end.
End Crash.
