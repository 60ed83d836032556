(** Model of cmd/rangedb: which store the server uses, its database connection string,
    where it keeps its snapshots, and how it shuts down. *)
From Coq Require Import PeanoNat.
From Verif Require Import Base DecText Text.
Open Scope string_scope.
Open Scope N_scope.

(** * The store *)

(** The environment variables PG_HOST, PG_USER, PG_PASSWORD, PG_DBNAME, PG_SEARCH_PATH,
    ESDB_IP_ADDR, ESDB_USERNAME, ESDB_PASSWORD ("" if unset, os.Getenv). *)
Record environment := mk_env {
  e_host : string; e_user : string; e_password : string; e_dbname : string; e_search : string;
  e_ip : string; e_esuser : string; e_espassword : string
}.

(** postgresstore/config.go:9-16 *)
Record pg_config := mk_pg { p_host : string; p_port : N; p_user : string; p_password : string; p_dbname : string; p_search : string }.

Definition empty (s : string) : bool := match s with EmptyString => true | _ => false end.

(** postgresstore/config.go:30-49 [NewConfigFromEnvironment]. *)
Definition pg_from (e : environment) : option pg_config :=
  if empty (e_host e) || empty (e_user e) || empty (e_dbname e) then None
  else Some (mk_pg (e_host e) 5432 (e_user e) (e_password e) (e_dbname e) (e_search e)).

(** eventstore/eventstore.go:60-74 [NewConfigFromEnvironment]. *)
Definition es_from (e : environment) : option (string * string * string) :=
  if empty (e_ip e) || empty (e_esuser e) || empty (e_espassword e) then None
  else Some (e_ip e, e_esuser e, e_espassword e).

Inductive chosen := UsePostgres (c : pg_config) | UseEventStore (c : string * string * string) | UseLevelDB (path : string) | UseMemory.

(** cmd/rangedb/main.go:160-204 [getStore]: the choice (opening the store is left out). *)
Definition get_store (e : environment) (path : string) : chosen :=
  match pg_from e with
  | Some c => UsePostgres c
  | None =>
      match es_from e with
      | Some c => UseEventStore c
      | None => if empty path then UseMemory else UseLevelDB path
      end
  end.

(** * The connection string *)

(** postgresstore/config.go:19-27 [DataSourceName]. *)
Definition dsn (c : pg_config) : string :=
  "host=" ++ p_host c ++ " port=" ++ dec (p_port c) ++ " user=" ++ p_user c ++ " password=" ++ p_password c
  ++ " dbname=" ++ p_dbname c ++ " sslmode=disable"
  ++ (if empty (p_search c) then "" else " search_path=" ++ p_search c).

(** How the driver (lib/pq, parseOpts) reads such a string, as a state machine over its
    bytes (trusted; white space is ASCII only here): before a key, in a key, between a
    key and its "=", after "=", in a plain value, after a backslash in one, in a quoted
    value, after a backslash in one.  [None]: an error.  Later settings win. *)
Inductive reading :=
| Between
| InKey (k : string)
| AfterKey (k : string)
| BeforeValue (k : string)
| InValue (k v : string)
| Escaped (k v : string)
| InQuotes (k v : string)
| QuotedEscaped (k v : string).

Definition blank (a : ascii) : bool := space a.
Definition one (a : ascii) : string := String a "".

Fixpoint settings (st : reading) (s : string) : option (list (string * string)) :=
  match s with
  | EmptyString =>
      match st with
      | Between => Some []
      | BeforeValue k => Some [(k, "")]
      | InValue k v => Some [(k, v)]
      | _ => None
      end
  | String a rest =>
      match st with
      | Between => if blank a then settings Between rest
                   else if Ascii.eqb a "=" then settings (BeforeValue "") rest else settings (InKey (one a)) rest
      | InKey k => if Ascii.eqb a "=" then settings (BeforeValue k) rest
                   else if blank a then settings (AfterKey k) rest else settings (InKey (k ++ one a)) rest
      | AfterKey k => if blank a then settings (AfterKey k) rest
                      else if Ascii.eqb a "=" then settings (BeforeValue k) rest else None
      | BeforeValue k => if blank a then settings (BeforeValue k) rest
                         else if Ascii.eqb a "'" then settings (InQuotes k "") rest
                         else if Ascii.eqb a "\" then settings (Escaped k "") rest
                         else settings (InValue k (one a)) rest
      | InValue k v => if blank a then match settings Between rest with Some l => Some ((k, v) :: l) | None => None end
                       else if Ascii.eqb a "\" then settings (Escaped k v) rest
                       else settings (InValue k (v ++ one a)) rest
      | Escaped k v => settings (InValue k (v ++ one a)) rest
      | InQuotes k v => if Ascii.eqb a "'" then match settings Between rest with Some l => Some ((k, v) :: l) | None => None end
                        else if Ascii.eqb a "\" then settings (QuotedEscaped k v) rest
                        else settings (InQuotes k (v ++ one a)) rest
      | QuotedEscaped k v => settings (InQuotes k (v ++ one a)) rest
      end
  end.

(** * The place of the snapshots *)

(** path/filepath Clean of a rooted path, as its list of names. *)
Fixpoint cleaned (done : list string) (parts : list string) : list string :=
  match parts with
  | [] => done
  | p :: rest =>
      if empty p || String.eqb p "." then cleaned done rest
      else if String.eqb p ".." then cleaned (removelast done) rest
      else cleaned (app done [p]) rest
  end.

(** cmd/rangedb/main.go:222-229 [snapshotBasePath]: filepath.Join(os.TempDir(), name,
    "snapshots"); [tmp]: the names of os.TempDir().  (Empty names are left out by Join.) *)
Definition snapshots_at (tmp : list string) (name : string) : list string :=
  cleaned tmp (app (split_str "/" name) ["snapshots"]).

(** The name for a LevelDB store is its path, as given (main.go:191-199). *)
Definition leveldb_snapshots (tmp : list string) (path : string) : list string := snapshots_at tmp path.

(** Which directory a path names: itself if rooted, else under the working directory. *)
Definition rooted (path : string) : bool := match path with String a _ => Ascii.eqb a "/" | _ => false end.
Definition directory (cwd : list string) (path : string) : list string :=
  cleaned (if rooted path then [] else cwd) (split_str "/" path).

(** * Shutting down *)

(** Two kinds of requests, over HTTP and over gRPC, and how far one has come: accepted,
    carried out (say, a save), answered. *)
Inductive proto := Http | Grpc.
Inductive progress := Accepted | CarriedOut | Answered.

(** [d_at]: how far main() has come: 0 = waiting at line 129; 1 = the signal came; 2 =
    rangeDBServer.Stop() (132); 3 = gRPCServer.Stop() (138), which closes the connections;
    4 = websocketAPI.Stop() (141); 5 = httpServer.Shutdown (144) has begun, so the listener is closed and Serve
    returns; 6 = Shutdown has returned, as no HTTP request is left; 7 = closeStore() (150).
    [d_exit]: the process has ended with this status. *)
Record daemon := mk_daemon { d_at : nat; d_reqs : list (proto * progress); d_exit : option N }.
Definition daemon_new : daemon := mk_daemon 0 [] None.

(** [DInterrupt]: SIGINT, the only signal asked for (123-124); [DTerm]: SIGTERM, which
    therefore ends the process; [DMain]: main() goes on by one of the stages above;
    [DServe]: the goroutine of serveHTTP (210-216) goes on: Serve has returned
    http.ErrServerClosed, not nil, so log.Fatal ends the process with status 1.  (gRPC's
    Serve returns nil after Stop, and its goroutine ends.) *)
Inductive dlabel := DInterrupt | DTerm | DAccept (p : proto) | DCarryOut (i : nat) | DAnswer (i : nat) | DMain | DServe.

Definition answered (q : proto * progress) : bool := match q with (Http, Answered) => true | (Http, _) => false | (Grpc, _) => true end.

Fixpoint put {A} (i : nat) (x : A) (l : list A) : list A :=
  match l, i with
  | [], _ => []
  | _ :: t, O => x :: t
  | a :: t, S j => a :: put j x t
  end.

Definition dstep (d : daemon) (l : dlabel) : option daemon :=
  match d_exit d with
  | Some _ => None
  | None =>
      match l with
      | DInterrupt => match d_at d with O => Some (mk_daemon 1 (d_reqs d) None) | _ => None end
      | DTerm => Some (mk_daemon (d_at d) (d_reqs d) (Some 143))
      | DAccept p =>
          if Nat.ltb (d_at d) (match p with Http => 5 | Grpc => 3 end)
          then Some (mk_daemon (d_at d) (app (d_reqs d) [(p, Accepted)]) None) else None
      | DCarryOut i =>
          (* the store is open *)
          match nth_error (d_reqs d) i with
          | Some (p, Accepted) => if Nat.ltb (d_at d) 7 then Some (mk_daemon (d_at d) (put i (p, CarriedOut) (d_reqs d)) None) else None
          | _ => None
          end
      | DAnswer i =>
          (* the connection is open *)
          match nth_error (d_reqs d) i with
          | Some (Http, CarriedOut) => Some (mk_daemon (d_at d) (put i (Http, Answered) (d_reqs d)) None)
          | Some (Grpc, CarriedOut) => if Nat.ltb (d_at d) 3 then Some (mk_daemon (d_at d) (put i (Grpc, Answered) (d_reqs d)) None) else None
          | _ => None
          end
      | DMain =>
          match d_at d with
          | O => None
          | 5%nat => if forallb answered (d_reqs d) then Some (mk_daemon 6 (d_reqs d) None) else None
          | 7%nat => Some (mk_daemon 7 (d_reqs d) (Some 0))
          | n => Some (mk_daemon (S n) (d_reqs d) None)
          end
      | DServe => if Nat.leb 5 (d_at d) then Some (mk_daemon (d_at d) (d_reqs d) (Some 1)) else None
      end
  end.

Fixpoint drun (d : daemon) (ls : list dlabel) : option daemon :=
  match ls with
  | [] => Some d
  | l :: rest => match dstep d l with Some d1 => drun d1 rest | None => None end
  end.
