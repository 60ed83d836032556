(** Vocabulary of the statements about the server program. *)
From Verif Require Import Base DecText Text Server.
Open Scope string_scope.
Open Scope N_scope.

(** A byte that is neither white space nor a backslash, in ASCII. *)
Definition plain_char (a : ascii) : Prop := space a = false /\ a <> "\"%char /\ N_of_ascii a < 128.
Fixpoint plain_chars (s : string) : Prop :=
  match s with EmptyString => True | String a rest => plain_char a /\ plain_chars rest end.
(** Not empty, without white space and backslashes, not starting with a quote. *)
Definition plain (s : string) : Prop :=
  match s with EmptyString => False | String a rest => a <> "'"%char /\ plain_char a /\ plain_chars rest end.

(** The connection settings a configuration means. *)
Definition meant (c : pg_config) : list (string * string) :=
  app [("host", p_host c); ("port", dec (p_port c)); ("user", p_user c); ("password", p_password c); ("dbname", p_dbname c); ("sslmode", "disable")]
    (if empty (p_search c) then [] else [("search_path", p_search c)]).

(** An ordinary directory name. *)
Definition dir_name (s : string) : Prop := s <> "" /\ s <> "." /\ s <> ".." /\ contains "/" s = false.

(** The store has been closed. *)
Definition store_closed (d : daemon) : Prop := d_at d = 7%nat.
