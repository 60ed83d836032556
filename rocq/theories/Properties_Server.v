(** Property theorems about the server program: shutting down (C91), the connection
    string (C92), the choice of the store and the place of its snapshots (C93). *)
From Coq Require Import PeanoNat.
From Verif Require Import Base DecText Text Server ServerSpec ServerProofs.
Open Scope string_scope.
Open Scope N_scope.

(** * C91: an interrupted server finishes what it has begun *)

(** If the process ends by main() returning (that is, neither by SIGTERM nor by the
    goroutine that serves HTTP), its status is 0, the store has been closed, and every
    HTTP request it had accepted has been answered. *)
Theorem C91_graceful_partial : forall ls d c,
  drun daemon_new ls = Some d -> ~ In DServe ls -> ~ In DTerm ls -> d_exit d = Some c ->
  c = 0 /\ store_closed d /\ forall st, In (Http, st) (d_reqs d) -> st = Answered.
Proof.
  intros ls d c H NS NT X.
  assert (S : settled d). { apply (run_settled ls _ _ H NS NT). split; [cbn; lia|]. split; [cbn; lia|]. discriminate. }
  destruct S as (A & _ & E). destruct (E c X) as [-> At]. split; [reflexivity|]. split; [exact At|].
  intros st I. assert (F : forallb answered (d_reqs d) = true) by (apply A; lia).
  rewrite forallb_forall in F. specialize (F _ I). destruct st; [discriminate|discriminate|reflexivity].
Qed.
Print Assumptions C91_graceful_partial.

Definition graceful : list dlabel :=
  [DAccept Http; DAccept Grpc; DCarryOut 1; DAnswer 1; DCarryOut 0; DInterrupt; DMain; DMain; DMain; DMain; DAnswer 0; DMain; DMain; DMain].
Example C91_witness : exists d, drun daemon_new graceful = Some d /\ ~ In DServe graceful /\ ~ In DTerm graceful /\ d_exit d = Some 0
  /\ d_reqs d = [(Http, Answered); (Grpc, Answered)].
Proof.
  eexists. split; [reflexivity|].
  split; [cbn; intuition discriminate|]. split; [cbn; intuition discriminate|]. split; reflexivity.
Qed.

(** But the goroutine that serves HTTP may end the process from the moment the shutdown
    of the HTTP server has begun: in every run that gets there and has not ended it can
    go on next; then the status is 1, whatever requests were in progress stay as they
    are, and, unless main() had got to it already, the store is not closed. *)
Theorem C91_cut_off_refuted : forall ls d,
  drun daemon_new ls = Some d -> (5 <= d_at d)%nat -> d_exit d = None ->
  exists d', drun daemon_new (app ls [DServe]) = Some d' /\ d_exit d' = Some 1 /\ d_reqs d' = d_reqs d
    /\ (d_at d <> 7%nat -> ~ store_closed d') /\ forall l, dstep d' l = None.
Proof.
  intros ls d H L X. exists (mk_daemon (d_at d) (d_reqs d) (Some 1)).
  split. { rewrite drun_app, H. cbn. unfold dstep. rewrite X, (proj2 (Nat.leb_le _ _) L). reflexivity. }
  split; [reflexivity|]. split; [reflexivity|]. split; [intros N; exact N|]. intros l. reflexivity.
Qed.
Print Assumptions C91_cut_off_refuted.
(** A save over HTTP has been carried out, its answer is never sent. *)
Example C91_witness_cut_off : exists d,
  drun daemon_new (app [DAccept Http; DInterrupt; DMain; DMain; DMain; DMain; DCarryOut 0] [DServe]) = Some d
  /\ d_exit d = Some 1 /\ d_reqs d = [(Http, CarriedOut)] /\ ~ store_closed d.
Proof. eexists. split; [reflexivity|]. split; [reflexivity|]. split; [reflexivity|]. cbn. discriminate. Qed.

(** Every shutdown of main() passes there, so every interrupted run can end so. *)
Theorem C91_cut_off_always_refuted : forall ls d,
  drun daemon_new ls = Some d -> ~ In DTerm ls -> d_exit d = Some 0 ->
  exists before rest d1, ls = app before rest /\ rest <> [] /\ drun daemon_new before = Some d1
    /\ (5 <= d_at d1)%nat /\ d_exit d1 = None.
Proof.
  intros ls d H NT X. destruct (exists_last (l := ls)) as (before & l & ->).
  { intros ->. injection H as <-. discriminate. }
  rewrite drun_app in H. destruct (drun daemon_new before) as [d1|] eqn:E; [|discriminate]. cbn in H.
  destruct (dstep d1 l) as [d2|] eqn:S; [|discriminate]. injection H as ->.
  exists before, [l], d1. split; [reflexivity|]. split; [discriminate|]. split; [exact E|].
  unfold dstep in S. destruct (d_exit d1) eqn:X1; [discriminate|]. split; [|reflexivity].
  destruct l as [| |p|i|i| |].
  - destruct (d_at d1); [injection S as <-|]; discriminate.
  - exfalso. apply NT. apply in_or_app. right. left. reflexivity.
  - destruct (Nat.ltb _ _); [injection S as <-|]; discriminate.
  - destruct (nth_error _ _) as [[p [| |]]|]; try discriminate. destruct (Nat.ltb _ _); [injection S as <-|]; discriminate.
  - destruct (nth_error _ _) as [[[|] [| |]]|]; try discriminate; [injection S as <-; discriminate|].
    destruct (Nat.ltb _ _); [injection S as <-|]; discriminate.
  - destruct (d_at d1) as [|[|[|[|[|[|[|[|n]]]]]]]]; try (injection S as <-; discriminate); try discriminate; try lia.
  - destruct (Nat.leb _ _); [injection S as <-|]; discriminate.
Qed.
Print Assumptions C91_cut_off_always_refuted.

(** Calls over gRPC are cut off even when main() returns: gRPCServer.Stop() closes the
    connections, so a save that has been carried out may never be answered. *)
Theorem C91_grpc_refuted : exists ls d,
  drun daemon_new ls = Some d /\ ~ In DServe ls /\ ~ In DTerm ls /\ d_exit d = Some 0 /\ d_reqs d = [(Grpc, CarriedOut)].
Proof.
  exists [DAccept Grpc; DInterrupt; DCarryOut 0; DMain; DMain; DMain; DMain; DMain; DMain; DMain]. eexists.
  split; [reflexivity|]. split; [cbn; intuition discriminate|]. split; [cbn; intuition discriminate|]. split; reflexivity.
Qed.
Print Assumptions C91_grpc_refuted.

(** From then on no call over gRPC is ever answered. *)
Theorem C91_grpc_never_refuted : forall ls d d', drun d ls = Some d' -> (3 <= d_at d)%nat ->
  forall i, nth_error (d_reqs d') i = Some (Grpc, Answered) -> nth_error (d_reqs d) i = Some (Grpc, Answered).
Proof.
  induction ls as [|l ls IH]; cbn; intros d d' H L i N; [injection H as <-; exact N|].
  destruct (dstep d l) as [d1|] eqn:S; [|discriminate].
  unfold dstep in S. destruct (d_exit d); [discriminate|].
  assert (K : (3 <= d_at d1)%nat /\ (nth_error (d_reqs d1) i = Some (Grpc, Answered) -> nth_error (d_reqs d) i = Some (Grpc, Answered))).
  { destruct l as [| |p|j|j| |].
    - destruct (d_at d) eqn:E; [lia|discriminate].
    - injection S as <-. cbn. auto.
    - destruct (Nat.ltb_spec (d_at d) (match p with Http => 5 | Grpc => 3 end)) as [LT|]; [|discriminate]. injection S as <-. cbn.
      split; [exact L|]. destruct p; [|lia]. intros N1.
      destruct (Nat.lt_ge_cases i (List.length (d_reqs d))) as [Li|Li].
      + rewrite nth_error_app1 in N1 by exact Li. exact N1.
      + rewrite nth_error_app2 in N1 by exact Li. destruct (i - List.length (d_reqs d))%nat as [|[|k]]; discriminate.
    - destruct (nth_error (d_reqs d) j) as [[p [| |]]|] eqn:Nj; try discriminate. destruct (Nat.ltb _ _); [|discriminate]. injection S as <-.
      cbn. split; [exact L|]. rewrite nth_put. destruct (Nat.eqb_spec j i) as [->|]; [rewrite Nj; discriminate|auto].
    - destruct (nth_error (d_reqs d) j) as [[[|] [| |]]|] eqn:Nj; try discriminate.
      + injection S as <-. cbn. split; [exact L|]. rewrite nth_put. destruct (Nat.eqb_spec j i) as [->|]; [rewrite Nj; discriminate|auto].
      + destruct (Nat.ltb_spec (d_at d) 3); [lia|discriminate].
    - destruct (d_at d) as [|[|[|[|[|[|[|[|n]]]]]]]] eqn:E; try discriminate; try lia; try (injection S as <-; cbn; split; [lia|auto]).
      destruct (forallb answered (d_reqs d)); [injection S as <-; cbn; split; [lia|auto]|discriminate].
    - destruct (Nat.leb 5 (d_at d)); [injection S as <-; cbn; auto|discriminate]. }
  destruct K as [L1 K]. apply K. exact (IH _ _ H L1 i N).
Qed.
Print Assumptions C91_grpc_never_refuted.
Example C91_witness_grpc_never : exists d d',
  drun daemon_new [DAccept Grpc; DAccept Grpc; DCarryOut 0; DAnswer 0; DInterrupt; DMain; DMain] = Some d
  /\ (3 <= d_at d)%nat /\ drun d [DCarryOut 1; DMain; DMain] = Some d'
  /\ d_reqs d' = [(Grpc, Answered); (Grpc, CarriedOut)].
Proof. eexists. eexists. split; [reflexivity|]. split; [cbn; lia|]. split; reflexivity. Qed.

(** SIGTERM, with which service managers and containers stop a process, is not waited
    for: at any moment it ends the process as it is. *)
Theorem C91_term_refuted : forall ls d, drun daemon_new ls = Some d -> d_exit d = None -> d_at d <> 7%nat ->
  exists d', drun daemon_new (app ls [DTerm]) = Some d' /\ d_exit d' <> None /\ d_exit d' <> Some 0 /\ d_reqs d' = d_reqs d /\ ~ store_closed d'.
Proof.
  intros ls d H X N. exists (mk_daemon (d_at d) (d_reqs d) (Some 143)). split; [rewrite drun_app, H; cbn; unfold dstep; now rewrite X|].
  split; [discriminate|]. split; [discriminate|]. split; [reflexivity|exact N].
Qed.
Print Assumptions C91_term_refuted.
Example C91_witness_term : exists d, drun daemon_new [DAccept Http; DCarryOut 0] = Some d /\ d_exit d = None /\ d_at d <> 7%nat.
Proof. eexists. split; [reflexivity|]. split; [reflexivity|]. cbn. discriminate. Qed.

(** * C92: the driver connects with the settings of the configuration *)

(** When host, user, password, database and (if there is one) search path are not empty,
    have no white space or backslash and do not start with a quote, the driver reads from
    the connection string exactly the configuration's settings. *)
Theorem C92_dsn_partial : forall c,
  plain (p_host c) -> plain (p_user c) -> plain (p_password c) -> plain (p_dbname c) -> p_search c = "" \/ plain (p_search c) ->
  settings Between (dsn c) = Some (meant c).
Proof. exact dsn_back. Qed.
Print Assumptions C92_dsn_partial.

(** Hence different such configurations give different connection strings. *)
Theorem C92_dsn_apart_partial : forall c c',
  plain (p_host c) -> plain (p_user c) -> plain (p_password c) -> plain (p_dbname c) -> p_search c = "" \/ plain (p_search c) ->
  plain (p_host c') -> plain (p_user c') -> plain (p_password c') -> plain (p_dbname c') -> p_search c' = "" \/ plain (p_search c') ->
  dsn c = dsn c' -> c = c'.
Proof.
  intros c c' H1 H2 H3 H4 H5 K1 K2 K3 K4 K5 E.
  pose proof (dsn_back c H1 H2 H3 H4 H5) as A. rewrite E, (dsn_back c' K1 K2 K3 K4 K5) in A. clear - A.
  destruct c as [h p u pw db sp], c' as [h' p' u' pw' db' sp']. unfold meant in A.
  cbn [p_host p_port p_user p_password p_dbname p_search List.app] in A. injection A as -> P -> -> -> S.
  assert (p = p'). { apply dec_inj. auto. } subst p'.
  assert (sp = sp'). { destruct sp, sp'; cbn in S; try discriminate; [reflexivity|]. injection S as -> ->. reflexivity. } now subst.
Qed.
Print Assumptions C92_dsn_apart_partial.

Definition a_config (password search : string) : pg_config := mk_pg "db.example.com" 5432 "inklabs" password "events" search.
Lemma plain_of s : (match s with EmptyString => false | String a _ => negb (Ascii.eqb a "'") end
  && (fix ok s := match s with EmptyString => true | String a r => negb (space a) && negb (Ascii.eqb a "\") && (N_of_ascii a <? 128) && ok r end) s)%bool = true -> plain s.
Proof.
  intros H. apply andb_prop in H as [H1 H2].
  assert (C : plain_chars s).
  { revert H2. clear. induction s as [|a s IH]; cbn; auto. intros H. apply andb_prop in H as [H H']. apply andb_prop in H as [H H3].
    apply andb_prop in H as [H1 H2]. split; [|now apply IH]. split; [now apply negb_true_iff|]. split; [|now apply N.ltb_lt].
    intros ->. discriminate. }
  destruct s as [|a s]; [discriminate|]. cbn in *. destruct C. split; auto. intros ->. discriminate.
Qed.
Example C92_witness : settings Between (dsn (a_config "pa=ss'word" "schema")) = Some (meant (a_config "pa=ss'word" "schema"))
  /\ plain "pa=ss'word" /\ plain "db.example.com" /\ plain "inklabs" /\ plain "events" /\ plain "schema".
Proof. split; [reflexivity|]. repeat match goal with |- _ /\ _ => split end; apply plain_of; reflexivity. Qed.

(** A configuration without a password is accepted, but the driver then reads the
    setting of the database as the password, and no database at all (it connects to the
    one named like the user). *)
Theorem C92_empty_password_refuted : forall e,
  plain (e_host e) -> plain (e_user e) -> e_password e = "" -> plain (e_dbname e) -> e_search e = "" \/ plain (e_search e) ->
  exists c l, pg_from e = Some c /\ settings Between (dsn c) = Some l
    /\ In ("password", "dbname=" ++ e_dbname e) l /\ forall v, ~ In ("dbname", v) l.
Proof.
  intros e H U PW D SP. unfold pg_from.
  assert (forall s, plain s -> empty s = false) as NE by (intros [|]; cbn; tauto).
  rewrite (NE _ H), (NE _ U), (NE _ D). cbn [orb].
  eexists. eexists. split; [reflexivity|]. split.
  - apply dsn_no_password; auto. cbn. destruct (e_dbname e); [destruct D|]. destruct D as (_ & D1 & D2). split; assumption.
  - cbn. split; [tauto|]. intros v I. destruct (empty (e_search e)); cbn in I; intuition discriminate.
Qed.
Print Assumptions C92_empty_password_refuted.
Example C92_witness_empty_password :
  let c := a_config "" "" in
  pg_from (mk_env "db.example.com" "inklabs" "" "events" "" "" "" "") = Some c
  /\ settings Between (dsn c) = Some [("host", "db.example.com"); ("port", "5432"); ("user", "inklabs"); ("password", "dbname=events"); ("sslmode", "disable")].
Proof. split; reflexivity. Qed.

(** White space in a value ends it: what follows is read as further settings, and of two
    settings with the same name the later counts.  So a search path can turn to another
    database, and any plain value in it takes effect. *)
Theorem C92_space_refuted : forall c v,
  plain (p_host c) -> plain (p_user c) -> plain (p_password c) -> plain (p_dbname c) -> plain v ->
  p_search c = "public dbname=" ++ v ->
  settings Between (dsn c) = Some (app (meant (mk_pg (p_host c) (p_port c) (p_user c) (p_password c) (p_dbname c) "public")) [("dbname", v)]).
Proof.
  intros c v H U PW D V SP. rewrite dsn_shape, key_host, (plain_run _ _ _ H), key_port, (plain_run _ _ _ (dec_plain _)), key_user, (plain_run _ _ _ U),
    key_password, (plain_run _ _ _ PW), key_dbname, (plain_run _ _ _ D), key_sslmode. unfold tail_of. rewrite SP.
  change (empty ("public dbname=" ++ v)) with false. cbv iota.
  change (" search_path=" ++ "public dbname=" ++ v) with (String " " ("search_path=" ++ ("public" ++ String " " ("dbname=" ++ v)))).
  rewrite (plain_run "disable" _ _ plain_disable), key_search.
  rewrite (plain_run "public" _ _ (plain_of "public" eq_refl)), key_dbname, (plain_end _ _ V). reflexivity.
Qed.
Print Assumptions C92_space_refuted.
Example C92_witness_space : settings Between (dsn (a_config "secret" "public dbname=other"))
  = Some (app (meant (a_config "secret" "public")) [("dbname", "other")]) /\ plain "secret" /\ plain "other".
Proof. split; [reflexivity|]. split; apply plain_of; reflexivity. Qed.

(** * C93: the store that was asked for, and snapshots of that store only *)

(** LevelDB is used, at the given path, iff a path is given and the environment has
    neither a host, user and database for PostgreSQL nor an address, user and password
    for EventStoreDB. *)
Theorem C93_leveldb_partial : forall e path q,
  get_store e path = UseLevelDB q
  <-> q = path /\ path <> "" /\ (e_host e = "" \/ e_user e = "" \/ e_dbname e = "") /\ (e_ip e = "" \/ e_esuser e = "" \/ e_espassword e = "").
Proof.
  intros e path q. unfold get_store, pg_from, es_from.
  destruct (e_host e), (e_user e), (e_dbname e); cbn;
  destruct (e_ip e), (e_esuser e), (e_espassword e); cbn; destruct path; cbn; intuition (try discriminate; try congruence);
  match goal with H : UseLevelDB _ = UseLevelDB _ |- _ => now injection H end.
Qed.
Print Assumptions C93_leveldb_partial.
Example C93_witness_leveldb : get_store (mk_env "h" "" "" "d" "" "" "u" "p") "/data" = UseLevelDB "/data". Proof. reflexivity. Qed.

(** The store in memory, which forgets everything, iff nothing at all is complete. *)
Theorem C93_memory_partial : forall e path,
  get_store e path = UseMemory
  <-> path = "" /\ (e_host e = "" \/ e_user e = "" \/ e_dbname e = "") /\ (e_ip e = "" \/ e_esuser e = "" \/ e_espassword e = "").
Proof.
  intros e path. unfold get_store, pg_from, es_from.
  destruct (e_host e), (e_user e), (e_dbname e); cbn;
  destruct (e_ip e), (e_esuser e), (e_espassword e); cbn; destruct path; cbn; intuition discriminate.
Qed.
Print Assumptions C93_memory_partial.
Example C93_witness_memory : get_store (mk_env "h" "u" "p" "" "" "" "u" "p") "" = UseMemory. Proof. reflexivity. Qed.

(** So -levelDBPath is silently overruled by the environment, whatever the path. *)
Theorem C93_overruled_refuted : forall e path, e_host e <> "" -> e_user e <> "" -> e_dbname e <> "" ->
  get_store e path = UsePostgres (mk_pg (e_host e) 5432 (e_user e) (e_password e) (e_dbname e) (e_search e)).
Proof.
  intros e path H U D. unfold get_store, pg_from.
  destruct (e_host e); [congruence|]. destruct (e_user e); [congruence|]. destruct (e_dbname e); [congruence|]. reflexivity.
Qed.
Print Assumptions C93_overruled_refuted.
Example C93_witness_overruled : get_store (mk_env "h" "u" "" "d" "" "" "" "") "/data" = UsePostgres (mk_pg "h" 5432 "u" "" "d" ""). Proof. reflexivity. Qed.

(** LevelDB stores at different absolute paths of ordinary names keep their snapshots
    in different places. *)
Theorem C93_snapshots_apart_partial : forall tmp l l', l <> [] -> l' <> [] -> Forall dir_name l -> Forall dir_name l' ->
  leveldb_snapshots tmp (String "/" (join "/" l)) = leveldb_snapshots tmp (String "/" (join "/" l')) -> l = l'.
Proof.
  intros tmp l l' N N' F F' E. rewrite !snapshots_rooted in E by assumption.
  apply app_inv_head in E. apply app_inj_tail in E. tauto.
Qed.
Print Assumptions C93_snapshots_apart_partial.
Example C93_witness_snapshots : Forall dir_name ["data"; "events"]
  /\ leveldb_snapshots ["tmp"] "/data/events" = ["tmp"; "data"; "events"; "snapshots"].
Proof. split; [|reflexivity]. repeat constructor; discriminate. Qed.

(** But the store at a relative path and the one at the same path from the root share
    theirs, from every working directory but the root. *)
Theorem C93_snapshots_shared_refuted : forall tmp cwd l, cwd <> [] -> l <> [] -> Forall dir_name l ->
  leveldb_snapshots tmp (String "/" (join "/" l)) = leveldb_snapshots tmp (join "/" l)
  /\ directory cwd (String "/" (join "/" l)) <> directory cwd (join "/" l).
Proof.
  intros tmp cwd l NC N F. split; [apply snapshots_shared|].
  rewrite directory_rooted, directory_relative by assumption. intros E.
  apply (f_equal (@List.length string)) in E. rewrite app_length in E. destruct cwd; [congruence|]. cbn in E. lia.
Qed.
Print Assumptions C93_snapshots_shared_refuted.

(** And so do the stores at the same relative path in two working directories. *)
Theorem C93_snapshots_cwd_refuted : forall l cwd cwd', l <> [] -> Forall dir_name l -> cwd <> cwd' ->
  directory cwd (join "/" l) <> directory cwd' (join "/" l).
Proof.
  intros l cwd cwd' N F NC E. rewrite !directory_relative in E by assumption. apply app_inv_tail in E. congruence.
Qed.
Print Assumptions C93_snapshots_cwd_refuted.
Example C93_witness_shared : leveldb_snapshots ["tmp"] "/data" = leveldb_snapshots ["tmp"] "data"
  /\ directory ["home"; "me"] "/data" = ["data"] /\ directory ["home"; "me"] "data" = ["home"; "me"; "data"] /\ Forall dir_name ["data"].
Proof. split; [reflexivity|]. split; [reflexivity|]. split; [reflexivity|]. repeat constructor; discriminate. Qed.

(** For PostgreSQL the directory of the snapshots is named by the connection string, so
    the password stands in the file system. *)
Theorem C93_password_refuted : forall tmp c, contains "/" (dsn c) = false ->
  snapshots_at tmp (dsn c) = app tmp [dsn c; "snapshots"] /\ contains (p_password c) (dsn c) = true.
Proof.
  intros tmp c H. split.
  - unfold snapshots_at, split_str. rewrite (split_none _ _ H). cbn [String.append].
    change (app [dsn c] ["snapshots"]) with [dsn c; "snapshots"]. apply cleaned_names.
    constructor; [|constructor; [|constructor]].
    + split; [discriminate|]. split; [discriminate|]. split; [discriminate|exact H].
    + split; [discriminate|]. split; [discriminate|]. split; [discriminate|reflexivity].
  - set (q := "host=" ++ p_host c ++ " port=" ++ dec (p_port c) ++ " user=" ++ p_user c ++ " password=").
    assert (E : dsn c = q ++ (p_password c ++ (" dbname=" ++ p_dbname c ++ " sslmode=disable" ++ tail_of c))).
    { unfold q, dsn, tail_of. rewrite !app_assoc_s. reflexivity. }
    rewrite E. apply contains_app.
Qed.
Print Assumptions C93_password_refuted.
Example C93_witness_password : snapshots_at ["tmp"] (dsn (a_config "secret" ""))
  = ["tmp"; "host=db.example.com port=5432 user=inklabs password=secret dbname=events sslmode=disable"; "snapshots"].
Proof. reflexivity. Qed.
