(** Proofs about the server program. *)
From Coq Require Import PeanoNat.
From Verif Require Import Base DecText Text Server ServerSpec.
Open Scope string_scope.
Open Scope N_scope.

Lemma append_assoc (a b c : string) : (a ++ b) ++ c = a ++ b ++ c.
Proof. induction a as [|x a IH]; cbn; [reflexivity|]. now rewrite IH. Qed.
Lemma append_nil_r (a : string) : a ++ "" = a.
Proof. induction a as [|x a IH]; cbn; [reflexivity|]. now rewrite IH. Qed.

(** * Connection strings *)
Lemma not_char (a b : ascii) : a <> b -> Ascii.eqb a b = false.
Proof. apply Ascii.eqb_neq. Qed.

(** A plain value is read up to the next blank. *)
Lemma value_run w : forall k v rest, plain_chars w ->
  settings (InValue k v) (w ++ String " " rest)
  = match settings Between rest with Some l => Some ((k, v ++ w) :: l) | None => None end.
Proof.
  induction w as [|a w IH]; intros k v rest P.
  - cbn. now rewrite append_nil_r.
  - destruct P as [(S & B & _) P]. cbn [append settings]. unfold blank. rewrite S, (not_char _ _ B), (IH _ _ _ P), append_assoc.
    reflexivity.
Qed.
Lemma value_end w : forall k v, plain_chars w -> settings (InValue k v) w = Some [(k, v ++ w)].
Proof.
  induction w as [|a w IH]; intros k v P.
  - cbn. now rewrite append_nil_r.
  - destruct P as [(S & B & _) P]. cbn [settings]. unfold blank. rewrite S, (not_char _ _ B), (IH _ _ P), append_assoc.
    reflexivity.
Qed.
Lemma plain_run w k rest : plain w ->
  settings (BeforeValue k) (w ++ String " " rest) = match settings Between rest with Some l => Some ((k, w) :: l) | None => None end.
Proof.
  destruct w as [|a w]; [intros []|]. intros (Q & (S & B & _) & P). cbn [append settings]. unfold blank.
  rewrite S, (not_char _ _ Q), (not_char _ _ B). now rewrite (value_run w k (one a) rest P).
Qed.
Lemma plain_end w k : plain w -> settings (BeforeValue k) w = Some [(k, w)].
Proof.
  destruct w as [|a w]; [intros []|]. intros (Q & (S & B & _) & P). cbn [settings]. unfold blank.
  rewrite S, (not_char _ _ Q), (not_char _ _ B). now rewrite (value_end w k (one a) P).
Qed.

Lemma digit_plain a : digit a <> None -> plain_char a /\ a <> "'"%char.
Proof.
  unfold digit. destruct ((48 <=? N_of_ascii a) && (N_of_ascii a <=? 57))%bool eqn:E; [|congruence]. intros _.
  apply andb_prop in E as [E1 E2]. apply N.leb_le in E1, E2.
  assert (X : forall b, (N_of_ascii b < 48 \/ 57 < N_of_ascii b) -> a <> b) by (intros b Hb ->; lia).
  split; [split; [|split]|].
  - unfold space. destruct (_ <=? 13) eqn:E3; [apply N.leb_le in E3; lia|]. rewrite Bool.andb_false_r. cbn. apply N.eqb_neq. lia.
  - apply X. right. reflexivity.
  - lia.
  - apply X. left. reflexivity.
Qed.
Lemma dec_plain n : plain (dec n).
Proof.
  pose proof (dec_all n) as A. destruct (dec_head n) as (c & rest & E & D). rewrite E in *. destruct A as [_ A].
  destruct (digit_plain c D) as [P Q]. split; auto. split; auto. clear - A. induction rest as [|x r IH]; cbn in *; auto.
  destruct A as [A1 A2]. split; auto. now apply digit_plain.
Qed.

(** A key of letters, its "=", and what follows. *)
Lemma key_host r : settings Between ("host=" ++ r) = settings (BeforeValue "host") r. Proof. reflexivity. Qed.
Lemma key_port r : settings Between ("port=" ++ r) = settings (BeforeValue "port") r. Proof. reflexivity. Qed.
Lemma key_user r : settings Between ("user=" ++ r) = settings (BeforeValue "user") r. Proof. reflexivity. Qed.
Lemma key_password r : settings Between ("password=" ++ r) = settings (BeforeValue "password") r. Proof. reflexivity. Qed.
Lemma key_dbname r : settings Between ("dbname=" ++ r) = settings (BeforeValue "dbname") r. Proof. reflexivity. Qed.
Lemma key_sslmode r : settings Between ("sslmode=" ++ r) = settings (BeforeValue "sslmode") r. Proof. reflexivity. Qed.
Lemma key_search r : settings Between ("search_path=" ++ r) = settings (BeforeValue "search_path") r. Proof. reflexivity. Qed.

Definition tail_of (c : pg_config) : string := if empty (p_search c) then "" else " search_path=" ++ p_search c.
Lemma dsn_shape c : dsn c = "host=" ++ (p_host c ++ String " " ("port=" ++ (dec (p_port c) ++ String " " ("user=" ++ (p_user c ++ String " "
    ("password=" ++ (p_password c ++ String " " ("dbname=" ++ (p_dbname c ++ String " " ("sslmode=" ++ ("disable" ++ tail_of c))))))))))).

Proof. reflexivity. Qed.

Lemma plain_disable : plain "disable".
Proof. cbn. unfold plain_char. repeat split; try reflexivity; discriminate. Qed.

Lemma tail_back c : p_search c = "" \/ plain (p_search c) ->
  settings (BeforeValue "sslmode") ("disable" ++ tail_of c)
  = Some (("sslmode", "disable") :: (if empty (p_search c) then [] else [("search_path", p_search c)])).
Proof.
  unfold tail_of. intros [->|SP].
  - cbn [empty]. rewrite append_nil_r. apply plain_end, plain_disable.
  - destruct (p_search c) as [|a t] eqn:E; [destruct SP|]. cbn [empty].
    change (" search_path=" ++ String a t) with (String " " ("search_path=" ++ String a t)).
    rewrite (plain_run "disable" _ _ plain_disable), key_search, (plain_end _ _ SP). reflexivity.
Qed.

Lemma dsn_back c : plain (p_host c) -> plain (p_user c) -> plain (p_password c) -> plain (p_dbname c) ->
  p_search c = "" \/ plain (p_search c) -> settings Between (dsn c) = Some (meant c).
Proof.
  intros H U PW D SP. rewrite dsn_shape, key_host, (plain_run _ _ _ H), key_port, (plain_run _ _ _ (dec_plain _)), key_user, (plain_run _ _ _ U),
    key_password, (plain_run _ _ _ PW), key_dbname, (plain_run _ _ _ D), key_sslmode, (tail_back c SP). reflexivity.
Qed.

(** Without a password the next setting is read as the password. *)
Lemma dsn_no_password c : plain (p_host c) -> plain (p_user c) -> p_password c = "" -> plain_chars (p_dbname c) ->
  p_search c = "" \/ plain (p_search c) ->
  settings Between (dsn c) = Some (app [("host", p_host c); ("port", dec (p_port c)); ("user", p_user c);
    ("password", "dbname=" ++ p_dbname c); ("sslmode", "disable")]
    (if empty (p_search c) then [] else [("search_path", p_search c)])).
Proof.
  intros H U PW D SP. rewrite dsn_shape, key_host, (plain_run _ _ _ H), key_port, (plain_run _ _ _ (dec_plain _)), key_user, (plain_run _ _ _ U),
    key_password, PW.
  change ("" ++ String " " ("dbname=" ++ p_dbname c ++ String " " ("sslmode=" ++ "disable" ++ tail_of c)))
    with (String " " (("dbname=" ++ (p_dbname c ++ String " " ("sslmode=" ++ "disable" ++ tail_of c))))).
  change (settings (BeforeValue "password") (String " " ("dbname=" ++ (p_dbname c ++ String " " ("sslmode=" ++ "disable" ++ tail_of c)))))
    with (settings (InValue "password" "dbname=") (p_dbname c ++ String " " ("sslmode=" ++ "disable" ++ tail_of c))).
  rewrite (value_run _ _ _ _ D), key_sslmode, (tail_back c SP). reflexivity.
Qed.

(** * Snapshots *)
Lemma split_slash path : split_str "/" (String "/" path) = "" :: split_str "/" path.
Proof. destruct path; reflexivity. Qed.

Lemma cleaned_names l : Forall dir_name l -> forall done, cleaned done l = app done l.
Proof.
  induction l as [|x l IH]; intros F done; cbn [cleaned]; [now rewrite List.app_nil_r|].
  apply Forall_cons_iff in F as [(N1 & N2 & N3 & _) F].
  assert (E : empty x = false) by (destruct x; cbn; congruence).
  rewrite E, (proj2 (String.eqb_neq _ _) N2), (proj2 (String.eqb_neq _ _) N3). cbn [orb].
  rewrite (IH F), <- List.app_assoc. reflexivity.
Qed.

Lemma contains_lacks s : contains "/" s = false -> lacks "/" s = true.
Proof.
  induction s as [|a s IH]; cbn; auto. intros H. apply orb_false_iff in H as [H1 H2].
  rewrite (IH H2), Bool.andb_true_r. destruct (Ascii.eqb_spec a "/") as [->|N].
  - destruct s; discriminate H1.
  - reflexivity.
Qed.

Lemma split_join l : l <> [] -> Forall dir_name l -> split_str "/" (join "/" l) = l.
Proof.
  intros N F. apply split_join_byte; auto. apply forallb_forall. intros x Hx. rewrite Forall_forall in F.
  apply contains_lacks. now destruct (F x Hx) as (_ & _ & _ & C).
Qed.

Lemma snapshots_rooted tmp l : l <> [] -> Forall dir_name l ->
  leveldb_snapshots tmp (String "/" (join "/" l)) = app tmp (app l ["snapshots"]).
Proof.
  intros N F. unfold leveldb_snapshots, snapshots_at. rewrite split_slash, (split_join l N F). cbn [app cleaned empty orb].
  apply cleaned_names. apply Forall_app. split; auto. constructor; [|constructor]. split; [discriminate|]. split; [discriminate|]. split; [discriminate|reflexivity].
Qed.

Lemma snapshots_shared tmp path : leveldb_snapshots tmp (String "/" path) = leveldb_snapshots tmp path.
Proof. unfold leveldb_snapshots, snapshots_at. rewrite split_slash. reflexivity. Qed.

Lemma directory_rooted cwd l : l <> [] -> Forall dir_name l -> directory cwd (String "/" (join "/" l)) = l.
Proof.
  intros N F. unfold directory. cbn [rooted]. rewrite Ascii.eqb_refl, split_slash, (split_join l N F). cbn [cleaned empty orb].
  now rewrite cleaned_names.
Qed.
Lemma directory_relative cwd l : l <> [] -> Forall dir_name l -> directory cwd (join "/" l) = app cwd l.
Proof.
  intros N F. unfold directory.
  assert (R : rooted (join "/" l) = false).
  { destruct l as [|x l]; [congruence|]. apply Forall_cons_iff in F as [(N1 & _ & _ & C) F].
    destruct x as [|a x]; [congruence|]. cbn in C. apply orb_false_iff in C as [C _].
    assert (rooted (String a x) = false). { cbn. destruct (Ascii.eqb_spec a "/") as [->|]; auto. destruct x; discriminate C. }
    destruct l; exact H. }
  rewrite R, (split_join l N F). now apply cleaned_names.
Qed.

(** * Shutting down *)
Lemma nth_put {A} (i j : nat) (x : A) l : nth_error (put i x l) j = if Nat.eqb i j then (match nth_error l i with Some _ => Some x | None => None end) else nth_error l j.
Proof.
  revert i j. induction l as [|a l IH]; intros [|i] [|j]; cbn; auto.
  destruct (Nat.eqb i j); reflexivity.
Qed.

Definition settled (d : daemon) : Prop :=
  ((6 <= d_at d)%nat -> forallb answered (d_reqs d) = true)
  /\ (d_at d <= 7)%nat /\ forall c, d_exit d = Some c -> c = 0 /\ d_at d = 7%nat.

Lemma put_answered i q l : answered q = true -> forallb answered l = true -> forallb answered (put i q l) = true.
Proof.
  intros Q. revert i. induction l as [|a l IH]; intros [|i]; cbn; auto; intros H; apply andb_prop in H as [H1 H2]; rewrite ?H1, ?Q; cbn; auto.
Qed.

Lemma nth_answered i q l : forallb answered l = true -> nth_error l i = Some q -> answered q = true.
Proof. intros H N. rewrite forallb_forall in H. apply H. eapply nth_error_In; eauto. Qed.

Lemma step_settled d l d' : dstep d l = Some d' -> l <> DServe -> l <> DTerm -> settled d -> settled d'.
Proof.
  unfold dstep. destruct (d_exit d) as [c|] eqn:X; [discriminate|]. intros H NS NT (A & B & _).
  destruct l as [| |p|i|i| |]; try congruence.
  - destruct (d_at d) eqn:E; [|discriminate]. injection H as <-. split; [cbn; lia|]. split; [cbn; lia|]. discriminate.
  - destruct (Nat.ltb_spec (d_at d) (match p with Http => 5 | Grpc => 3 end)) as [L|]; [|discriminate]. injection H as <-.
    split; [cbn; destruct p; lia|]. split; [exact B|]. discriminate.
  - destruct (nth_error (d_reqs d) i) as [[p [| |]]|] eqn:N; try discriminate. destruct (Nat.ltb _ _); [|discriminate]. injection H as <-.
    split; [|split; [exact B|discriminate]]. cbn. intros L. pose proof (nth_answered _ _ _ (A L) N) as Q. destruct p; [discriminate|].
    now apply put_answered; [|apply A].
  - destruct (nth_error (d_reqs d) i) as [[[|] [| |]]|] eqn:N; try discriminate.
    + injection H as <-. split; [|split; [exact B|discriminate]]. cbn. intros L. pose proof (nth_answered _ _ _ (A L) N) as Q. discriminate.
    + destruct (Nat.ltb _ _); [|discriminate]. injection H as <-. split; [|split; [exact B|discriminate]]. cbn. intros L.
      now apply put_answered; [|apply A].
  - destruct (d_at d) as [|[|[|[|[|[|[|[|n]]]]]]]] eqn:E; try discriminate; try (injection H as <-; split; [cbn; try lia|split; [cbn; lia|discriminate]]).
    + destruct (forallb answered (d_reqs d)) eqn:F; [|discriminate]. injection H as <-. split; [auto|split; [cbn; lia|discriminate]].
    + intros _. cbn. apply A. lia.
    + injection H as <-. split; [cbn; intros _; apply A; lia|]. split; [cbn; lia|]. cbn. intros c [= <-]. auto.
Qed.

Lemma run_settled ls : forall d d', drun d ls = Some d' -> ~ In DServe ls -> ~ In DTerm ls -> settled d -> settled d'.
Proof.
  induction ls as [|l ls IH]; cbn; intros d d' H NS NT S; [now injection H as <-|].
  destruct (dstep d l) as [d1|] eqn:E; [|discriminate].
  eapply IH; eauto. eapply step_settled; eauto.
Qed.

Lemma drun_app ls1 : forall ls2 d, drun d (app ls1 ls2) = match drun d ls1 with Some d1 => drun d1 ls2 | None => None end.
Proof. induction ls1 as [|l ls1 IH]; cbn; intros ls2 d; auto. destruct (dstep d l); auto. Qed.
