(** C110: a conflict tells the number to retry with. *)
From Coq Require Import PeanoNat.
From Verif Require Import Base LogSpec StoreSpec ToyCodec InMemory InMemoryProofs LevelDB LevelDBSpec LogProofs Properties_InMemory Properties_LevelDB
  Locks LocksProofs Postgres PostgresSpec PostgresSeq Properties_Postgres EventStore EventStoreProofs EventStoreMore Properties_Cancel Properties_EventStore Properties_CancelEs.
Open Scope string_scope.
Open Scope list_scope.
Open Scope N_scope.

(** ** The in-memory store *)

(** An OptimisticSave refused with UnexpectedSequenceNumber{x, n}, made again with n,
    succeeds; with any other number it is refused again and told n again. *)
Theorem C110_save_in_memory : forall c ops x s evs n, codec_ok c -> Forall (tame_call c) ops ->
  one_aggregate evs -> encodable c s evs ->
  let (m', answer) := mem_step c (mem_after c ops) (OpSave (Some x) s evs None) in
  answer = OutFailed (EUnexpectedSeq x n) ->
  (exists recs, snd (mem_step c m' (OpSave (Some n) s evs None)) = OutSaved (n + N.of_nat (length evs)) recs)
  /\ forall y, y <> n -> snd (mem_step c m' (OpSave (Some y) s evs None)) = OutFailed (EUnexpectedSeq y n).
Proof.
  intros c ops x s evs n Hc Ht Hone Henc. destruct (mem_step c (mem_after c ops) _) as [m' answer] eqn:E. intros ->.
  destruct (run_tame c Hc ops mem_init empty_log (R_init c) Ht) as (L & HR). fold (mem_after c ops) in HR.
  set (m := mem_after c ops) in *.
  destruct evs as [|e0 evs]; [cbn [mem_step] in E; try rewrite (R_locked _ _ _ HR) in E; cbn in E; discriminate|].
  assert (Hl : forall m, R c m L -> mem_step c m (OpSave (Some x) s (e0 :: evs) None) = mem_save c m (Some x) s (e0 :: evs) None)
    by (intros m0 H0; cbn [mem_step]; now rewrite (R_locked _ _ _ H0)).
  destruct (N.eq_dec x (stream_length s L)) as [->|Nx].
  { destruct (save_succeeds c m L (Some (stream_length s L)) s (e0 :: evs)) as (m1 & E1 & _); auto; [discriminate|]. congruence. }
  destruct (save_mismatch c m L s x e0 evs None HR eq_refl Nx) as (m1 & E1 & HR').
  rewrite (Hl _ HR), E1 in E. injection E as <- <-. split.
  - destruct (save_succeeds c m1 L (Some (stream_length s L)) s (e0 :: evs)) as (m2 & E2 & _); auto; [discriminate|].
    eexists. rewrite E2. reflexivity.
  - intros y Hy. destruct (save_mismatch c m1 L s y e0 evs None HR' eq_refl Hy) as (m2 & E2 & _).
    cbn [mem_step]. rewrite (R_locked _ _ _ HR'), E2. reflexivity.
Qed.
Print Assumptions C110_save_in_memory.

(** The same for OptimisticDeleteStream. *)
Theorem C110_delete_in_memory : forall c ops x s n, codec_ok c -> Forall (tame_call c) ops ->
  let (m', answer) := mem_step c (mem_after c ops) (OpDelete x s None) in
  answer = OutFailed (EUnexpectedSeq x n) -> snd (mem_step c m' (OpDelete n s None)) = OutDeleted.
Proof.
  intros c ops x s n Hc Ht. destruct (mem_step c (mem_after c ops) _) as [m' answer] eqn:E. intros ->.
  rewrite (C12_inmemory_rejected_delete_changes_nothing _ _ _ _ _ _ _ E) in *.
  destruct (run_tame c Hc ops mem_init empty_log (R_init c) Ht) as (L & HR). fold (mem_after c ops) in HR.
  set (m := mem_after c ops) in *.
  assert (En : n = stream_length s L /\ exists ids, m_streams m s = Some ids).
  { cbn [mem_step] in E. rewrite (R_locked _ _ _ HR) in E. unfold mem_delete in E. cbn [done_at] in E.
    destruct (m_streams m s) as [ids|]; [|discriminate]. rewrite (stream_number c m L) in E by auto.
    destruct (negb _); [injection E as <-; eauto|]. destruct (delete_loop m ids); discriminate. }
  destruct En as [-> (ids & Eids)].
  destruct (N.eq_dec (stream_length s L) 0) as [E0|N0].
  - pose proof (R_streams _ _ _ HR s) as Hs. unfold ids_of_stream in Hs. rewrite Eids in Hs.
    assert (ids = []) as ->.
    { unfold stream_length in E0. rewrite <- (map_length r_gsn), <- Hs in E0. destruct ids; [reflexivity|cbn in E0; lia]. }
    cbn [mem_step]. rewrite (R_locked _ _ _ HR). unfold mem_delete. cbn [done_at]. rewrite Eids, (stream_number c m L) by auto.
    rewrite N.eqb_refl. reflexivity.
  - unfold m. rewrite (C12_inmemory_delete_answer c ops (stream_length s L) s (stream_length s L) Hc Ht); auto.
    + now rewrite N.eqb_refl.
    + fold m. eapply save_total; eauto.
Qed.
Print Assumptions C110_delete_in_memory.

(** ** LevelDB *)
Theorem C110_save_leveldb_partial : forall c ops x s evs n, codec_ok c -> Forall clean_call ops ->
  no_refused_delete ops (ldb_outs c ops) ->
  clean_call (OpSave (Some x) s evs None) -> events_in ops + N.of_nat (length evs) < two64 ->
  one_aggregate evs -> encodable c s evs ->
  let (m', answer) := ldb_step c (ldb_after c ops) (OpSave (Some x) s evs None) in
  answer = OutFailed (EUnexpectedSeq x n) ->
  (exists recs, snd (ldb_step c m' (OpSave (Some n) s evs None)) = OutSaved (n + N.of_nat (length evs)) recs)
  /\ forall y, y <> n -> snd (ldb_step c m' (OpSave (Some y) s evs None)) = OutFailed (EUnexpectedSeq y n).
Proof.
  intros c ops x s evs n Hc Hcl Hr Hs Hsm Hone Henc. destruct (ldb_step c (ldb_after c ops) _) as [m' answer] eqn:E. intros ->.
  assert (Hne : evs <> []) by (intros ->; discriminate E).
  assert (K : forall y, clean_call (OpSave (Some y) s evs None)) by (intros y; exact Hs).
  destruct (C09_leveldb_compare_and_append c ops x s evs Hc Hcl Hr Hs Hsm Hne Hone Henc) as (k & Hk & A & B).
  destruct (N.eq_dec x k) as [->|Nx]; [destruct (A eq_refl) as (m1 & recs & E1 & _); congruence|].
  rewrite (B Nx) in E. injection E as <- <-. split.
  - destruct (C09_leveldb_compare_and_append c ops k s evs Hc Hcl Hr (K k) Hsm Hne Hone Henc) as (k' & Hk' & A' & _).
    assert (k' = k) as -> by congruence. destruct (A' eq_refl) as (m1 & recs & E1 & _). eexists. rewrite E1. reflexivity.
  - intros y Hy. destruct (C09_leveldb_compare_and_append c ops y s evs Hc Hcl Hr (K y) Hsm Hne Hone Henc) as (k' & Hk' & _ & B').
    assert (k' = k) as -> by congruence. now rewrite (B' Hy).
Qed.
Print Assumptions C110_save_leveldb_partial.

(** A delete made again is never answered, whatever its number. *)
Theorem C110_delete_leveldb_refuted : forall c ops x y s n, no_refused_delete ops (ldb_outs c ops) ->
  let (m', answer) := ldb_step c (ldb_after c ops) (OpDelete x s None) in
  answer = OutFailed (EUnexpectedSeq x n) -> snd (ldb_step c m' (OpDelete y s None)) = OutBlocked.
Proof.
  intros c ops x y s n Hr. destruct (ldb_step c (ldb_after c ops) _) as [m' answer] eqn:E. intros ->.
  pose proof (C18_every_refused_delete_wedges c ops x s None (EUnexpectedSeq x n) (OpDelete y s None) Hr) as H.
  rewrite E in H. apply H; [reflexivity|discriminate|reflexivity].
Qed.
Print Assumptions C110_delete_leveldb_refuted.

(** ** EventStoreDB *)

(** The events of a stream on the server. *)
Definition on_server (sn : string) (k : esconf) : N := N.of_nat (length (filter (fun e => String.eqb (en_stream e) sn) (x_log k))).

Lemma shown_is j prefix recdel k s l : shown_now j prefix recdel k s l -> l = read_stream j prefix (x_log k) (x_tomb k) s 0.
Proof.
  intros (k1 & R1 & H1). destruct (shown j prefix recdel k s) as (k2 & R2 & H2). rewrite R1 in R2. injection R2 as ->.
  rewrite H1 in H2. apply app_inv_head in H2. congruence.
Qed.
Lemma refused_same j prefix recdel k k' i gaps o p x n :
  nth_error (x_calls k) i = Some (mk_escall o p) -> xstep j prefix recdel k (XStep i gaps) = Some k' ->
  x_hist k' = x_hist k ++ [Ret i (OutFailed (EUnexpectedSeq x n))] -> x_log k' = x_log k /\ x_tomb k' = x_tomb k.
Proof.
  intros Hc Hs Hh.
  assert (Un : forall y, x_hist k ++ [Ret i y] = x_hist k ++ [Ret i (OutFailed (EUnexpectedSeq x n))] -> y = OutFailed (EUnexpectedSeq x n)).
  { intros y E. apply app_inv_head in E. now injection E. }
  assert (No : forall l : list act, x_hist k = x_hist k ++ l -> l = []).
  { intros l E. rewrite <- (app_nil_r (x_hist k)) in E at 1. apply app_inv_head in E. auto. }
  cbn [xstep] in Hs. rewrite Hc in Hs. cbn [es_op es_pc] in Hs. revert Hs.
  destruct p, o as [ex s evs cn|ex s cn|g|g ts|m s|s cn]; cbn [es_step]; try discriminate; try (intros [= <-]; split; reflexivity).
  - destruct evs as [|e evs]; intros [= <-]; [split; reflexivity|]. unfold after_check.
    destruct (match ex with Some _ => _ | None => _ end); [split; reflexivity|]. destruct (propose _ _ _ _ _); split; reflexivity.
  - destruct (done_at cn 0); [intros [= <-]; split; reflexivity|]. destruct (memb _ _); [intros [= <-]; split; reflexivity|].
    destruct (_ =? _); [destruct recdel|]; intros [= <-]; cbn in Hh; [apply No in Hh|apply Un in Hh|apply No in Hh]; discriminate.
  - destruct (done_at cn 1); [intros [= <-]; split; reflexivity|]. destruct (memb _ _); [intros [= <-]; split; reflexivity|].
    destruct (append_accepted _ _ _ _); intros [= <-]; [cbn in Hh; apply Un in Hh; discriminate|split; reflexivity].
  - destruct (seq_of 0 _); intros [= <-]; split; reflexivity.
Qed.
Lemma seq_of_map : forall rs r n, seq_of n (map RRec (rs ++ [r])) = inr (r_ssn r).
Proof. induction rs as [|a rs IH]; intros r n; cbn; [reflexivity|apply IH]. Qed.

(** A save or delete told a number other than 0, made again alone with that number,
    succeeds if the stream holds no further events that the store does not show. *)
Theorem C110_eventstore_partial : forall j prefix recdel k k' i gaps o p x n,
  nth_error (x_calls k) i = Some (mk_escall o p) -> xstep j prefix recdel k (XStep i gaps) = Some k' ->
  x_hist k' = x_hist k ++ [Ret i (OutFailed (EUnexpectedSeq x n))] -> n <> 0 ->
  let a := length (x_calls k') in
  match o with
  | OpSave _ s evs _ => sendable j evs -> evs <> [] -> on_server (server_name prefix s) k = n ->
      exists k2, xrun j prefix recdel k' [XInvoke (OpSave (Some n) s evs None); XStep a []; XStep a []] = Some k2
        /\ In (Ret a (OutSaved (n + N.of_nat (length evs)) [])) (x_hist k2)
  | OpDelete _ s _ => on_server (server_name prefix s) k = n ->
      exists k2, xrun j prefix recdel k' (XInvoke (OpDelete n s None) :: (if recdel then [XStep a []; XStep a []] else [XStep a []])) = Some k2
        /\ In (Ret a OutDeleted) (x_hist k2)
  | _ => False
  end.
Proof.
  intros j prefix recdel k k' i gaps o p x n Hc Hs Hh Hn a.
  destruct (C33_conflict_tells_the_last_number j prefix recdel k k' i gaps o p x n Hc Hs Hh (or_introl Hn)) as (s0 & rs & r & Eo & Sh & Er & _).
  apply shown_is in Sh. destruct (refused_same _ _ _ _ _ _ _ _ _ _ _ Hc Hs Hh) as [El Et].
  assert (Nt : memb (server_name prefix s0) (x_tomb k) = false).
  { unfold read_stream in Sh. destruct (memb _ _); [|reflexivity]. destruct rs as [|? [|? ?]]; discriminate. }
  assert (Nth : forall o', nth_error (x_calls k' ++ [mk_escall o' XNew]) a = Some (mk_escall o' XNew))
    by (intros o'; unfold a; rewrite nth_error_app2, Nat.sub_diag by auto; reflexivity).
  assert (Up : forall o' q q', nth_error (upd a (mk_escall o' q') (x_calls k' ++ [mk_escall o' q])) a = Some (mk_escall o' q')).
  { intros o' q q'. erewrite nth_upd by (unfold a; rewrite nth_error_app2, Nat.sub_diag by auto; reflexivity). now rewrite Nat.eqb_refl. }
  destruct o as [ex s evs cn|ex s cn| | | | ]; try contradiction; subst s0.
  - intros (t & ag & Hse) Hne Hos. destruct evs as [|e evs]; [congruence|].
    assert (Ea : ev_atype e = t /\ ev_aid e = ag) by (inversion Hse; tauto). destruct Ea as [<- <-].
    destruct (propose_sendable j s _ _ _ Hse) as (ps & Ep).
    cbn [xrun xstep x_calls]. rewrite Nth. cbn [es_op es_pc es_step done_at x_log x_tomb]. rewrite El, Et, <- Sh, seq_of_map, Er.
    unfold after_check. rewrite N.eqb_refl, Ep. cbn [set_xcall x_calls]. rewrite Up.
    cbn [es_op es_pc es_step done_at set_xcall x_log x_tomb]. rewrite ?Et, Nt.
    assert (Acc : forall kk, x_log kk = x_log k -> append_accepted prefix kk (Some n) s = true).
    { intros kk Ek. unfold append_accepted. destruct (N.ltb_spec 0 n); [|reflexivity]. rewrite Ek. apply N.eqb_eq.
      unfold revisions, events_of. unfold on_server in Hos. rewrite Hos. unfold zero_based. destruct (N.ltb_spec n 1); lia. }
    rewrite Acc by (cbn; first [reflexivity|exact El]). eexists. split; [reflexivity|]. cbn [xreply x_hist]. apply in_or_app. right. left. f_equal. f_equal.
    unfold one_based. assert (Lp : length ps = length (e :: evs)).
    { pose proof (propose_rows _ _ _ _ _ _ Ep) as F. clear - F. induction F; cbn; auto. }
    rewrite ?El. unfold revisions, events_of. unfold on_server in Hos. rewrite Hos, Lp. cbn [length]. lia.
  - intros Hos. assert (Ez : (revisions (server_name prefix s) (x_log k) =? zero_based n + 1) = true).
    { apply N.eqb_eq. unfold revisions, events_of. unfold on_server in Hos. rewrite Hos. unfold zero_based. destruct (N.ltb_spec n 1); lia. }
    destruct recdel; cbn [xrun xstep x_calls]; rewrite Nth; cbn [es_op es_pc es_step done_at x_log x_tomb]; rewrite Et, Nt, El, Ez.
    + cbn [set_xcall add_tomb x_calls]. rewrite Up. cbn [es_op es_pc es_step]. eexists. split; [reflexivity|].
      cbn [xreply add_del x_hist]. apply in_or_app. right. left. reflexivity.
    + eexists. split; [reflexivity|]. cbn [xreply add_tomb x_hist]. apply in_or_app. right. left. reflexivity.
Qed.
Print Assumptions C110_eventstore_partial.

(** The full claim is false. A save that lost the race at the server is told 0, and made
    again with 0 it is refused; and a stream whose last event is not shown (its type begins
    with a dollar sign) names a number with which every save and delete is refused. *)
Theorem C110_eventstore_zero_refuted : exists ls k,
  xrun es_json (Some "v1-") false es_start ls = Some k
  /\ In (Inv 1 (esave (Some 1) "s" ["b"; "c"])) (x_hist k) /\ In (Ret 1 (OutFailed (EUnexpectedSeq 1 0))) (x_hist k)
  /\ In (Inv 3 (esave (Some 0) "s" ["b"; "c"])) (x_hist k) /\ In (Ret 3 (OutFailed (EUnexpectedSeq 0 2))) (x_hist k).
Proof.
  exists (contest ++ [XInvoke (esave (Some 0) "s" ["b"; "c"])] ++ do 3 1). eexists. split; [vm_compute; reflexivity|].
  cbn. tauto.
Qed.
Print Assumptions C110_eventstore_zero_refuted.

Theorem C110_eventstore_hidden_refuted : exists ls k,
  xrun es_json (Some "v1-") false es_start ls = Some k
  /\ x_hist k = [Inv 0 (esave None "s" ["a"]); Ret 0 (OutSaved 1 []);
                 Inv 1 (esave (Some 7) "s" ["b"]); Ret 1 (OutFailed (EUnexpectedSeq 7 1));
                 Inv 2 (esave (Some 1) "s" ["b"]); Ret 2 (OutFailed (EUnexpectedSeq 1 0));
                 Inv 3 (OpDelete 1 "s" None); Ret 3 (OutFailed (EUnexpectedSeq 1 1))].
Proof.
  exists ([XInvoke (esave None "s" ["a"])] ++ do 0 2 ++ [XForeign "v1-s" "$x" None 0; XInvoke (esave (Some 7) "s" ["b"])] ++ do 1 1
    ++ [XInvoke (esave (Some 1) "s" ["b"])] ++ do 2 2 ++ [XInvoke (OpDelete 1 "s" None)] ++ do 3 2).
  eexists. split; [vm_compute; reflexivity|]. reflexivity.
Qed.
Print Assumptions C110_eventstore_hidden_refuted.

(** ** PostgreSQL *)

(** The call [o] expecting [x], and the same call expecting [n]. *)
Inductive again (j : jlib) (x n : N) : op -> op -> Prop :=
| again_save s evs : one_aggregate evs -> (forall e, In e evs -> j_data j e <> None) ->
    again j x n (OpSave (Some x) s evs None) (OpSave (Some n) s evs None)
| again_delete s : again j x n (OpDelete x s None) (OpDelete n s None).

Lemma agree_app : forall ops specs xs o o' y y', length specs = length ops ->
  all_pg_agree (ops ++ [o; o']) (specs ++ [y; y']) xs ->
  exists zs z z', xs = zs ++ [z; z'] /\ pg_agrees o y z /\ pg_agrees o' y' z'.
Proof.
  induction ops as [|a ops IH]; intros [|b specs] xs o o' y y' E H; try discriminate.
  - destruct xs as [|z [|z' [|? ?]]]; cbn in H; try tauto. exists [], z, z'. tauto.
  - destruct xs as [|z xs]; cbn in H; [tauto|]. destruct H as [_ H]. destruct (IH specs xs o o' y y') as (zs & w & w' & -> & A); [auto|exact H|].
    exists (z :: zs), w, w'. auto.
Qed.
Lemma run_len {S} (step : S -> op -> S * out) : forall ops s, length (snd (run step s ops)) = length ops.
Proof.
  induction ops as [|o ops IH]; intros s; cbn; [reflexivity|]. destruct (step s o) as [s1 x]. specialize (IH s1).
  destruct (run step s1 ops). cbn in *. auto.
Qed.

(** Calls one after the other, without metadata, and not more of them than connections: a
    call refused with UnexpectedSequenceNumber{x, n}, made again with n, succeeds. *)
Theorem C110_postgres_partial : forall j key limit ops x n o o', json_ok j -> again j x n o o' ->
  Forall (without_metadata j) (ops ++ [o; o']) -> (length ops + 2 <= limit)%nat ->
  exists xs y y' k, one_by_one j key limit pg_start (ops ++ [o; o']) (xs ++ [y; y']) k
    /\ (y = OutFailed (EUnexpectedSeq x n) ->
        match o with
        | OpSave _ _ evs _ => exists recs, y' = OutSaved (n + N.of_nat (length evs)) recs
        | _ => y' = OutDeleted
        end).
Proof.
  intros j key limit ops x n o o' Hj Ha HF Hl.
  destruct (C60_sequential_use_is_the_log_partial j key limit (ops ++ [o; o']) Hj HF) as (xs & k & H1 & H2); [rewrite app_length; cbn; lia|].
  rewrite run_app in H2. pose proof (run_len (log_exec (json_codec j)) ops empty_log) as Hlen.
  destruct (run (log_exec (json_codec j)) empty_log ops) as [L specs]. cbn [fst snd run] in *.
  assert (W : Forall (without_metadata j) [o; o']) by (apply Forall_app in HF; tauto).
  destruct (log_exec (json_codec j) L o) as [L1 y] eqn:E1. destruct (log_exec (json_codec j) L1 o') as [L2 y'] eqn:E2. cbn [fst snd] in *.
  destruct (agree_app _ _ _ _ _ _ _ Hlen H2) as (zs & z & z' & -> & A1 & A2).
  exists zs, z, z', k. split; [exact H1|]. intros ->.
  destruct A1 as [->|((? & ? & ->) & _)]; [|inversion Ha].
  destruct Ha as [s evs Hone Henc|s].
  - assert (Hen : encodable (json_codec j) s evs).
    { intros e g q He. cbn [ser json_codec]. assert (Ee : event_of (record_at s g q e) = e) by (destruct e; reflexivity). rewrite Ee.
      pose proof (Henc e He). pose proof (Forall_inv W) as [_ Wm]. destruct (Wm e He) as [_ ->]. destruct (j_data j e); congruence. }
    destruct evs as [|e0 evs]; [cbn in E1; discriminate|].
    assert (Acc : refusal (json_codec j) None s (ev_atype e0) (ev_aid e0) (l_last L) (stream_length s L) 0 (e0 :: evs) = None)
      by (apply encodable_accepted; [exact Hen|now apply one_aggregate_forall]).
    unfold log_exec, save_refused in E1. cbn [done_at] in E1. rewrite Acc in E1. destruct (N.eqb_spec x (stream_length s L)); [discriminate|].
    injection E1 as <- <-. unfold log_exec, save_refused in E2. cbn [done_at] in E2. rewrite N.eqb_refl, Acc in E2. injection E2 as _ <-.
    destruct A2 as [<-|((? & ? & [=]) & _)]. eauto.
  - unfold log_exec, delete_refused in E1. cbn [done_at] in E1. destruct (N.eqb_spec (stream_length s L) 0) as [|N0]; [discriminate|].
    destruct (x =? stream_length s L); [discriminate|]. injection E1 as <- <-.
    unfold log_exec, delete_refused in E2. cbn [done_at] in E2. destruct (N.eqb_spec (stream_length s L) 0) as [|_]; [contradiction|].
    rewrite N.eqb_refl in E2. injection E2 as _ <-. destruct A2 as [<-|((? & ? & [=]) & _)]. reflexivity.
Qed.
Print Assumptions C110_postgres_partial.

(** Non-vacuity: conflicts on all stores. *)
Example C110_inhabited :
  snd (mem_step toy (mem_after toy demo) (OpSave (Some 5) "other!y" [other "a"; other "b"] None)) = OutFailed (EUnexpectedSeq 5 1)
  /\ snd (mem_step toy (mem_after toy demo) (OpDelete 5 "other!y" None)) = OutFailed (EUnexpectedSeq 5 1)
  /\ snd (ldb_step toy (ldb_after toy ldb_demo) (OpSave (Some 2) "other!y" [other "a"; other "b"] None)) = OutFailed (EUnexpectedSeq 2 1)
  /\ (exists recs, snd (mem_step toy (fst (mem_step toy (mem_after toy demo) (OpSave (Some 5) "other!y" [other "a"] None)))
                          (OpSave (Some 1) "other!y" [other "a"] None)) = OutSaved 2 recs)
  /\ (let k := erun false ([XInvoke (esave None "s" ["a"])] ++ do 0 2 ++ [XInvoke (esave (Some 7) "s" ["b"])]) in
      exists k', xstep es_json (Some "v1-") false k (XStep 1 []) = Some k'
        /\ x_hist k' = x_hist k ++ [Ret 1 (OutFailed (EUnexpectedSeq 7 1))] /\ on_server "v1-s" k = 1)
  /\ again toy_json 7 1 (OpDelete 7 "s" None) (OpDelete 1 "s" None)
  /\ Forall (without_metadata toy_json) ([save None "s" ["a"]] ++ [OpDelete 7 "s" None; OpDelete 1 "s" None]).
Proof.
  split; [vm_compute; reflexivity|]. split; [vm_compute; reflexivity|]. split; [vm_compute; reflexivity|].
  split; [eexists; vm_compute; reflexivity|]. split; [eexists; split; [vm_compute; reflexivity|split; reflexivity]|].
  split; [constructor|]. apply Forall_forall. cbn. intros o H. repeat destruct H as [<-|H]; cbn; auto; try contradiction.
  split; auto; intros e H; repeat destruct H as [<-|H]; auto; contradiction.
Qed.
