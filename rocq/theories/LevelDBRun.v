(** Whole histories of the LevelDB store: blocked calls, crashes. *)
From Verif Require Import Base Core CoreSpec CoreProofs LogSpec LogProofs StoreSpec LevelDB LevelDBSpec LevelDBBytes LevelDBProofs.
From Coq Require Import Arith.

(** * Shape of the database operations of a call: only the last one can be Commit. *)

Definition only_last_commits (ms : list micro) : Prop := ~ In MCommit (removelast ms).

Section WithCodec.
Variable c : codec.

Lemma loop_shape s evs : forall d at_ ai ex cn n p l ms x,
  ldb_save_loop c d s at_ ai ex cn n p l evs = (ms, x) ->
  exists ws, Forall (fun m => exists bs, m = MWrite bs) ws /\
    ((exists e, x = inl e /\ ms = ws ++ [MDiscard]) \/ (exists y, x = inr y /\ ms = ws ++ [MCommit])).
Proof.
  induction evs as [|e evs IH]; intros d at_ ai ex cn n p l ms x; cbn [ldb_save_loop].
  - intros E. injection E as <- <-. exists []. split; auto. right. eauto.
  - assert (Stop : forall er, ([MDiscard], @inl err (N * list string) er) = (ms, x) ->
      exists ws, Forall (fun m => exists bs, m = MWrite bs) ws /\
      ((exists e, x = inl e /\ ms = ws ++ [MDiscard]) \/ (exists y, x = inr y /\ ms = ws ++ [MCommit]))).
    { intros er E. injection E as <- <-. exists []. split; auto. left. eauto. }
    destruct (_ && _); [apply Stop|]. destruct (_ && _); [apply Stop|]. destruct (done_at cn n); [apply Stop|].
    destruct (ldb_save_event c d s ex e) as [er|[[bs data] ssn]]; [apply Stop|].
    destruct (ldb_save_loop c _ s _ _ _ cn (S n) _ ssn evs) as [ms' x'] eqn:E. intros E'. injection E' as <- <-.
    destruct (IH _ _ _ _ _ _ _ _ _ _ E) as (ws & Hw & H). exists (MWrite bs :: ws). split; [constructor; eauto|].
    destruct H as [(e' & -> & ->)|(y & -> & ->)]; [left|right]; eauto.
Qed.

Lemma exec_app h a b : exec_micros h (a ++ b) = exec_micros (exec_micros h a) b.
Proof. unfold exec_micros. apply fold_left_app. Qed.

Lemma exec_writes ws : Forall (fun m => exists bs, m = MWrite bs) ws ->
  forall d t, exists t', exec_micros (mk_dbh d (Some t)) ws = mk_dbh d (Some t').
Proof.
  induction 1 as [|m ws [bs ->] _ IH]; intros d t; [exists t; reflexivity|].
  unfold exec_micros in *. cbn [fold_left exec_micro h_tx h_db]. apply IH.
Qed.

(** A save either fails and changes nothing, or commits once at the end. *)
Lemma save_shape d ex s evs cn ms x : ldb_save c d ex s evs cn = (ms, x) ->
  exists ws, Forall (fun m => exists bs, m = MWrite bs) ws /\
  ((exists e, x = OutFailed e /\ ms = MOpen :: ws ++ [MDiscard] /\ exec_micros (quiet d) ms = quiet d) \/
   (exists n bc d', x = OutSaved n bc /\ ms = MOpen :: ws ++ [MCommit] /\ exec_micros (quiet d) ms = quiet d')).
Proof.
  unfold ldb_save. destruct (ldb_save_loop c d s "" "" ex cn 0 [] 0 evs) as [ms0 x0] eqn:E.
  intros E'. injection E' as <- <-. destruct (loop_shape _ _ _ _ _ _ _ _ _ _ _ _ E) as (ws & Hw & H).
  exists ws. split; auto.
  destruct (exec_writes ws Hw d d) as (t' & Et).
  assert (Eop : forall m, exec_micros (quiet d) (MOpen :: ws ++ [m]) = exec_micro (mk_dbh d (Some t')) m).
  { intros m. change (MOpen :: ws ++ [m]) with ([MOpen] ++ ws ++ [m]). rewrite !exec_app.
    change (exec_micros (quiet d) [MOpen]) with (mk_dbh d (Some d)). rewrite Et. reflexivity. }
  destruct H as [(e & -> & ->)|([n p] & -> & ->)]; [left|right].
  - exists e. split; auto. split; auto. rewrite Eop. reflexivity.
  - exists n, (ldb_decoded c p), t'. split; auto. split; auto. rewrite Eop. reflexivity.
Qed.

Lemma delete_shape d ex s ms x : ldb_delete c d ex s = (ms, x) ->
  (exists e, x = OutFailed e /\ e <> ECanceled /\ ms = [MOpen]) \/
  (exists bs d', x = OutDeleted /\ ms = [MOpen; MWrite bs; MCommit] /\ exec_micros (quiet d) ms = quiet d').
Proof.
  unfold ldb_delete. destruct (delete_batch c (scan (stream_prefix s) d)) as [e|bs] eqn:Eb.
  - intros E. injection E as <- <-. left. exists e. split; auto. split; auto.
    clear - Eb. revert e Eb. generalize (scan (stream_prefix s) d). induction d0 as [|[k v] kvs IH]; cbn; [discriminate|].
    intros e. destruct (deser c v); [|intros E; injection E as <-; discriminate].
    destruct (delete_batch c kvs); [|discriminate]. intros E; injection E as <-. eauto.
  - destruct (_ =? 0); [|destruct (negb _)]; intros E; injection E as <- <-.
    + left. eexists. repeat split; discriminate.
    + left. eexists. repeat split; discriminate.
    + right. exists bs, (apply_batch d bs). auto.
Qed.

(** * No blocking without a refused delete, whatever the names and encodings *)

Definition is_quiet (st : ldb) : Prop := h_tx (s_h st) = None /\ s_stuck st = false.

Lemma quiet_eq st : is_quiet st -> st = mk_ldb (quiet (h_db (s_h st))) false.
Proof. destruct st as [[d t] b]. unfold is_quiet. cbn. intros [-> ->]. reflexivity. Qed.

Lemma step_quiet st o : is_quiet st ->
  snd (ldb_step c st o) <> OutBlocked /\
  (refused_delete o (snd (ldb_step c st o)) \/ is_quiet (fst (ldb_step c st o))).
Proof.
  intros Hq. rewrite (quiet_eq st Hq). generalize (h_db (s_h st)). clear st Hq. intros d.
  unfold ldb_step. destruct (early o) as [x|] eqn:Ee.
  { split; [|right; split; reflexivity]. cbn. destruct o; cbn in Ee; try discriminate.
    - destruct evs; [|discriminate]. congruence.
    - destruct (done_at cn 0); [|discriminate]. congruence.
    - destruct (done_at cn 0); [|discriminate]. congruence. }
  cbn [s_stuck s_h h_tx quiet andb]. rewrite andb_false_r. change (h_db (quiet d)) with d.
  destruct o as [ex s evs cn|ex s cn|g|g ts|k s|s cn]; cbn [ldb_call].
  - destruct (ldb_save c d ex s evs cn) as [ms x] eqn:E. destruct (save_shape _ _ _ _ _ _ _ E) as (ws & _ & H).
    cbn [fst snd]. destruct H as [(e & -> & _ & E2)|(n & bc & d' & -> & _ & E2)]; rewrite E2;
      (split; [discriminate|right; split; reflexivity]).
  - destruct (ldb_delete c d ex s) as [ms x] eqn:E.
    cbn [fst snd]. destruct (delete_shape _ _ _ _ _ E) as [(e & -> & He & ->)|(bs & d' & -> & _ & E2)].
    + split; [discriminate|]. left. exact He.
    + rewrite E2. split; [discriminate|right; split; reflexivity].
  - split; [discriminate|right; split; reflexivity].
  - destruct (ldb_by_types c d g ts); (split; [discriminate|right; split; reflexivity]).
  - split; [discriminate|right; split; reflexivity].
  - split; [discriminate|right; split; reflexivity].
Qed.

(** * Crashes *)

Lemma firstn_writes ws k : Forall (fun m : micro => exists bs, m = MWrite bs) ws ->
  Forall (fun m => exists bs, m = MWrite bs) (firstn k ws).
Proof. intros H. revert k. induction H; intros [|k]; cbn; constructor; auto. Qed.

(** Running part of Open, writes, end leaves the durable content alone unless all of
    it ran. *)
Lemma partial_exec d ws m k : Forall (fun m => exists bs, m = MWrite bs) ws ->
  h_db (exec_micros (quiet d) (firstn k (MOpen :: ws ++ [m]))) = d \/
  firstn k (MOpen :: ws ++ [m]) = MOpen :: ws ++ [m].
Proof.
  intros Hw. destruct k as [|k]; [left; reflexivity|]. cbn [firstn].
  destruct (Nat.le_gt_cases k (length ws)) as [Hle|Hgt].
  - left. rewrite firstn_app. replace (k - length ws)%nat with 0%nat by lia. cbn [firstn]. rewrite app_nil_r.
    change (MOpen :: firstn k ws) with ([MOpen] ++ firstn k ws). rewrite exec_app.
    change (exec_micros (quiet d) [MOpen]) with (mk_dbh d (Some d)).
    destruct (exec_writes _ (firstn_writes ws k Hw) d d) as (t' & ->). reflexivity.
  - right. f_equal. apply firstn_all2. rewrite app_length. cbn. lia.
Qed.

Lemma read_micros d o : opens_transaction o = false -> fst (ldb_call c d o) = [].
Proof. destruct o; cbn; try discriminate; reflexivity. Qed.
Lemma opens_takes o : opens_transaction o = true -> takes_mux o = true.
Proof. destruct o; cbn; try discriminate; reflexivity. Qed.

Lemma crash_atomic st o k :
  h_db (s_h (ldb_crash c st o k)) = h_db (s_h st) \/
  h_db (s_h (ldb_crash c st o k)) = h_db (s_h (fst (ldb_step c st o))).
Proof.
  unfold ldb_crash, ldb_step. destruct (early o) as [x|] eqn:Ee.
  { cbn [fst]. left. rewrite firstn_nil. cbn. destruct (_ || _); reflexivity. }
  destruct (s_stuck st && takes_mux o) eqn:E1; [left; reflexivity|]. cbn [orb].
  destruct (opens_transaction o && _) eqn:E2; [left; reflexivity|].
  destruct (ldb_call c (h_db (s_h st)) o) as [ms x] eqn:Ec. cbn [fst s_h h_db].
  destruct (opens_transaction o) eqn:Eo.
  - assert (Hq : s_h st = quiet (h_db (s_h st))).
    { cbn [andb] in E2. destruct (s_h st) as [d [t|]]; [discriminate|reflexivity]. }
    rewrite Hq. set (d := h_db (s_h st)) in *. change (h_db (quiet d)) with d in *.
    destruct o as [ex s evs cn|ex s cn| | | | ]; try discriminate Eo; cbn [ldb_call] in Ec.
    + destruct (save_shape _ _ _ _ _ _ _ Ec) as (ws & Hw & H).
      assert (exists m, ms = MOpen :: ws ++ [m]) as (m & ->).
      { destruct H as [(e & _ & -> & _)|(n & bc & d' & _ & -> & _)]; eauto. }
      destruct (partial_exec d ws m k Hw) as [H1|H1]; [left; exact H1|right; now rewrite H1].
    + destruct (delete_shape _ _ _ _ _ Ec) as [(e & _ & _ & ->)|(bs & d' & _ & -> & _)].
      * left. destruct k as [|[|k]]; reflexivity.
      * destruct (partial_exec d [MWrite bs] MCommit k) as [H1|H1]; [eauto|left; exact H1|right].
        cbn [app] in H1. now rewrite H1.
  - pose proof (read_micros (h_db (s_h st)) o Eo) as Hm. rewrite Ec in Hm. cbn in Hm. subst ms.
    left. now rewrite firstn_nil.
Qed.

(** A failed or blocked call changes nothing durable. *)
Lemma failed_same st o : (match snd (ldb_step c st o) with OutSaved _ _ | OutDeleted => False | _ => True end) ->
  h_db (s_h (fst (ldb_step c st o))) = h_db (s_h st).
Proof.
  unfold ldb_step. destruct (early o) as [x|] eqn:Ee; [reflexivity|].
  destruct (s_stuck st && takes_mux o) eqn:E1; [reflexivity|].
  destruct (opens_transaction o && _) eqn:E2; [reflexivity|].
  destruct (ldb_call c (h_db (s_h st)) o) as [ms x] eqn:Ec. cbn [fst snd s_h].
  destruct (opens_transaction o) eqn:Eo.
  - assert (Hq : s_h st = quiet (h_db (s_h st))).
    { cbn [andb] in E2. destruct (s_h st) as [d [t|]]; [discriminate|reflexivity]. }
    rewrite Hq at 1. set (d := h_db (s_h st)) in *.
    destruct o as [ex s evs cn|ex s cn| | | | ]; try discriminate Eo; cbn [ldb_call] in Ec.
    + destruct (save_shape _ _ _ _ _ _ _ Ec) as (ws & Hw & [(e & -> & _ & E3)|(n & bc & d' & -> & _)]); [|tauto].
      intros _. now rewrite E3.
    + destruct (delete_shape _ _ _ _ _ Ec) as [(e & -> & _ & ->)|(bs & d' & -> & _)]; [|tauto]. reflexivity.
  - pose proof (read_micros (h_db (s_h st)) o Eo) as Hm. rewrite Ec in Hm. cbn in Hm. subst ms. reflexivity.
Qed.

(** * Refinement of any history *)

Hypothesis Hc : codec_ok c.

Lemma step_any st L o : D c (h_db (s_h st)) L -> clean_call o -> l_last L + added o < two64 ->
  (snd (ldb_step c st o) = OutBlocked /\ h_db (s_h (fst (ldb_step c st o))) = h_db (s_h st)) \/
  (snd (ldb_step c st o) = snd (log_exec c L o) /\ D c (h_db (s_h (fst (ldb_step c st o)))) (fst (log_exec c L o))).
Proof.
  intros HD Hcl Hsm. destruct (s_stuck st && takes_mux o) eqn:E1.
  { unfold ldb_step. destruct (early o) as [x|] eqn:Ee.
    - right. rewrite (early_ok c L o x Ee). auto.
    - rewrite E1. left. auto. }
  destruct (opens_transaction o && (match h_tx (s_h st) with Some _ => true | None => false end)) eqn:E2.
  { unfold ldb_step. destruct (early o) as [x|] eqn:Ee.
    - right. rewrite (early_ok c L o x Ee). auto.
    - rewrite E1, E2. left. auto. }
  right. destruct (opens_transaction o) eqn:Eo.
  - assert (Hq : is_quiet st).
    { rewrite (opens_takes o Eo), andb_true_r in E1. cbn [andb] in E2. split; auto. destruct (h_tx (s_h st)); auto; discriminate. }
    rewrite (quiet_eq st Hq) in *. cbn [s_h quiet h_db] in HD.
    destruct (step_ok c Hc (h_db (s_h st)) L o HD Hcl Hsm) as [(d' & -> & HD')|(_ & E & ->)]; cbn [fst snd s_h quiet h_db]; auto.
    rewrite E. auto.
  - unfold ldb_step. destruct (early o) as [x|] eqn:Ee; [rewrite (early_ok c L o x Ee); auto|].
    rewrite E1. rewrite Eo. cbn [andb].
    assert (exists x, read_result L o = Some x) as (x & Ex) by (destruct o; cbn in Eo |- *; try discriminate; eauto).
    rewrite (call_read c Hc (h_db (s_h st)) L o x HD Hcl Ex Ee).
    assert (log_exec c L o = (L, x)) as ->.
    { destruct o; cbn in Eo; try discriminate; unfold log_exec; rewrite Ex; reflexivity. }
    auto.
Qed.

Lemma log_exec_last L o : l_last (fst (log_exec c L o)) <= l_last L + added o.
Proof.
  destruct o; unfold log_exec; cbn [added].
  - destruct (save_refused c L expected stream evs cn); cbn; lia.
  - destruct (delete_refused L expected stream cn); cbn; lia.
  - cbn. lia. - cbn. lia. - cbn. lia. - cbn. lia.
Qed.

Lemma log_exec_not_blocked L o : snd (log_exec c L o) <> OutBlocked.
Proof.
  destruct o; unfold log_exec; cbn.
  - destruct (save_refused c L expected stream evs cn); discriminate.
  - destruct (delete_refused L expected stream cn); discriminate.
  - discriminate. - discriminate. - destruct (_ =? 0); discriminate. - destruct (done_at cn 0); discriminate.
Qed.

Lemma run_any ops : forall st L, D c (h_db (s_h st)) L -> Forall clean_call ops -> l_last L + events_in ops < two64 ->
  let r := returned ops (snd (run (ldb_step c) st ops)) in
  map snd r = snd (run (log_exec c) L (map fst r))
  /\ D c (h_db (s_h (fst (run (ldb_step c) st ops)))) (fst (run (log_exec c) L (map fst r))).
Proof.
  induction ops as [|o ops IH]; intros st L HD Hcl Hsm; cbn [run]; [cbn; auto|].
  inversion Hcl; subst. cbn [events_in fold_right] in Hsm. fold (events_in ops) in Hsm.
  pose proof (step_any st L o HD H1 ltac:(lia)) as Hst.
  destruct (ldb_step c st o) as [st1 x] eqn:Es. cbn [fst snd] in Hst.
  destruct Hst as [[-> E]|[-> HD1]].
  - specialize (IH st1 L). rewrite E in IH. specialize (IH HD H2 ltac:(lia)).
    destruct (run (ldb_step c) st1 ops) as [st2 xs]. cbn [fst snd returned] in *. exact IH.
  - pose proof (log_exec_last L o). specialize (IH st1 (fst (log_exec c L o)) HD1 H2 ltac:(lia)).
    destruct (run (ldb_step c) st1 ops) as [st2 xs]. cbn [fst snd] in *.
    assert (Er : returned (o :: ops) (snd (log_exec c L o) :: xs) = (o, snd (log_exec c L o)) :: returned ops xs).
    { cbn [returned]. pose proof (log_exec_not_blocked L o). destruct (snd (log_exec c L o)); congruence. }
    cbv zeta in *. rewrite Er. cbn [map fst snd run].
    destruct (log_exec c L o) as [L1 y]. cbn [fst snd] in *.
    destruct (run (log_exec c) L1 (map fst (returned ops xs))) as [L2 ys]. cbn [fst snd] in *.
    destruct IH as [-> IH]. auto.
Qed.

(** * Histories with crashes *)

Lemma log_exec_keeps L o : (match snd (log_exec c L o) with OutSaved _ _ | OutDeleted => False | _ => True end) ->
  fst (log_exec c L o) = L.
Proof.
  destruct o; unfold log_exec; cbn; auto.
  - destruct (save_refused c L expected stream evs cn); cbn; tauto.
  - destruct (delete_refused L expected stream cn); cbn; tauto.
Qed.

Lemma lives_ok h : forall st L, D c (h_db (s_h st)) L -> Forall clean_call (map fst h) ->
  l_last L + events_in (map fst h) < two64 ->
  exists kept, survives h (snd (lives c st h)) kept /\
    D c (h_db (s_h (fst (lives c st h)))) (fst (run (log_exec c) L kept)).
Proof.
  induction h as [|[o [k|]] h IH]; intros st L HD Hcl Hsm; cbn [lives].
  - exists []. split; [constructor|exact HD].
  - cbn [map fst] in *. inversion Hcl; subst. cbn [events_in fold_right] in Hsm. fold (events_in (map fst h)) in Hsm.
    pose proof (step_any st L o HD H1 ltac:(lia)) as Hst.
    assert (HC : D c (h_db (s_h (ldb_crash c st o k))) L \/ D c (h_db (s_h (ldb_crash c st o k))) (fst (log_exec c L o))).
    { destruct (crash_atomic st o k) as [->| ->]; auto. destruct Hst as [[_ ->]|[_ H]]; auto. }
    pose proof (log_exec_last L o). destruct HC as [HC|HC].
    + destruct (IH _ L HC H2 ltac:(lia)) as (kept & S1 & S2). destruct (lives c (ldb_crash c st o k) h) as [st2 xs].
      exists kept. split; [now constructor|exact S2].
    + destruct (IH _ _ HC H2 ltac:(lia)) as (kept & S1 & S2). destruct (lives c (ldb_crash c st o k) h) as [st2 xs].
      exists (o :: kept). split; [now constructor|]. cbn [run]. destruct (log_exec c L o) as [L1 y]. cbn [fst] in *.
      destruct (run (log_exec c) L1 kept). exact S2.
  - cbn [map fst] in *. inversion Hcl; subst. cbn [events_in fold_right] in Hsm. fold (events_in (map fst h)) in Hsm.
    pose proof (step_any st L o HD H1 ltac:(lia)) as Hst. pose proof (log_exec_last L o).
    destruct (ldb_step c st o) as [st1 x] eqn:Es. cbn [fst snd] in Hst.
    destruct Hst as [[-> E]|[-> HD1]].
    + rewrite <- E in HD. destruct (IH _ L HD H2 ltac:(lia)) as (kept & S1 & S2). destruct (lives c st1 h) as [st2 xs].
      exists kept. split; [now apply Sother|exact S2].
    + destruct (IH _ _ HD1 H2 ltac:(lia)) as (kept & S1 & S2). destruct (lives c st1 h) as [st2 xs].
      destruct (match snd (log_exec c L o) with OutSaved _ _ | OutDeleted => true | _ => false end) eqn:Ek.
      * exists (o :: kept). split; [apply Ssuccess; auto; now destruct (snd (log_exec c L o))|].
        cbn [run]. destruct (log_exec c L o) as [L1 y]. cbn [fst] in *. destruct (run (log_exec c) L1 kept). exact S2.
      * exists kept. rewrite log_exec_keeps in S2 by now destruct (snd (log_exec c L o)).
        split; [|exact S2]. apply Sother; auto. now destruct (snd (log_exec c L o)).
Qed.

End WithCodec.
