(** The two stores obey the laws of [LocksProofs.lawful]. *)
From Coq Require Import PeanoNat.
From Verif Require Import Base Core CoreProofs InMemory LevelDB LevelDBRun Locks LocksSpec LocksProofs LocksStores.

Section Mem.
Variable c : codec.

Lemma mem_wruns_save : forall evs m s at_ ai ex cn n cr p l m' x b,
  wruns (mem_obj c) (MLSave s at_ ai ex cn n cr p l evs) m m' x b ->
  m_locked m = false ->
  (match mem_save_loop c m s at_ ai ex cn n cr p l evs with
   | (m1, SaveOk last pending) => m' = m1 /\ x = OutSaved last (decoded c pending) /\ b = true
   | (m1, SaveErr e) => m' = m1 /\ x = OutFailed e /\ b = true
   | (m1, SavePanic) => m' = lock_forever m1 /\ x = OutPanic /\ b = false
   end) /\ (b = true -> m_locked m' = false).
Proof.
  induction evs as [|e evs IH]; intros m s at_ ai ex cn n cr p l m' x b Hw Hm.
  - inversion Hw as [? ? ? ? ? E|? ? ? ? ? ? ? E]; subst; cbn in E; try discriminate.
    injection E as <- <- <-. cbn. auto.
  - cbn [mem_save_loop].
    inversion Hw as [? ? ? ? ? E|? ? s1 l1 ? ? ? E Hw1]; subst; cbn [o_wstep mem_obj mem_wstep] in E.
    + destruct (_ && _); [injection E as <- <- <-; auto|].
      destruct (_ && _); [injection E as <- <- <-; auto|].
      destruct (done_at cn n); [injection E as <- <- <-; auto|].
      destruct (mem_save_event c m s ex e) as [m1 [er|[d r]]] eqn:Es; [|discriminate].
      assert (Hm1 : m_locked m1 = false).
      { unfold mem_save_event in Es.
        destruct (match ex with Some _ => _ | None => _ end); [injection Es as <- _; auto|].
        destruct (ser c _); [discriminate|]. injection Es as <- _. auto. }
      destruct (remove_recent m1 cr (ev_atype e) (ev_aid e)) as [m2|] eqn:Er; injection E as <- <- <-.
      * repeat split; auto. intros _. unfold remove_recent in Er.
        repeat match type of Er with context [match ?y with _ => _ end] => destruct y end; try discriminate.
        injection Er as <-. auto.
      * repeat split; auto.
    + destruct (_ && _); [discriminate|]. destruct (_ && _); [discriminate|].
      destruct (done_at cn n); [discriminate|].
      destruct (mem_save_event c m s ex e) as [m1 [er|[d r]]] eqn:Es.
      * destruct (remove_recent _ _ _ _); discriminate.
      * injection E as <- <-. apply IH in Hw1; auto.
        unfold mem_save_event in Es.
        destruct (match ex with Some _ => _ | None => _ end); [discriminate|].
        destruct (ser c _); [|discriminate]. injection Es as <- _ _. auto.
Qed.

Lemma mem_rruns keep m : forall ids, rruns (mem_obj c) (keep, ids) m (records_by_ids c m keep None true 0 ids).
Proof.
  assert (G : forall ids k, rruns (mem_obj c) (keep, ids) m (records_by_ids c m keep None true k ids)).
  { induction ids as [|id ids IH]; intros k; cbn [records_by_ids].
    - apply rr_end. reflexivity.
    - destruct (m_data m id) as [d|] eqn:Ed.
      + destruct (deser c d) as [rec|] eqn:Er.
        * destruct (keep rec) eqn:Ek.
          -- cbn. eapply rr_send; [|apply IH]. cbn. now rewrite Ed, Er, Ek.
          -- eapply rr_skip; [|apply IH]. cbn. now rewrite Ed, Er, Ek.
        * eapply rr_send with (r' := (keep, [])); [cbn; now rewrite Ed, Er|]. apply rr_end. reflexivity.
      + eapply rr_send with (r' := (keep, [])); [cbn; now rewrite Ed|]. apply rr_end. reflexivity. }
  intros ids. apply G.
Qed.

Lemma delete_locked m ex s cn m' x : m_locked m = false -> mem_delete m ex s cn = (m', x) ->
  x <> OutPanic -> m_locked m' = false.
Proof.
  intros Hm E Hx. unfold mem_delete in E.
  destruct (done_at cn 0); [injection E as <- _; auto|].
  destruct (m_streams m s) as [ids|]; [|injection E as <- _; auto].
  destruct (negb _); [injection E as <- _; auto|].
  destruct (delete_loop m ids) as [m1|] eqn:Ed; injection E as <- <-; [|congruence].
  cbn. revert m m1 Hm Ed. induction ids as [|i ids IH]; intros m m1 Hm Ed; cbn in Ed.
  - injection Ed as <-. auto.
  - destruct (remove_in_place i (m_records m)); [|discriminate].
    destruct (remove_from_types i (m_types m)); [|discriminate].
    eapply IH; [|exact Ed]. auto.
Qed.

Lemma mem_lawful : lawful (mem_obj c) (mem_step c) (fun m => m_locked m = false) (fun _ => True).
Proof.
  split; cbn [mem_obj o_direct o_writes o_wstep o_queries o_rbegin o_rstep o_combine]; auto.
  - intros o m x. destruct o as [ex s [|e evs] cn|ex s cn|g|g [|t ts]|k s|s cn]; cbn; try discriminate.
    + now intros [= <-].
    + destruct (done_at cn 0); [|discriminate]. now intros [= <-].
    + intros [= <-]. rewrite andb_false_r. reflexivity.
    + destruct (done_at cn 0); [|discriminate]. now intros [= <-].
  - intros o l m m' x b Hm Hw Hd Hr. destruct o as [ex s evs cn|ex s cn| | | | ]; cbn in Hw; try discriminate;
      injection Hw as <-.
    + destruct evs as [|e evs]; [discriminate|]. cbn [mem_step]. rewrite Hm. unfold mem_save.
      apply mem_wruns_save in Hr as [Hr Hl]; auto.
      destruct (mem_save_loop c m s "" "" ex cn 0 [] [] 0 (e :: evs)) as [m1 [last p|er|]];
        destruct Hr as (-> & -> & ->); auto.
    + cbn in Hd. cbn [mem_step]. destruct (done_at cn 0) eqn:Ec; [discriminate|]. rewrite Hm.
      inversion Hr as [? ? ? ? ? E|? ? ? ? ? ? ? E]; subst; cbn in E;
        destruct (mem_delete m ex s cn) as [m1 x1] eqn:Ed; [|discriminate].
      injection E as <- <- <-. split; auto. intros Hx. eapply delete_locked; eauto.
      intros ->. discriminate.
  - intros o q m x Hm Hq Hw Hd Hb. destruct o as [ | |g|g ts|k s|s cn]; cbn in Hq; try discriminate.
    + injection Hq as <-. discriminate.
    + destruct ts as [|t [|]]; try discriminate. injection Hq as <-. discriminate.
    + injection Hq as <-. cbn in Hb. cbn [mem_step]. rewrite Hm. unfold mem_by_stream.
      destruct (m_streams m s) as [[|i ids]|]; try discriminate; now injection Hb as <-.
    + injection Hq as <-. cbn in Hb. injection Hb as <-. cbn in Hd. cbn [mem_step].
      destruct (done_at cn 0) eqn:Ec; [discriminate|]. rewrite Hm. unfold mem_total. now rewrite Ec.
  - intros o q m r Hm Hq Hw Hd Hb. destruct o as [ | |g|g ts|k s|s cn]; cbn in Hq; try discriminate.
    + injection Hq as <-. injection Hb as <-. cbn [mem_step]. rewrite Hm. eexists. split; [apply mem_rruns|reflexivity].
    + destruct ts as [|t [|]]; try discriminate. injection Hq as <-. injection Hb as <-. cbn [mem_step]. rewrite Hm.
      eexists. split; [apply mem_rruns|reflexivity].
    + injection Hq as <-. cbn in Hb. cbn [mem_step]. rewrite Hm. unfold mem_by_stream.
      destruct (m_streams m s) as [[|i ids]|]; try discriminate. injection Hb as <-.
      eexists. split; [apply mem_rruns|reflexivity].
    + injection Hq as <-. discriminate.
Qed.

End Mem.

Section Ldb.
Variable c : codec.

Definition lwok (l : lloc) : Prop := match l with LLOpen _ => True | LLRun ms _ => only_last_commits ms end.

Lemma call_shape d o ms x : opens_transaction o = true -> ldb_call c d o = (ms, x) -> ms <> [] /\ only_last_commits ms.
Proof.
  intros Ho E. destruct o as [ex s evs cn|ex s cn| | | | ]; try discriminate; cbn in E.
  - unfold ldb_save in E. destruct (ldb_save_loop c d s "" "" ex cn 0 [] 0 evs) as [ms' x'] eqn:El.
    injection E as <- <-. split; [discriminate|].
    apply loop_shape in El as (ws & Hws & Hl). unfold only_last_commits.
    destruct Hl as [(e & _ & ->)|(y & _ & ->)];
      rewrite app_comm_cons, removelast_last; intros [H|H]; try discriminate;
      rewrite Forall_forall in Hws; apply Hws in H as (bs & H); discriminate.
  - unfold ldb_delete in E. destruct (delete_batch c _) as [e|bs].
    + injection E as <- <-. split; [discriminate|]. unfold only_last_commits. cbn. tauto.
    + destruct (_ =? 0); [|destruct (negb _)]; injection E as <- <-; (split; [discriminate|]);
        unfold only_last_commits; cbn; intuition discriminate.
Qed.

Lemma ldb_wruns_run ms x : forall h h' x' b, wruns (ldb_obj c) (LLRun ms x) h h' x' b ->
  h' = exec_micros h ms /\ x' = x /\ b = true.
Proof.
  induction ms as [|m ms IH]; intros h h' x' b Hw.
  - inversion Hw as [? ? ? ? ? E|? ? ? ? ? ? ? E]; subst; cbn in E; try discriminate. now injection E as <- <- <-.
  - destruct ms as [|m2 ms].
    + inversion Hw as [? ? ? ? ? E|? ? ? ? ? ? ? E]; subst; cbn in E; try discriminate. now injection E as <- <- <-.
    + inversion Hw as [? ? ? ? ? E|? ? ? ? ? ? ? E Hw1]; subst; cbn in E; try discriminate.
      injection E as <- <-. now apply IH in Hw1.
Qed.

Lemma ldb_lookup_runs h g : forall kvs, rruns (ldb_obj c) (LGLookup g kvs) h (by_lookup_loop c (h_db h) g kvs).
Proof.
  assert (Er : forall e, rruns (ldb_obj c) (LGError e) h [RErr e]).
  { intros e. eapply rr_send; [reflexivity|]. apply rr_end. reflexivity. }
  induction kvs as [|[k t] kvs IH]; cbn [by_lookup_loop].
  - apply rr_end. reflexivity.
  - destruct (db_get t (h_db h)) as [v|] eqn:E1; [|eapply rr_skip; [cbn; now rewrite E1|apply Er]].
    destruct (deser c v) as [rec|] eqn:E2; [|eapply rr_skip; [cbn; now rewrite E1, E2|apply Er]].
    destruct (r_gsn rec <? g) eqn:E3.
    + eapply rr_skip; [cbn; now rewrite E1, E2, E3|apply IH].
    + eapply rr_send; [cbn; now rewrite E1, E2, E3|apply IH].
Qed.

Lemma ldb_prefix_runs h k : forall kvs, rruns (ldb_obj c) (LGPrefix k kvs) h (by_prefix_loop c k kvs).
Proof.
  assert (Er : forall e, rruns (ldb_obj c) (LGError e) h [RErr e]).
  { intros e. eapply rr_send; [reflexivity|]. apply rr_end. reflexivity. }
  induction kvs as [|[k0 v] kvs IH]; cbn [by_prefix_loop].
  - apply rr_end. reflexivity.
  - destruct (deser c v) as [rec|] eqn:E2; [|eapply rr_skip; [cbn; now rewrite E2|apply Er]].
    destruct (r_ssn rec <? k) eqn:E3.
    + eapply rr_skip; [cbn; now rewrite E2, E3|apply IH].
    + eapply rr_send; [cbn; now rewrite E2, E3|apply IH].
Qed.

Lemma ldb_lookup_start h p g : rruns (ldb_obj c) (LGStart (LQLookup p g)) h (events_by_lookup c (h_db h) p g).
Proof. eapply rr_skip; [reflexivity|]. apply ldb_lookup_runs. Qed.

Lemma ldb_prefix_start h p k : rruns (ldb_obj c) (LGStart (LQPrefix p k)) h (events_by_prefix c (h_db h) p k).
Proof.
  unfold events_by_prefix. destruct (scan p (h_db h)) as [|kv kvs] eqn:E.
  - eapply rr_skip; [cbn; now rewrite E|]. eapply rr_send; [reflexivity|]. apply rr_end. reflexivity.
  - eapply rr_skip; [cbn; now rewrite E|]. apply ldb_prefix_runs.
Qed.

Lemma ldb_lawful : lawful (ldb_obj c) (ldb_seq c) (fun _ => True) lwok.
Proof.
  split; cbn [ldb_obj o_direct o_writes o_wstep o_queries o_rbegin o_rstep o_combine]; auto.
  - intros o h x H. unfold ldb_direct in H. unfold ldb_seq, ldb_step.
    destruct (early o) as [y|] eqn:E.
    + injection H as <-. reflexivity.
    + destruct o as [ | | |g [|t ts]| |s cn]; try discriminate; injection H as <-; destruct h; reflexivity.
  - intros o h h' H. unfold ldb_direct in *. destruct (early o); [discriminate|].
    destruct o as [ | | |g [|t ts]| |s cn]; auto; discriminate.
  - intros o l H. unfold ldb_writes in H. destruct (opens_transaction o); [|discriminate]. injection H as <-. exact Logic.I.
  - intros l h h' l' Hw H. destruct l as [o|[|m [|m2 ms]] x]; cbn in H; try discriminate.
    + destruct (h_tx h); [discriminate|]. destruct (opens_transaction o) eqn:Ho.
      * destruct (ldb_call c (h_db h) o) as [ms x] eqn:E. injection H as <- <-. cbn. eapply call_shape; eauto.
      * destruct o; try discriminate; cbn in H; injection H as <- <-; unfold lwok, only_last_commits; cbn; tauto.
    + injection H as <- <-. cbn in *. unfold only_last_commits in *. intros F. apply Hw.
      change (removelast (m :: m2 :: ms)) with (m :: removelast (m2 :: ms)). now right.
  - intros o l h h' l' Hw H.
    assert (Hdb : h_db h' = h_db h).
    { destruct l as [o1|[|m [|m2 ms]] x]; cbn in H; try discriminate.
      - destruct (h_tx h); [discriminate|]. destruct (ldb_call c (h_db h) o1). now injection H as <- _.
      - injection H as <- _. cbn in Hw. unfold only_last_commits in Hw.
        change (removelast (m :: m2 :: ms)) with (m :: removelast (m2 :: ms)) in Hw.
        assert (m <> MCommit) by (intros ->; apply Hw; now left).
        unfold exec_micro. destruct m, (h_tx h); try reflexivity; congruence. }
    unfold ldb_direct. now rewrite Hdb.
  - intros o l h h' x b _ Hw Hd Hr. split; auto. unfold ldb_writes in Hw.
    destruct (opens_transaction o) eqn:Ho; [|discriminate]. injection Hw as <-.
    inversion Hr as [? ? ? ? ? E|? ? ? ? ? ? ? E Hr1]; subst; cbn in E; destruct (h_tx h) eqn:Ht; try discriminate;
      destruct (ldb_call c (h_db h) o) as [ms x1] eqn:Ec; try discriminate.
    injection E as <- <-. apply ldb_wruns_run in Hr1 as (-> & -> & _).
    unfold ldb_seq, ldb_step. unfold ldb_direct in Hd. destruct (early o); [discriminate|].
    cbn [s_stuck s_h]. rewrite Ho, Ht, Ec. reflexivity.
  - intros o q h x _ Hq Hw Hd Hb. discriminate.
  - intros o q h r _ Hq Hw Hd Hb. injection Hb as <-. unfold ldb_direct in Hd. unfold ldb_seq, ldb_step.
    destruct (early o) eqn:Ee; [discriminate|].
    destruct o as [ | |g|g ts|k s|s cn]; cbn in Hq; try discriminate.
    + injection Hq as <-. eexists. split; [apply ldb_lookup_start|]. destruct h; reflexivity.
    + destruct ts as [|t [|]]; try discriminate. injection Hq as <-. eexists.
      split; [apply ldb_lookup_start|]. destruct h; reflexivity.
    + injection Hq as <-. eexists. split; [apply ldb_prefix_start|]. destruct h; reflexivity.
Qed.

End Ldb.
