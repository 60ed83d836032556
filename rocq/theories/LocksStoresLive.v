(** The two stores obey the laws of [LocksProgress.live]. *)
From Coq Require Import PeanoNat.
From Verif Require Import Base Core CoreProofs LogSpec StoreSpec InMemory InMemoryProofs LevelDB LevelDBRun
  Locks LocksSpec LocksProofs LocksProgress LocksAnswers LocksStores LocksStoresProofs.

Definition mem_jam (o : op) (x : out) : Prop := x = OutPanic.
Definition mem_wsize (l : mloc) (m : mem) : nat :=
  match l with MLSave _ _ _ _ _ _ _ _ _ evs => length evs | MLDelete _ _ _ => 0 end.
Definition mem_rsize (r : mgo) (m : mem) : nat := length (snd r).

Lemma mem_live c : live (mem_obj c) (fun _ => True) mem_jam mem_wsize mem_rsize.
Proof.
  split; cbn [mem_obj o_direct o_writes o_wstep o_queries o_rbegin o_rstep o_combine].
  - intros [ex s evs cn|ex s cn|g|g [|t ts]|k s|s cn] m; cbn; try discriminate.
  - intros o l m _ Hw.
    destruct o as [ex s evs cn|ex s cn| | | | ]; cbn in Hw; try discriminate; injection Hw as <-.
    + generalize ""%string at 1 as at_. generalize ""%string as ai. generalize 0%nat as n.
      generalize (@nil N) as cr. generalize (@nil string) as p. generalize 0 as last.
      revert ex m. induction evs as [|e evs IH]; intros ex m last p cr n ai at_.
      * exists m, (OutSaved last (decoded c p)), true. split; [apply wr_done; reflexivity|right; auto].
      * destruct (mem_wstep c (MLSave s at_ ai ex cn n cr p last (e :: evs)) m) as [m1 l1|m1 x b|] eqn:E.
        -- pose proof E as E0. cbn in E. destruct (_ && _); [discriminate|]. destruct (_ && _); [discriminate|].
           destruct (done_at cn n); [discriminate|].
           destruct (mem_save_event c m s ex e) as [m2 [er|[d r]]] eqn:Es; [destruct (remove_recent _ _ _ _); discriminate|].
           injection E as <- <-.
           destruct (IH (match ex with Some x => Some (x + 1) | None => None end) m2 (r_ssn r) (p ++ [d]) (cr ++ [r_gsn r]) (S n) (ev_aid e) (ev_atype e))
             as (m' & x & b & Hr & Hb).
           exists m', x, b. split; auto. eapply wr_more; [exact E0|exact Hr].
        -- exists m1, x, b. split; [apply wr_done; exact E|]. cbn in E.
           destruct (_ && _); [injection E as <- <- <-; auto|]. destruct (_ && _); [injection E as <- <- <-; auto|].
           destruct (done_at cn n); [injection E as <- <- <-; auto|].
           destruct (mem_save_event c m s ex e) as [m2 [er|[d r]]] eqn:Es; [|discriminate].
           destruct (remove_recent _ _ _ _); injection E as <- <- <-; [auto|left; reflexivity].
        -- cbn in E. destruct (_ && _); [discriminate|]. destruct (_ && _); [discriminate|].
           destruct (done_at cn n); [discriminate|].
           destruct (mem_save_event c m s ex e) as [m2 [er|[d r]]]; [destruct (remove_recent _ _ _ _); discriminate|discriminate].
    + destruct (mem_delete m ex s cn) as [m' x] eqn:Ed. exists m', x, (match x with OutPanic => false | _ => true end).
      split; [apply wr_done; cbn; now rewrite Ed|]. destruct x; auto. now left.
  - intros l m m' l' E. destruct l as [s at_ ai ex cn n cr p last [|e evs]|ex s cn]; cbn in E; try discriminate.
    + destruct (_ && _); [discriminate|]. destruct (_ && _); [discriminate|].
      destruct (done_at cn n); [discriminate|].
      destruct (mem_save_event c m s ex e) as [m2 [er|[d r]]]; [destruct (remove_recent _ _ _ _); discriminate|].
      injection E as <- <-. cbn. lia.
    + destruct (mem_delete m ex s cn); discriminate.
  - intros [keep [|id ids]] m r' E; cbn in E; [discriminate|].
    destruct (m_data m id); [|discriminate]. destruct (deser c s); [|discriminate].
    destruct (keep r); [discriminate|]. injection E as <-. cbn. lia.
  - intros [keep [|id ids]] m x r' E; cbn in E; [discriminate|].
    destruct (m_data m id); [|injection E as <- <-; cbn; lia]. destruct (deser c s); [|injection E as <- <-; cbn; lia].
    destruct (keep r); [|discriminate]. injection E as <- <-. cbn. lia.
Qed.

(** Tame calls do not panic. *)
Lemma tame_no_panic c (Hc : codec_ok c) m L o : R c m L -> tame_call c o -> one_lock o -> snd (mem_step c m o) <> OutPanic.
Proof.
  intros HR Ht H1 E. destruct (step_tame c Hc m L o HR Ht) as (L' & HR' & _). pose proof (R_locked _ _ _ HR') as Hl.
  pose proof (R_locked _ _ _ HR) as Hm. clear HR HR'.
  destruct o as [ex s evs cn|ex s cn|g|g ts|k s|s cn]; cbn [mem_step] in *.
  - destruct evs as [|e evs]; [discriminate|]. rewrite Hm in *. unfold mem_save in *.
    destruct (mem_save_loop c m s "" "" ex cn 0 [] [] 0 (e :: evs)) as [m1 [l p|er|]]; cbn in *; discriminate.
  - destruct (done_at cn 0) eqn:Ed; [discriminate|]. rewrite Hm in *. unfold mem_delete in *. rewrite Ed in *.
    destruct (m_streams m s) as [ids|]; [|discriminate].
    destruct (negb _); [discriminate|]. destruct (delete_loop m ids); cbn in *; discriminate.
  - rewrite Hm in E. discriminate.
  - rewrite Hm in E. cbn in E. cbn in H1. destruct ts as [|t [|t' ts]]; cbn in H1; try lia; discriminate.
  - rewrite Hm in E. discriminate.
  - destruct (done_at cn 0) eqn:Ed; [discriminate|]. rewrite Hm in E. unfold mem_total in E. rewrite Ed in E. discriminate.
Qed.

Lemma tame_run_no_panic c (Hc : codec_ok c) ops : forall m L, R c m L -> Forall (tame_call c) ops -> Forall one_lock ops ->
  ~ In OutPanic (snd (run (mem_step c) m ops)).
Proof.
  induction ops as [|o ops IH]; intros m L HR Ht H1; cbn [run]; [cbn; tauto|].
  inversion Ht; inversion H1; subst. pose proof (tame_no_panic c Hc m L o HR H2 H6) as Hp.
  destruct (step_tame c Hc m L o HR H2) as (L' & HR' & _).
  destruct (mem_step c m o) as [m1 x]. specialize (IH m1 L' HR' H3 H7). destruct (run (mem_step c) m1 ops) as [m2 xs].
  cbn in *. intros [->|H]; auto.
Qed.

(** * LevelDB *)
Definition ldb_jam (o : op) (x : out) : Prop :=
  match o, x with OpDelete _ _ _, OutFailed e => e <> ECanceled | _, _ => False end.
Definition ldb_wsize (c : codec) (l : lloc) (h : dbh) : nat :=
  match l with LLOpen o => S (length (fst (ldb_call c (h_db h) o))) | LLRun ms _ => length ms end.
Definition ldb_rsize (r : lgo) (h : dbh) : nat :=
  match r with
  | LGStart (LQLookup p g) =>
      S (S (length (if 0 <? g then seek (key_with_number p g) (scan p (h_db h)) else scan p (h_db h))))
  | LGStart (LQPrefix p k) => S (S (length (scan p (h_db h))))
  | LGLookup _ kvs | LGPrefix _ kvs => S (length kvs)
  | LGError _ => 1
  | LGEnd => 0
  end.

Lemma ldb_run_exists c x ms : forall h, wruns (ldb_obj c) (LLRun ms x) h (exec_micros h ms) x true.
Proof.
  induction ms as [|m [|m2 ms] IH]; intros h.
  - apply wr_done. reflexivity.
  - apply wr_done. reflexivity.
  - eapply wr_more; [reflexivity|]. apply IH.
Qed.

Lemma ends_quiet h ms m : m = MCommit \/ m = MDiscard -> h_tx (exec_micros h (ms ++ [m])) = None.
Proof.
  intros Hm. unfold exec_micros. rewrite fold_left_app. cbn. unfold exec_micro.
  destruct Hm as [->| ->]; destruct (h_tx (fold_left _ ms h)) eqn:E; auto.
Qed.

Lemma ldb_live c : live (ldb_obj c) (fun h => h_tx h = None) ldb_jam (ldb_wsize c) ldb_rsize.
Proof.
  split; cbn [ldb_obj o_direct o_writes o_wstep o_queries o_rbegin o_rstep o_combine].
  - intros o h. unfold ldb_direct. destruct (early o) eqn:Ee; [discriminate|].
    destruct o as [ex s evs cn|ex s cn|g|g [|t ts]|k s|s cn]; cbn; discriminate.
  - intros o l h Hh Hw. unfold ldb_writes in Hw. destruct (opens_transaction o) eqn:Ho; [|discriminate]. injection Hw as <-.
    destruct (ldb_call c (h_db h) o) as [ms x] eqn:Ec.
    exists (exec_micros h ms), x, true. split.
    { eapply wr_more; [|apply ldb_run_exists]. cbn. now rewrite Hh, Ec. }
    destruct o as [ex s evs cn|ex s cn| | | | ]; try discriminate; cbn in Ec.
    + right. split; auto. unfold ldb_save in Ec.
      destruct (ldb_save_loop c (h_db h) s "" "" ex cn 0 [] 0 evs) as [ms' x'] eqn:El.
      injection Ec as <- <-. apply loop_shape in El as (ws & _ & Hl).
      destruct Hl as [(e & _ & ->)|(y & _ & ->)]; rewrite app_comm_cons; apply ends_quiet; auto.
    + unfold ldb_delete in Ec. destruct (delete_batch c _) as [e|bs] eqn:Eb.
      * injection Ec as <- <-. left. cbn. clear -Eb.
        assert (G : forall kvs, delete_batch c kvs = inl ECanceled -> False).
        { induction kvs as [|[k v] kvs IH]; cbn; [discriminate|]. destruct (deser c v); [|discriminate].
          destruct (delete_batch c kvs) as [e'|]; [|discriminate]. intros [= ->]. now apply IH. }
        intros ->. eauto.
      * destruct (_ =? 0); [injection Ec as <- <-; left; cbn; discriminate|].
        destruct (negb _); injection Ec as <- <-; [left; cbn; discriminate|].
        right. split; auto. apply (ends_quiet h [MOpen; MWrite bs] MCommit). auto.
  - intros l h h' l' E. destruct l as [o|[|m [|m2 ms]] x]; cbn in E; try discriminate.
    + destruct (h_tx h); [discriminate|]. cbn. destruct (ldb_call c (h_db h) o) as [ms x]. injection E as <- <-. cbn. lia.
    + injection E as <- <-. cbn. lia.
  - intros r h r' E. destruct r as [[p g|p k]|g [|[k t] kvs]|k [|[k0 v] kvs]|e|]; cbn in E; try discriminate.
    + injection E as <-. exact (Nat.lt_succ_diag_r _).
    + cbn. destruct (scan p (h_db h)) eqn:Es; injection E as <-; cbn; lia.
    + destruct (db_get t (h_db h)); [|injection E as <-; cbn; lia].
      destruct (deser c s); [|injection E as <-; cbn; lia]. destruct (_ <? _); [|discriminate]. injection E as <-. cbn. lia.
    + destruct (deser c v); [|injection E as <-; cbn; lia]. destruct (_ <? _); [|discriminate]. injection E as <-. cbn. lia.
  - intros r h x r' E. destruct r as [[p g|p k]|g [|[k t] kvs]|k [|[k0 v] kvs]|e|]; cbn in E; try discriminate.
    + destruct (scan p (h_db h)); discriminate.
    + destruct (db_get t (h_db h)); [|discriminate].
      destruct (deser c s); [|discriminate]. destruct (_ <? _); [discriminate|]. injection E as <- <-. cbn. lia.
    + destruct (deser c v); [|discriminate]. destruct (_ <? _); [discriminate|]. injection E as <- <-. cbn. lia.
    + injection E as <- <-. cbn. lia.
Qed.


(** LevelDB calls are not answered [OutBlocked]. *)
Definition lplace (l : lloc) : Prop := match l with LLOpen o => opens_transaction o = true | LLRun _ x => x <> OutBlocked end.

Lemma ldb_never_blocked c ls s k : krun (ldb_obj c) (start s) ls = Some k ->
  forall i x, In (Ret i x) (k_hist k) -> x <> OutBlocked.
Proof.
  apply (answers_ok (ldb_obj c) lplace (fun x => x <> OutBlocked));
    cbn [ldb_obj o_direct o_writes o_wstep o_queries o_rbegin o_rstep o_combine].
  - intros o h x. unfold ldb_direct. destruct (early o) eqn:Ee.
    + intros [= <-]. destruct o as [ex st [|e evs] cn|ex st cn|g|g ts|n st|st cn]; cbn in Ee; try discriminate;
        try (injection Ee as <-; discriminate); destruct (done_at cn 0); try discriminate; injection Ee as <-; discriminate.
    + destruct o as [ | | |g [|t ts]| | ]; try discriminate; intros [= <-]; discriminate.
  - intros o l. unfold ldb_writes. destruct (opens_transaction o) eqn:E; [|discriminate]. now intros [= <-].
  - intros l h h' l' Hl E. destruct l as [o|[|m [|m2 ms]] x]; cbn in E; try discriminate.
    + destruct (h_tx h); [discriminate|]. destruct (ldb_call c (h_db h) o) as [ms x] eqn:Ec. injection E as <- <-. cbn.
      cbn in Hl. destruct o as [ex st evs cn|ex st cn| | | | ]; try discriminate; cbn in Ec.
      * unfold ldb_save in Ec. destruct (ldb_save_loop _ _ _ _ _ _ _ _ _ _ _) as [ms' x'].
        injection Ec as <- <-. destruct x' as [|[? ?]]; discriminate.
      * unfold ldb_delete in Ec. destruct (delete_batch c _); [injection Ec as <- <-; discriminate|].
        destruct (_ =? 0); [injection Ec as <- <-; discriminate|].
        destruct (negb _); injection Ec as <- <-; discriminate.
    + injection E as <- <-. exact Hl.
  - intros l h h' x b Hl E. destruct l as [o|[|m [|m2 ms]] y]; cbn in E; try discriminate.
    + destruct (h_tx h); [discriminate|]. destruct (ldb_call _ _ _); discriminate.
    + injection E as <- <- <-. exact Hl.
    + injection E as <- <- <-. exact Hl.
  - discriminate.
  - intros o l. unfold combine_results. destruct l as [|l [|l2 ls2]]; try discriminate;
      destruct (merge_results _); discriminate.
Qed.
