(** C99: calls whose context is done, and calls whose context is not. *)
From Verif Require Import Base Core CoreSpec LogSpec StoreSpec ToyCodec InMemory InMemoryProofs Properties_InMemory
  LevelDB LevelDBSpec LevelDBProofs LevelDBRun Properties_LevelDB DecText Text Remote RemoteSpec RemoteProofs Properties_Remote.
Open Scope string_scope.
Open Scope list_scope.
Open Scope N_scope.

(** A call that looks at its context, and finds it done at its [n]-th look or never.
    (A save of no events is refused for that.) *)
Inductive with_context (cn : option nat) : op -> Prop :=
| save_with ex s e evs : with_context cn (OpSave ex s (e :: evs) cn)
| delete_with n s : with_context cn (OpDelete n s cn)
| total_with s : with_context cn (OpTotal s cn).

(** ** The in-memory store *)

(** C99: on the in-memory store, after any history, a call whose context is done before
    the call fails with context.Canceled and leaves the store as it was. *)
Theorem C99_inmemory_done_before : forall c ops o, codec_ok c -> Forall (tame_call c) ops -> with_context (Some O) o ->
  mem_step c (mem_after c ops) o = (mem_after c ops, OutFailed ECanceled).
Proof.
  intros c ops o Hc Ht H. destruct (run_tame c Hc ops mem_init empty_log (R_init c) Ht) as (L & HR).
  fold (mem_after c ops) in HR. destruct H; cbn [mem_step done_at Nat.leb]; try reflexivity.
  rewrite (R_locked _ _ _ HR). unfold mem_save. cbn [mem_save_loop String.eqb negb andb done_at Nat.leb]. reflexivity.
Qed.
Print Assumptions C99_inmemory_done_before.

Lemma mem_loop_not_canceled c s evs : forall m t i ex n created pending last,
  snd (mem_save_loop c m s t i ex None n created pending last evs) <> SaveErr ECanceled.
Proof.
  induction evs as [|e evs IH]; intros m t i ex n created pending last; cbn [mem_save_loop done_at]; [discriminate|].
  destruct (_ && _); [discriminate|]. destruct (_ && _); [discriminate|].
  destruct (mem_save_event c m s ex e) as [m1 [er|[d r]]] eqn:E; [|apply IH].
  assert (er <> ECanceled).
  { intros ->. unfold mem_save_event in E. destruct (match ex with Some _ => _ | None => _ end) eqn:E1.
    - injection E as _ ->. destruct ex; [|discriminate]. destruct (_ =? _); discriminate.
    - destruct (ser c _); discriminate. }
  destruct (remove_recent _ _ _ _); cbn [snd]; congruence.
Qed.

(** ... and a call whose context is never done, and any read, never fails so. *)
Theorem C99_inmemory_never_done : forall c m o, with_context None o -> snd (mem_step c m o) <> OutFailed ECanceled.
Proof.
  intros c m o H. destruct H; cbn [mem_step done_at].
  - destruct (m_locked m); [discriminate|]. unfold mem_save.
    pose proof (mem_loop_not_canceled c s (e :: evs) m "" "" ex 0 [] [] 0) as K.
    destruct (mem_save_loop _ _ _ _ _ _ _ _ _ _ _ _) as [m1 [| |]]; cbn [snd] in *; congruence.
  - destruct (m_locked m); [discriminate|]. unfold mem_delete. cbn [done_at]. destruct (m_streams m s); [|discriminate].
    destruct (negb _); [discriminate|]. destruct (delete_loop _ _); discriminate.
  - destruct (m_locked m); discriminate.
Qed.
Print Assumptions C99_inmemory_never_done.

(** ** LevelDB *)

(** C99: on LevelDB too, as long as no delete was refused (C18). *)
Theorem C99_leveldb_done_before_partial : forall c ops o, no_refused_delete ops (ldb_outs c ops) -> with_context (Some O) o ->
  ldb_step c (ldb_after c ops) o = (ldb_after c ops, OutFailed ECanceled).
Proof.
  intros c ops o Hr H. pose proof (after_quiet c ops Hr) as Hq. rewrite (quiet_eq _ Hq).
  generalize (h_db (s_h (ldb_after c ops))). intros d. destruct H; try reflexivity.
Qed.
Print Assumptions C99_leveldb_done_before_partial.
(** Deletes and counts, whatever went before. *)
Theorem C99_leveldb_delete_done_before : forall c st n s,
  ldb_step c st (OpDelete n s (Some O)) = (st, OutFailed ECanceled) /\ ldb_step c st (OpTotal s (Some O)) = (st, OutFailed ECanceled).
Proof. split; reflexivity. Qed.
Print Assumptions C99_leveldb_delete_done_before.
(** A save after a refused delete is not told that its context is done: it blocks. *)
Theorem C99_leveldb_save_blocks_refuted :
  snd (ldb_step toy (ldb_after toy [OpDelete 1 "thing!x" None]) (OpSave None "thing!x" [thing "a"] (Some O))) = OutBlocked.
Proof. vm_compute. reflexivity. Qed.
Print Assumptions C99_leveldb_save_blocks_refuted.

Lemma ldb_loop_not_canceled c s evs : forall d t i ex n pending last,
  snd (ldb_save_loop c d s t i ex None n pending last evs) <> inl ECanceled.
Proof.
  induction evs as [|e evs IH]; intros d t i ex n pending last; cbn [ldb_save_loop done_at]; [discriminate|].
  destruct (_ && _); [discriminate|]. destruct (_ && _); [discriminate|].
  destruct (ldb_save_event c d s ex e) as [er|[[bs data] ssn]] eqn:E.
  - intros [= ->]. unfold ldb_save_event in E. destruct (match ex with Some _ => _ | None => _ end) eqn:E1.
    + injection E as ->. destruct ex; [|discriminate]. destruct (_ =? _); discriminate.
    + destruct (ser c _); discriminate.
  - specialize (IH (apply_batch d bs) (ev_atype e) (ev_aid e) (match ex with Some y => Some (y + 1) | None => None end) (S n) (pending ++ [data])%list ssn).
    destruct (ldb_save_loop _ _ _ _ _ _ _ _ _ _ _). exact IH.
Qed.
Lemma batch_error c kvs : delete_batch c kvs <> inl ECanceled.
Proof.
  induction kvs as [|[k v] kvs IH]; cbn [delete_batch]; [discriminate|]. destruct (deser c v); [|discriminate].
  destruct (delete_batch c kvs); [|discriminate]. congruence.
Qed.
Theorem C99_leveldb_never_done : forall c st o, with_context None o -> snd (ldb_step c st o) <> OutFailed ECanceled.
Proof.
  intros c st o H. unfold ldb_step. destruct H; cbn [early done_at]; destruct (s_stuck st && _); try discriminate;
    destruct (opens_transaction _ && _); try discriminate; cbn [ldb_call].
  - unfold ldb_save. pose proof (ldb_loop_not_canceled c s (e :: evs) (h_db (s_h st)) "" "" ex 0 [] 0) as K.
    destruct (ldb_save_loop _ _ _ _ _ _ _ _ _ _ _) as [ms [er|[last pending]]]; cbn [snd] in *; congruence.
  - destruct (ldb_delete c (h_db (s_h st)) n s) as [ms x] eqn:E. cbn [snd]. intros ->.
    unfold ldb_delete in E. destruct (delete_batch c _) as [er|bs] eqn:E1.
    + injection E as _ ->. now apply batch_error in E1.
    + destruct (_ =? 0); [discriminate|]. destruct (negb _); discriminate.
Qed.
Print Assumptions C99_leveldb_never_done.

(** ** The remote store *)

(** C99: in front of any store, a call whose context is done before the call fails with
    context.Canceled, and the store is not asked: whatever store there is behind. *)
Theorem C99_remote_done_before : forall detail wire unwire St (store : St -> op -> St * out) marshal unmarshal s o,
  faithful marshal -> (match o with OpSave _ _ evs _ => one_aggregate evs | _ => True end) -> with_context (Some O) o ->
  remote_step detail wire unwire St store marshal unmarshal s o = (s, CFailed (CErr ECanceled)).
Proof.
  intros detail wire unwire St store marshal unmarshal s o Hm Ho H. destruct H; cbn [remote_step]; [|reflexivity..].
  rewrite (pack_faithful marshal "" "" (e :: evs) Hm); [reflexivity| |exact Ho]. apply Forall_forall. auto.
Qed.
Print Assumptions C99_remote_done_before.

Lemma status_not_canceled detail e : (forall x, contains "context canceled" (detail x) = false) ->
  contains canceled_text (save_status detail e) = false /\ contains canceled_text (plain_status detail e) = false.
Proof.
  intros Hd.
  assert (Hd' : forall x, contains canceled_text (detail x) = false).
  { intros x. destruct (contains canceled_text (detail x)) eqn:E; [|reflexivity].
    apply (contains_part "Canceled desc = " "context canceled") in E. now rewrite Hd in E. }
  change (save_status detail e) with ("rpc error: code = Internal desc = unable to save to store: " ++ err_text detail e)%string.
  change (plain_status detail e) with ("rpc error: code = Unknown desc = " ++ err_text detail e)%string.
  assert (S1 : forall t, contains canceled_text ("rpc error: code = Internal desc = unable to save to store: " ++ t)%string = contains canceled_text t) by reflexivity.
  assert (S2 : forall t, contains canceled_text ("rpc error: code = Unknown desc = " ++ t)%string = contains canceled_text t) by reflexivity.
  rewrite S1, S2.
  destruct e; try (split; reflexivity); cbn [err_text]; try now rewrite Hd'.
  rewrite (lacks_contains "C"); [auto| |reflexivity]. rewrite lacks_unexpected by reflexivity. reflexivity.
Qed.

Lemma pack_not_canceled marshal l : faithful marshal -> forall t i, pack marshal t i l <> inl (CErr ECanceled).
Proof.
  intros Hm. induction l as [|a l IH]; intros t i; cbn [pack]; [discriminate|].
  destruct (_ && _); [discriminate|]. destruct (_ && _); [discriminate|]. rewrite Hm.
  destruct (pack marshal (ev_atype a) (ev_aid a) l) eqn:E; [|discriminate]. intros [= ->]. eapply IH; eauto.
Qed.

(** ... and one whose context is never done is never told so, unless the text of an
    error of the server's says it. *)
Theorem C99_remote_never_done_partial : forall detail wire unwire St (store : St -> op -> St * out) marshal unmarshal s o,
  (forall x, contains "context canceled" (detail x) = false) -> faithful marshal -> faithful unmarshal -> with_context None o ->
  snd (remote_step detail wire unwire St store marshal unmarshal s o) <> CFailed (CErr ECanceled).
Proof.
  intros detail wire unwire St store marshal unmarshal s o Hd Hm Hu H. destruct H; cbn [remote_step done_at].
  - destruct (pack marshal "" "" (e :: evs)) as [x|ps] eqn:Ep.
    + cbn [snd]. intros [= ->]. now apply (pack_not_canceled marshal _ Hm) in Ep.
    + rewrite (unpack_faithful unmarshal ps Hu). destruct (store s (OpSave ex s0 ps None)) as [s' x]. cbn [snd].
      destruct x; try discriminate. destruct (status_not_canceled detail e0 Hd) as [K _]. destruct ex.
      * unfold optimistic_error, conflict. rewrite K.
        destruct (contains conflict_text (save_status detail e0)); [|discriminate].
        destruct (unexpected_from (save_status detail e0)); discriminate.
      * unfold call_error. rewrite K. discriminate.
  - destruct (store s (OpDelete n s0 None)) as [s' x]. cbn [snd]. destruct x; try discriminate.
    destruct (status_not_canceled detail e Hd) as [_ K]. unfold delete_error, conflict. rewrite K.
    destruct (contains notfound_text (plain_status detail e)); [discriminate|].
    destruct (contains conflict_text (plain_status detail e)); [|discriminate].
    destruct (unexpected_from (plain_status detail e)); discriminate.
  - destruct (store s (OpTotal s0 None)) as [s' x]. cbn [snd]. destruct x; try discriminate.
    destruct (status_not_canceled detail e Hd) as [_ K]. unfold call_error. rewrite K. discriminate.
Qed.
Print Assumptions C99_remote_never_done_partial.

Example C99_inhabited :
  with_context (Some O) (OpSave (Some 4) "thing!x" [thing "a"; thing "b"] (Some O)) /\ one_aggregate [thing "a"; thing "b"]
  /\ (let m := mem_after toy [OpSave None "thing!x" [thing "a"] None] in
      mem_step toy m (OpSave (Some 4) "thing!x" [thing "a"; thing "b"] (Some O)) = (m, OutFailed ECanceled)
      /\ snd (mem_step toy m (OpSave (Some 1) "thing!x" [thing "a"; thing "b"] None)) <> OutFailed ECanceled
      /\ rmem m (OpDelete 1 "thing!x" (Some O)) = (m, CFailed (CErr ECanceled)))
  /\ no_refused_delete [OpSave None "thing!x" [thing "a"] None] (ldb_outs toy [OpSave None "thing!x" [thing "a"] None])
  /\ (forall x, contains "context canceled" (quiet_text x) = false).
Proof.
  split; [constructor|]. split; [intros a b [<-|[<-|[]]] [<-|[<-|[]]]; auto|]. split; [|split].
  - cbv zeta. split; [vm_compute; reflexivity|]. split; [vm_compute; discriminate|vm_compute; reflexivity].
  - vm_compute. auto.
  - intros []; reflexivity.
Qed.
