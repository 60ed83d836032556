(** Proofs for C103: stores with the JSON serializer. *)
From Coq Require Import ZArith.
From Verif Require Import Base Core CoreSpec CoreProofs LogSpec LogProofs StoreSpec InMemory InMemoryProofs
  DecText Text Json JsonSpec JsonProofs JsonText JsonTextSpec JsonTextProofs
  LevelDB LevelDBSpec LevelDBProofs LevelDBRun RecordIo RecordIoSpec RecordIoProofs HttpBytes HttpBytesJson PatchCodec JsonStoreSpec HttpBytesProofs.
Import RecordIo.
Open Scope string_scope.
Open Scope list_scope.
Open Scope N_scope.

(** * Records that are read back *)

Section Show.
Variable show : float -> num.
Notation js := (json_serializer show).

Definition json_record (r : record) : Prop :=
  is_text (r_stream r) /\ is_text (r_atype r) /\ is_text (r_aid r) /\ is_text (r_etype r) /\ is_text (r_eid r)
  /\ r_ts r < 2 ^ 64 /\ r_ssn r < 2 ^ 64 /\ r_gsn r < 2 ^ 64
  /\ (exists v, v <> GNil /\ json_written show v (r_data r)) /\ (exists v, json_written show v (r_meta r)).

Lemma value_reads v t : json_written show v t -> exists j, read_value t = Some (j, "") /\ exact j = v /\ t = JsonText.print (encode show v).
Proof.
  intros (Hc & Hl & ->). exists (encode show v). unfold text_of_value. split; [|split; [now apply exact_back|reflexivity]].
  pose proof (read_back (encode show v) "" (carried_sound show v Hc)) as R. rewrite app_nil_s in R. apply R; [|intros _; exact Logic.I].
  rewrite encode_nesting, limit. lia.
Qed.

Lemma json_works r : json_record r -> works js r.
Proof.
  intros (T1 & T2 & T3 & T4 & T5 & B1 & B2 & B3 & (v & Hv & Hd) & (w & Hm)).
  destruct (value_reads _ _ Hd) as (j & Rd & Ed & Pd). destruct (value_reads _ _ Hm) as (k & Rm & Em & Pm).
  set (e := mk_entry (r_stream r) (r_atype r) (r_aid r) (r_gsn r) (r_ssn r) (r_ts r) (r_eid r) (r_etype r) (Value v) w).
  assert (Ee : entry_of r = Some e) by (unfold entry_of; now rewrite Rd, Rm, Ed, Em).
  assert (Ho : ordinary no_types e).
  { unfold ordinary, e. cbn [e_stream e_atype e_aid e_eid e_etype e_gsn e_ssn e_ts e_meta e_data data_of_type no_types].
    repeat (split; [assumption|]). split; [apply Hm|]. split; [apply Hm|]. split; [exact Hv|]. split; apply Hd. }
  exists (RecordIoProofs.text_of show e). split.
  - cbn [json_serializer ser]. rewrite Ee. exact (marshal_ok show no_types _ Ho).
  - cbn [json_serializer deser]. pose proof (read_entry show no_types _ "" Ho) as R. rewrite app_nil_s in R. rewrite R.
    rewrite (unmarshal_back show no_types _ Ho). f_equal. unfold record_of, e, text_of_value.
    cbn [e_stream e_atype e_aid e_eid e_etype e_gsn e_ssn e_ts e_meta e_data payload_tree]. rewrite <- Pd, <- Pm. now destruct r.
Qed.

Lemma new_json s evs : is_text s -> Forall (json_event show) evs -> forall g k, g + N.of_nat (length evs) < 2 ^ 64 -> k + N.of_nat (length evs) < 2 ^ 64 ->
  Forall json_record (LogSpec.records_from s g k evs).
Proof.
  intros Hs. induction 1 as [|e evs (E1 & E2 & E3 & E4 & E5 & E6 & E7) _ IH]; intros g k Hg Hk; cbn [LogSpec.records_from]; constructor.
  - unfold json_record, record_at. cbn [r_stream r_atype r_aid r_etype r_eid r_ts r_ssn r_gsn r_data r_meta]. cbn [length] in Hg, Hk.
    repeat (split; [assumption || lia|]). exact E7.
  - cbn [length] in Hg, Hk. apply IH; lia.
Qed.

Lemma written_json L o : log_ok L -> json_call show o -> l_last L + added o < 2 ^ 64 -> Forall json_record (written_by L o).
Proof.
  intros Hok Ho Hl. destruct o as [ex s evs cn|ex s cn|g|g ts|k s|s cn]; cbn [written_by]; try constructor.
  destruct Ho as [Hs He]. cbn [added] in Hl. pose proof (stream_length_le L s Hok). unfold appended. apply new_json; auto; lia.
Qed.
Lemma json_all l : Forall json_record l -> Forall (works js) l.
Proof. induction 1; constructor; auto using json_works. Qed.

(** * In memory *)

Lemma loop_last c s cn evs : forall m at_ ai ex n created pending last,
  m_last (fst (mem_save_loop c m s at_ ai ex cn n created pending last evs)) <= m_last m + N.of_nat (length evs).
Proof.
  induction evs as [|e evs IH]; intros m at_ ai ex n created pending last; cbn [mem_save_loop]; [cbn; lia|].
  destruct (negb _ && negb _); [cbn [fst]; lia|]. destruct (negb _ && negb _); [cbn [fst]; lia|]. destruct (done_at cn n); [cbn [fst]; lia|].
  assert (K : m_last (fst (mem_save_event c m s ex e)) <= m_last m + 1).
  { unfold mem_save_event. destruct (match ex with Some x => _ | None => _ end); [cbn [fst]; lia|]. destruct (ser c _); cbn [fst m_last]; lia. }
  destruct (mem_save_event c m s ex e) as [m1 [er|[d r]]]; cbn [fst length] in *.
  - destruct (remove_recent m1 created (ev_atype e) (ev_aid e)) as [m2|] eqn:E; cbn [fst]; [|lia].
    unfold remove_recent in E. destruct (rtrim _ _); [|discriminate]. destruct (rtrim _ _); [|discriminate]. destruct (rtrim _ _); [|discriminate].
    injection E as <-. cbn [m_last]. lia.
  - eapply N.le_trans; [apply IH|]. lia.
Qed.
Lemma delete_last ids : forall m m', delete_loop m ids = Some m' -> m_last m' = m_last m.
Proof.
  induction ids as [|x ids IH]; intros m m'; cbn [delete_loop]; [now intros [= <-]|].
  destruct (remove_in_place _ _); [|discriminate]. destruct (remove_from_types _ _); [|discriminate]. intros H. apply IH in H. exact H.
Qed.
Lemma step_last c m o : m_last (fst (mem_step c m o)) <= m_last m + added o.
Proof.
  destruct o as [ex s evs cn|ex s cn|g|g ts|k s|s cn]; cbn [mem_step added].
  - destruct evs as [|e evs]; [cbn; lia|]. destruct (m_locked m); [cbn [fst]; lia|]. unfold mem_save.
    pose proof (loop_last c s cn (e :: evs) m "" "" ex 0 [] [] 0) as K.
    destruct (mem_save_loop c m s "" "" ex cn 0 [] [] 0 (e :: evs)) as [m' [last p|er|]]; cbn [fst lock_forever m_last] in *; exact K.
  - destruct (done_at cn 0); [cbn [fst]; lia|]. destruct (m_locked m); [cbn [fst]; lia|]. unfold mem_delete.
    destruct (done_at cn 0); [cbn [fst]; lia|]. destruct (m_streams m s) as [ids|]; [|cbn [fst]; lia]. destruct (negb _); [cbn [fst]; lia|].
    destruct (delete_loop m ids) as [m1|] eqn:E; [|cbn [fst lock_forever m_last]; lia]. apply delete_last in E. cbn [fst m_last]. lia.
  - destruct (m_locked m); cbn [fst]; lia.
  - destruct (m_locked m && _); [cbn [fst]; lia|]. destruct (mem_by_types c m g ts); cbn [fst]; lia.
  - destruct (m_locked m); cbn [fst]; lia.
  - destruct (done_at cn 0); [cbn [fst]; lia|]. destruct (m_locked m); cbn [fst]; lia.
Qed.

Lemma mem_transfer ops : forall m L, R (patched js) m L -> plain_mem m -> Forall (json_call show) ops -> l_last L + events_in ops < 2 ^ 64 ->
  Base.run (mem_step js) m ops = Base.run (mem_step (patched js)) m ops.
Proof.
  pose proof (patched_ok js (unmarked_json show)) as Hc. pose proof (patched_total js) as Ht.
  induction ops as [|o ops IH]; intros m L HR Hp Ho Hl; cbn [Base.run]; [reflexivity|].
  inversion Ho as [|? ? Ho1 Ho2]; subst. cbn [events_in fold_right] in Hl. fold (events_in ops) in Hl.
  destruct (mem_same js (unmarked_json show) m L o HR Hp) as [E Hp'].
  { apply json_all, written_json; [exact (R_log _ _ _ HR)|exact Ho1|lia]. }
  destruct (step_tame _ Hc m L o HR) as (L' & HR' & _). { destruct o; try exact Logic.I. left. exact Ht. }
  pose proof (step_last (patched js) m o) as K. rewrite <- E in *. rewrite (R_last _ _ _ HR) in K. rewrite (R_last _ _ _ HR') in K.
  destruct (mem_step js m o) as [m1 x]. cbn [fst] in *. rewrite (IH m1 L' HR' Hp' Ho2); [reflexivity|lia].
Qed.

(** * On disk *)

Lemma exec_json L o : log_ok L -> json_call show o -> l_last L + added o < 2 ^ 64 -> Forall json_record (l_recs L) ->
  Forall json_record (l_recs (fst (log_exec (patched js) L o))).
Proof.
  intros Hok Ho Hl HL. pose proof (written_json L o Hok Ho Hl) as Hw.
  destruct o as [ex s evs cn|ex s cn|g|g ts|k s|s cn]; unfold log_exec; cbn [written_by] in Hw.
  - destruct (save_refused _ L ex s evs cn); cbn [fst]; [exact HL|]. unfold append_log. cbn [l_recs]. now apply Forall_app.
  - destruct (delete_refused L ex s cn); cbn [fst]; [exact HL|]. unfold remove_stream. cbn [l_recs]. rewrite Forall_forall in *. intros r Hr. apply filter_In in Hr. now apply HL.
  - exact HL. - exact HL. - exact HL. - exact HL.
Qed.

Lemma lives_transfer h : forall st L, D (patched js) (h_db (s_h st)) L -> Forall clean_call (map fst h) -> Forall (json_call show) (map fst h) ->
  l_last L + events_in (map fst h) < 2 ^ 64 -> Forall json_record (l_recs L) ->
  lives js st h = lives (patched js) st h.
Proof.
  pose proof (patched_ok js (unmarked_json show)) as Hc. pose proof (unmarked_json show) as Hm.
  induction h as [|[o k] h IH]; intros st L HD Hcl Hj Hl HL; [reflexivity|]. cbn [map fst] in *.
  inversion Hcl as [|? ? Hcl1 Hcl2]; subst. inversion Hj as [|? ? Hj1 Hj2]; subst. cbn [events_in fold_right] in Hl. fold (events_in (map fst h)) in Hl.
  assert (Hsm : l_last L + added o < two64) by (change two64 with (2 ^ 64); lia).
  destruct (ldb_same_any js Hm st L o HD (json_all _ HL) Hcl1 Hsm) as [Es Ec].
  { apply json_all, written_json; [exact (D_ok _ _ _ HD)|exact Hj1|lia]. }
  pose proof (step_any _ Hc st L o HD Hcl1 Hsm) as Hst. pose proof (log_exec_last (patched js) L o) as Hlast.
  pose proof (exec_json L o (D_ok _ _ _ HD) Hj1 ltac:(lia) HL) as HL'.
  destruct k as [k|]; cbn [lives].
  - rewrite Ec. assert (HC : D (patched js) (h_db (s_h (ldb_crash (patched js) st o k))) L \/ D (patched js) (h_db (s_h (ldb_crash (patched js) st o k))) (fst (log_exec (patched js) L o))).
    { destruct (crash_atomic (patched js) st o k) as [->| ->]; auto. destruct Hst as [[_ ->]|[_ H]]; auto. }
    destruct HC as [HC|HC].
    + rewrite (IH _ L HC Hcl2 Hj2); [reflexivity|lia|exact HL].
    + rewrite (IH _ _ HC Hcl2 Hj2); [reflexivity|lia|exact HL'].
  - rewrite Es. destruct (ldb_step (patched js) st o) as [st1 x] eqn:E. cbn [fst snd] in Hst. destruct Hst as [[-> E']|[-> HD1]].
    + rewrite <- E' in HD. rewrite (IH st1 L HD Hcl2 Hj2); [reflexivity|lia|exact HL].
    + rewrite (IH st1 _ HD1 Hcl2 Hj2); [reflexivity|lia|exact HL'].
Qed.
End Show.

(** * The log does not look at a codec that never fails *)

Lemma refusal_any c c' cn s t i evs : codec_total c -> codec_total c' -> forall g k n, refusal c cn s t i g k n evs = refusal c' cn s t i g k n evs.
Proof.
  intros H H'. induction evs as [|e evs IH]; intros g k n; cbn [refusal]; [reflexivity|].
  destruct (negb _); [reflexivity|]. destruct (negb _); [reflexivity|]. destruct (done_at cn n); [reflexivity|].
  destruct (ser c _) eqn:E; [|now apply H in E]. destruct (ser c' _) eqn:E'; [apply IH|now apply H' in E'].
Qed.
Lemma refused_any c c' L ex s evs cn : codec_total c -> codec_total c' -> save_refused c L ex s evs cn = save_refused c' L ex s evs cn.
Proof.
  intros H H'. unfold save_refused. destruct evs as [|e evs]; [reflexivity|]. destruct (done_at cn 0); [reflexivity|].
  destruct ex as [x|]; [destruct (x =? _); [|reflexivity]|]; now apply refusal_any.
Qed.
Lemma run_total c c' L ops xs L' : codec_total c -> codec_total c' -> log_run c L ops xs L' -> log_run c' L ops xs L'.
Proof.
  intros H H'. induction 1 as [L|L o x L1 ops xs L2 Hs _ IH]; [constructor|]. econstructor; [|exact IH].
  destruct Hs; try (now constructor); [apply LSaved|apply LSaveRefused; [|assumption]]; rewrite <- (refused_any c c'); auto.
Qed.
Lemma exec_total c c' : codec_total c -> codec_total c' -> forall ops L, Base.run (log_exec c) L ops = Base.run (log_exec c') L ops.
Proof.
  intros H H'. induction ops as [|o ops IH]; intros L; cbn [Base.run]; [reflexivity|].
  replace (log_exec c L o) with (log_exec c' L o). { destruct (log_exec c' L o) as [L1 x]. now rewrite IH. }
  destruct o; unfold log_exec; try reflexivity. now rewrite (refused_any c c' _ _ _ _ _ H H').
Qed.
