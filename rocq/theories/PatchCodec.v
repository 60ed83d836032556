(** Proofs for C102: a serializer that works for the records at hand is as good as one
    that always works. *)
From Verif Require Import Base Core CoreSpec CoreProofs LogSpec LogProofs ToyCodec InMemory InMemoryProofs LevelDB LevelDBSpec LevelDBBytes LevelDBProofs.
Open Scope string_scope.
Open Scope list_scope.
Open Scope N_scope.

Lemma record_dec (r r' : record) : {r = r'} + {r <> r'}.
Proof. decide equality; try apply string_dec; apply N.eq_dec. Qed.

Fixpoint strip (m s : string) : option string :=
  match m, s with
  | EmptyString, _ => Some s
  | String a m', String b s' => if Ascii.eqb a b then strip m' s' else None
  | _, EmptyString => None
  end.
Lemma strip_app m s : strip m (m ++ s) = Some s.
Proof. induction m as [|a m IH]; cbn; [reflexivity|]. now rewrite Ascii.eqb_refl. Qed.
Definition mark : string := "unwritten:".
Definition unmarked (b : string) : Prop := strip mark b = None.
Lemma unmarked_short b : (String.length b <= 9)%nat -> unmarked b.
Proof.
  unfold unmarked. assert (G : forall m s, (String.length s < String.length m)%nat -> strip m s = None).
  { induction m as [|a m IH]; intros [|x s] H; cbn in *; try reflexivity; try lia. destruct (Ascii.eqb a x); [apply IH; lia|reflexivity]. }
  intros H. apply G. cbn. lia.
Qed.

Section Patch.
Variable c : codec.
Hypothesis Hm : forall r b, ser c r = Some b -> unmarked b.

Definition works (r : record) : Prop := exists b, ser c r = Some b /\ deser c b = Some r.
Definition otherwise (r : record) : option string := Some (mark ++ enc_record r)%string.
Definition patched : codec :=
  mk_codec
    (fun r => match ser c r with
              | Some b => match deser c b with Some r' => if record_dec r r' then Some b else otherwise r | None => otherwise r end
              | None => otherwise r end)
    (fun b => match strip mark b with Some t => dec_record t | None => deser c b end).

Lemma patched_ok : codec_ok patched.
Proof.
  intros r b. cbn [patched ser deser].
  assert (O : forall b, otherwise r = Some b -> match strip mark b with Some t => dec_record t | None => deser c b end = Some r).
  { intros b' H. assert (b' = mark ++ enc_record r)%string as -> by (unfold otherwise in H; congruence). rewrite strip_app. now apply toy_ok. }
  destruct (ser c r) as [x|] eqn:E; [|apply O]. destruct (deser c x) as [r'|] eqn:E'; [|apply O].
  destruct (record_dec r r') as [<-|_]; [|apply O]. intros [= <-]. rewrite (Hm r x E). exact E'.
Qed.
Lemma patched_total : codec_total patched.
Proof.
  intros r. cbn [patched ser]. unfold otherwise. destruct (ser c r) as [x|]; [|discriminate]. destruct (deser c x) as [r'|]; [|discriminate].
  destruct (record_dec r r'); discriminate.
Qed.
Lemma patched_ser r : works r -> ser patched r = ser c r.
Proof. intros (b & E & E'). cbn [patched ser]. rewrite E, E'. destruct (record_dec r r); congruence. Qed.
Lemma patched_deser b : unmarked b -> deser patched b = deser c b.
Proof. intros H. cbn [patched deser]. now rewrite H. Qed.
Lemma works_unmarked r b : ser c r = Some b -> unmarked b.
Proof. apply Hm. Qed.

(** * In memory *)

Definition plain_mem (m : mem) : Prop := forall k d, m_data m k = Some d -> unmarked d.

Lemma plain_init : plain_mem mem_init.
Proof. intros k d H. discriminate H. Qed.
Lemma plain_nset_none m k : (forall k d, m k = Some d -> unmarked d) -> forall k' d, nset k None m k' = Some d -> unmarked d.
Proof. intros H k' d. unfold nset. destruct (N.eqb k' k); [discriminate|apply H]. Qed.

Lemma by_ids_same m keep cn consumer ids : plain_mem m -> forall k, records_by_ids c m keep cn consumer k ids = records_by_ids patched m keep cn consumer k ids.
Proof.
  intros Hp. induction ids as [|id ids IH]; intros k; [reflexivity|]. cbn [records_by_ids].
  destruct (m_data m id) as [d|] eqn:E; [|reflexivity]. rewrite (patched_deser d (Hp _ _ E)).
  destruct (deser c d) as [r|]; [|reflexivity]. destruct (keep r); [|apply IH].
  destruct (publish (done_at cn k) consumer r) as [sent go]. destruct go; [|reflexivity]. now rewrite IH.
Qed.

Lemma event_same m s ex e : plain_mem m -> works (record_at s (m_last m + 1) (mem_stream_number m s + 1) e) ->
  mem_save_event c m s ex e = mem_save_event patched m s ex e
  /\ match mem_save_event c m s ex e with
     | (m', inr (d, r)) => plain_mem m' /\ unmarked d /\ m_last m' = m_last m + 1 /\ mem_stream_number m' s = mem_stream_number m s + 1
     | (m', inl _) => plain_mem m'
     end.
Proof.
  intros Hp Hw. unfold mem_save_event. cbv zeta.
  destruct (match ex with Some x => if x =? mem_stream_number m s then None else Some (EUnexpectedSeq x (mem_stream_number m s)) | None => None end) as [er|].
  { split; [reflexivity|exact Hp]. }
  unfold record_at in Hw. rewrite (patched_ser _ Hw). split; [reflexivity|].
  destruct (ser c _) as [d|] eqn:E; [|destruct Hw as (b & Hb & _); congruence].
  assert (Hd : unmarked d) by now apply Hm in E.
  split; [|split; [exact Hd|split; [reflexivity|]]].
  - intros k x. cbn [m_data]. unfold nset. destruct (N.eqb k _); [now intros [= <-]|apply Hp].
  - unfold mem_stream_number, ids_of_stream at 1. cbn [m_streams]. unfold fset. rewrite String.eqb_refl, app_length. cbn [length]. lia.
Qed.

Lemma recent_plain m created t i m' : plain_mem m -> remove_recent m created t i = Some m' -> plain_mem m'.
Proof.
  intros Hp. unfold remove_recent. destruct (rtrim _ _); [|discriminate]. destruct (rtrim _ _); [|discriminate]. destruct (rtrim _ _); [|discriminate].
  intros [= <-]. unfold plain_mem. cbn [m_data]. revert Hp. unfold plain_mem. generalize (m_data m).
  induction created as [|g created IH]; intros D Hp; [exact Hp|]. cbn [fold_left]. apply IH. now apply plain_nset_none.
Qed.

Lemma loop_same s cn evs : forall m at_ ai ex n created pending last, plain_mem m -> Forall unmarked pending ->
  Forall works (records_from s (m_last m) (mem_stream_number m s) evs) ->
  mem_save_loop c m s at_ ai ex cn n created pending last evs = mem_save_loop patched m s at_ ai ex cn n created pending last evs
  /\ match mem_save_loop c m s at_ ai ex cn n created pending last evs with
     | (m', SaveOk _ pending') => plain_mem m' /\ Forall unmarked pending'
     | (m', _) => plain_mem m' end.
Proof.
  induction evs as [|e evs IH]; intros m at_ ai ex n created pending last Hp Hu Hw; cbn [mem_save_loop]; [auto|].
  destruct (negb _ && negb _); [auto|]. destruct (negb _ && negb _); [auto|]. destruct (done_at cn n); [auto|].
  cbn [records_from] in Hw. inversion Hw as [|? ? Hw1 Hw2]; subst.
  destruct (event_same m s ex e Hp Hw1) as [<- H]. destruct (mem_save_event c m s ex e) as [m1 [er|[d r]]].
  - destruct (remove_recent m1 created (ev_atype e) (ev_aid e)) as [m2|] eqn:E; (split; [reflexivity|]); [|exact H]. eapply recent_plain; eassumption.
  - destruct H as (H1 & H2 & H3 & H4). apply IH; [exact H1|apply Forall_app; auto|]. now rewrite H3, H4.
Qed.

Lemma decoded_same ds : Forall unmarked ds -> decoded c ds = decoded patched ds.
Proof. induction 1 as [|d ds H _ IH]; cbn [decoded]; [reflexivity|]. now rewrite (patched_deser d H), IH. Qed.

Lemma delete_plain ids : forall m m', plain_mem m -> delete_loop m ids = Some m' -> plain_mem m'.
Proof.
  induction ids as [|x ids IH]; intros m m' Hp; cbn [delete_loop]; [now intros [= <-]|].
  destruct (remove_in_place _ _); [|discriminate]. destruct (remove_from_types _ _); [|discriminate]. apply IH.
  unfold plain_mem. cbn [m_data]. destruct (existsb _ _); [now apply plain_nset_none|exact Hp].
Qed.

(** The records a call would write. *)
Definition written_by (L : log) (o : op) : list record :=
  match o with OpSave _ s evs _ => appended L s evs | _ => [] end.

Lemma mem_same m L o : R patched m L -> plain_mem m -> Forall works (written_by L o) ->
  mem_step c m o = mem_step patched m o /\ plain_mem (fst (mem_step c m o)).
Proof.
  intros HR Hp Hw. destruct o as [ex s evs cn|ex s cn|g|g ts|k s|s cn]; cbn [mem_step written_by] in *.
  - destruct evs as [|e evs]; [auto|]. destruct (m_locked m); [auto|]. unfold mem_save.
    assert (Hw' : Forall works (records_from s (m_last m) (mem_stream_number m s) (e :: evs))).
    { rewrite (R_last _ _ _ HR), (stream_number _ _ _ s HR). exact Hw. }
    destruct (loop_same s cn (e :: evs) m "" "" ex 0 [] [] 0 Hp (Forall_nil _) Hw') as [<- H].
    destruct (mem_save_loop c m s "" "" ex cn 0 [] [] 0 (e :: evs)) as [m' [last p|er|]].
    + destruct H as [H1 H2]. rewrite (decoded_same _ H2). auto.
    + auto.
    + split; [reflexivity|]. exact H.
  - destruct (done_at cn 0); [auto|]. destruct (m_locked m); [auto|]. split; [reflexivity|]. unfold mem_delete.
    destruct (done_at cn 0); [exact Hp|]. destruct (m_streams m s) as [ids|]; [|exact Hp]. destruct (negb _); [exact Hp|].
    destruct (delete_loop m ids) as [m1|] eqn:E; [|exact Hp]. exact (delete_plain _ _ _ Hp E).
  - destruct (m_locked m); [auto|]. unfold mem_events. now rewrite by_ids_same.
  - destruct (m_locked m && _); [auto|].
    assert (E : mem_by_types c m g ts = mem_by_types patched m g ts).
    { unfold mem_by_types. cbv zeta.
      replace (map (fun t => new_iter (records_by_ids c m (from_gsn g) None true 0 (aget t (m_types m)))) ts)
        with (map (fun t => new_iter (records_by_ids patched m (from_gsn g) None true 0 (aget t (m_types m)))) ts)
        by (apply map_ext; intros t; now rewrite by_ids_same).
      destruct ts as [|t [|]]; try reflexivity. now rewrite by_ids_same. }
    rewrite E. split; [reflexivity|]. now destruct (mem_by_types patched m g ts).
  - destruct (m_locked m); [auto|]. unfold mem_by_stream. destruct (m_streams m s) as [[|]|]; auto. now rewrite by_ids_same.
  - destruct (done_at cn 0); [auto|]. destruct (m_locked m); auto.
Qed.

(** * On disk *)

Definition plain_db (d : db) : Prop := forall k v, In (k, v) d -> unmarked v.

Lemma plain_D d L : D patched d L -> Forall works (l_recs L) -> plain_db d.
Proof.
  intros HD Hw k v Hin. apply (D_entry _ _ _ HD) in Hin. rewrite Forall_forall in Hw.
  destruct Hin as [(_ & -> & _)|(r & Hr & [[_ ->]|[[_ ->]|[_ ->]]])].
  - apply unmarked_short. rewrite u64_length. lia.
  - unfold enc. destruct (Hw r Hr) as (b & Eb & _). rewrite (patched_ser r (Hw r Hr)), Eb. now apply Hm in Eb.
  - reflexivity.
  - reflexivity.
Qed.
Lemma plain_scan p d : plain_db d -> plain_db (scan p d).
Proof. intros H k v Hin. apply filter_In in Hin as [Hin _]. exact (H k v Hin). Qed.
Lemma plain_seek k d : plain_db d -> plain_db (seek k d).
Proof.
  induction d as [|[k' v] d IH]; intros H; [exact H|]. cbn [seek]. destruct (blt k' k); [|exact H]. apply IH. intros x y Hin. apply (H x y). now right.
Qed.
Lemma plain_get k v d : plain_db d -> db_get k d = Some v -> unmarked v.
Proof.
  induction d as [|[k' x] d IH]; intros H; [discriminate|]. cbn [db_get]. destruct (String.eqb k k').
  - intros [= <-]. apply (H k' x). now left.
  - apply IH. intros a b Hin. apply (H a b). now right.
Qed.

Lemma prefix_same k kvs : plain_db kvs -> by_prefix_loop c k kvs = by_prefix_loop patched k kvs.
Proof.
  induction kvs as [|[k' v] kvs IH]; intros H; [reflexivity|]. cbn [by_prefix_loop].
  rewrite (patched_deser v) by (apply (H k' v); now left). rewrite IH; [reflexivity|]. intros a b Hin. apply (H a b). now right.
Qed.
Lemma lookup_same d g kvs : plain_db d -> by_lookup_loop c d g kvs = by_lookup_loop patched d g kvs.
Proof.
  intros H. induction kvs as [|[k' t] kvs IH]; [reflexivity|]. cbn [by_lookup_loop].
  destruct (db_get t d) as [v|] eqn:E; [|reflexivity]. rewrite (patched_deser v) by (eapply plain_get; eassumption). now rewrite IH.
Qed.
Lemma batch_same kvs : plain_db kvs -> delete_batch c kvs = delete_batch patched kvs.
Proof.
  induction kvs as [|[k' v] kvs IH]; intros H; [reflexivity|]. cbn [delete_batch].
  rewrite (patched_deser v) by (apply (H k' v); now left). rewrite IH; [reflexivity|]. intros a b Hin. apply (H a b). now right.
Qed.
Lemma ldb_decoded_same ds : Forall unmarked ds -> ldb_decoded c ds = ldb_decoded patched ds.
Proof. induction 1 as [|d ds H _ IH]; cbn [ldb_decoded]; [reflexivity|]. now rewrite (patched_deser d H), IH. Qed.

Lemma ldb_loop_same s cn : clean s -> forall evs L d at_ ai ex n pending last, D patched d L -> Forall unmarked pending ->
  Forall (fun e => clean (ev_atype e)) evs -> l_last L + N.of_nat (length evs) < two64 -> Forall works (appended L s evs) ->
  ldb_save_loop c d s at_ ai ex cn n pending last evs = ldb_save_loop patched d s at_ ai ex cn n pending last evs
  /\ match snd (ldb_save_loop c d s at_ ai ex cn n pending last evs) with inr (_, pending') => Forall unmarked pending' | _ => True end.
Proof.
  intros Hs. induction evs as [|e evs IH]; intros L d at_ ai ex n pending last HD Hu Hcl Hsm Hw; cbn [ldb_save_loop]; [auto|].
  destruct (negb (String.eqb at_ "") && negb (String.eqb at_ (ev_atype e))); [split; [reflexivity|exact Logic.I]|]. destruct (negb (String.eqb ai "") && negb (String.eqb ai (ev_aid e))); [split; [reflexivity|exact Logic.I]|]. destruct (done_at cn n); [split; [reflexivity|exact Logic.I]|].
  inversion Hcl as [|? ? Hc1 Hc2]; subst. unfold appended in Hw. cbn [records_from] in Hw. inversion Hw as [|? ? Hw1 Hw2]; subst.
  assert (E : ldb_save_event c d s ex e = ldb_save_event patched d s ex e).
  { unfold ldb_save_event. rewrite (stream_number_ok _ d L s HD Hs), (global_number_ok _ d L HD). cbv zeta.
    unfold record_at in Hw1. now rewrite (patched_ser _ Hw1). }
  rewrite E. destruct (ldb_save_event patched d s ex e) as [er|[[bs data] ssn]] eqn:E1; [split; [reflexivity|exact Logic.I]|].
  assert (K : exists data', ser c (record_at s (l_last L + 1) (stream_length s L + 1) e) = Some data' /\ data = data'
     /\ bs = save_batch (record_at s (l_last L + 1) (stream_length s L + 1) e) data').
  { unfold ldb_save_event in E1. rewrite (stream_number_ok _ d L s HD Hs), (global_number_ok _ d L HD) in E1. cbv zeta in E1.
    destruct (match ex with Some x => if x =? stream_length s L then None else Some (EUnexpectedSeq x (stream_length s L)) | None => None end); [discriminate|].
    fold (record_at s (l_last L + 1) (stream_length s L + 1) e) in E1. rewrite (patched_ser _ Hw1) in E1.
    destruct (ser c _) as [x|]; [|discriminate]. injection E1 as <- <- _. exists x. split; [reflexivity|]. split; reflexivity. }
  destruct K as (data' & Es & -> & ->).
  assert (HD' : D patched (apply_batch d (save_batch (record_at s (l_last L + 1) (stream_length s L + 1) e) data')) (append_log L s [e])).
  { apply D_save; auto; [cbn [length] in Hsm; lia|]. rewrite <- Es. now apply patched_ser. }
  destruct (IH (append_log L s [e]) _ (ev_atype e) (ev_aid e) (match ex with Some y => Some (y + 1) | None => None end) (S n) (pending ++ [data']) ssn HD') as [-> H].
  - apply Forall_app. split; [exact Hu|]. constructor; [|constructor]. now apply Hm in Es.
  - exact Hc2.
  - cbn [append_log l_last length] in *. lia.
  - unfold appended. cbn [append_log l_last length]. rewrite stream_length_append. exact Hw2.
  - destruct (ldb_save_loop patched _ s (ev_atype e) (ev_aid e) _ cn (S n) (pending ++ [data']) ssn evs) as [ms x]. auto.
Qed.

Lemma ldb_call_same d L o : D patched d L -> Forall works (l_recs L) -> clean_call o -> l_last L + added o < two64 -> Forall works (written_by L o) ->
  ldb_call c d o = ldb_call patched d o.
Proof.
  intros HD HL Hcl Hsm Hw. pose proof (plain_D d L HD HL) as Hp.
  destruct o as [ex s evs cn|ex s cn|g|g ts|k s|s cn]; cbn [ldb_call].
  - unfold ldb_save. destruct Hcl as (Hs & Hc & _).
    destruct (ldb_loop_same s cn Hs evs L d "" "" ex 0 [] 0 HD (Forall_nil _) Hc Hsm Hw) as [<- H].
    destruct (ldb_save_loop c d s "" "" ex cn 0 [] 0 evs) as [ms [er|[last p]]]; [reflexivity|]. cbn [snd] in H. now rewrite (ldb_decoded_same p H).
  - unfold ldb_delete. now rewrite (batch_same _ (plain_scan _ _ Hp)).
  - unfold events_by_lookup. now rewrite lookup_same.
  - unfold ldb_by_types. cbv zeta.
    replace (map (fun t => new_iter (events_by_lookup c d (type_prefix t) g)) ts)
      with (map (fun t => new_iter (events_by_lookup patched d (type_prefix t) g)) ts)
      by (apply map_ext; intros t; unfold events_by_lookup; now rewrite lookup_same).
    destruct ts as [|t [|]]; try reflexivity. unfold events_by_lookup. now rewrite lookup_same.
  - unfold events_by_prefix. destruct (scan (stream_prefix s) d) eqn:E; [reflexivity|]. rewrite <- E. now rewrite (prefix_same _ _ (plain_scan _ _ Hp)).
  - reflexivity.
Qed.

Lemma ldb_same_any st L o : D patched (h_db (s_h st)) L -> Forall works (l_recs L) -> clean_call o -> l_last L + added o < two64 -> Forall works (written_by L o) ->
  ldb_step c st o = ldb_step patched st o /\ forall k, ldb_crash c st o k = ldb_crash patched st o k.
Proof. intros HD HL Hcl Hsm Hw. unfold ldb_step, ldb_crash. now rewrite (ldb_call_same _ L o HD HL Hcl Hsm Hw). Qed.
Lemma ldb_same d L o stuck : D patched d L -> Forall works (l_recs L) -> clean_call o -> l_last L + added o < two64 -> Forall works (written_by L o) ->
  ldb_step c (mk_ldb (quiet d) stuck) o = ldb_step patched (mk_ldb (quiet d) stuck) o.
Proof. intros. eapply (ldb_same_any (mk_ldb (quiet d) stuck)); eassumption. Qed.
End Patch.
