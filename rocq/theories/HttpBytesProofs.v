(** Proofs for C102: the bytes of the HTTP server's answers. *)
From Coq Require Import ZArith.
From Verif Require Import Base Core CoreSpec CoreProofs LogSpec LogProofs StoreSpec InMemory InMemoryProofs
  DecText Text PathSpec PathProofs NumberSpec NumberProofs Json JsonSpec JsonProofs JsonText JsonTextSpec JsonTextProofs JsonGrammar JsonGrammarProofs JsonGrammarReads
  RecordIo RecordIoSpec RecordIoProofs JsonRecordSpec JsonRecordProofs Properties_JsonGrammar Remote Http HttpSpec HttpProofs HttpRouteProofs HttpStorySpec HttpStoryProofs
  LevelDB LevelDBSpec LevelDBProofs HttpBytes HttpBytesSpec HttpBytesJson PatchCodec.
Import RecordIo JsonGrammar HttpStorySpec.
Open Scope string_scope.
Open Scope list_scope.
Open Scope N_scope.

Lemma unmarked_json show r b : ser (json_serializer show) r = Some b -> unmarked b.
Proof.
  cbn [json_serializer ser]. destruct (entry_of r) as [e|]; [|discriminate]. unfold marshal. destruct (numbers_ok _); [|discriminate].
  intros E. destruct (RecordIoProofs.text_head show e) as (t & E'). unfold RecordIoProofs.text_of in E'.
  assert (b = String "{" t) by congruence. subst b. reflexivity.
Qed.

Section Engine.
Variables (of_lit : string -> float) (show : float -> num) (packed : list entry -> string).
Definition back_of (n : num) : num := show (float_of of_lit n).
Hypothesis Hback : forall n, number n -> number (back_of n).

Notation keep j := (text_of_value show (decode of_lit false j)).

(** The record in the store and the note in the notebook. *)
Definition matches (r : record) (n : note) : Prop :=
  (r_stream r = n_stream n /\ r_ssn r = n_ssn n /\ r_gsn r = n_gsn n /\ r_atype r = ce_atype (n_event n) /\ r_aid r = ce_aid (n_event n)
   /\ r_etype r = ce_etype (n_event n) /\ r_data r = keep (ce_data (n_event n)) /\ r_meta r = keep (ce_meta (n_event n))
   /\ r_eid r = n_id n /\ r_ts r = n_time n)
  /\ is_text (r_stream r) /\ is_text (r_eid r) /\ r_ts r < 2 ^ 64 /\ r_ssn r < 2 ^ 64 /\ r_gsn r < 2 ^ 64
  /\ fit_event (n_event n) /\ ce_data (n_event n) <> JNull.

Definition entry_for (r : record) (n : note) : entry :=
  mk_entry (r_stream r) (r_atype r) (r_aid r) (r_gsn r) (r_ssn r) (r_ts r) (r_eid r) (r_etype r)
    (Value (freeze show (decode of_lit false (ce_data (n_event n))))) (freeze show (decode of_lit false (ce_meta (n_event n)))).

Lemma matches_entry r n : matches r n ->
  entry_of r = Some (entry_for r n) /\ ordinary no_types (entry_for r n) /\ record_of show (entry_for r n) = r
  /\ shows back_of (record_tree show (entry_for r n)) n /\ nesting (record_tree show (entry_for r n)) + 1 <= 10000.
Proof.
  intros ((E1 & E2 & E3 & E4 & E5 & E6 & E7 & E8 & E9 & E10) & T1 & T2 & B1 & B2 & B3 & (F1 & F2 & F3 & F4 & F5) & Hn).
  destruct (stored_reads of_lit show Hback _ F4) as [D1 D2]. destruct (stored_reads of_lit show Hback _ F5) as [M1 M2].
  pose proof (decode_levels of_lit show Hback (ce_data (n_event n))) as L1. pose proof (decode_levels of_lit show Hback (ce_meta (n_event n))) as L2.
  destruct F4 as [S4 N4]. destruct F5 as [S5 N5].
  split; [|split; [|split; [|split]]].
  - unfold entry_of. now rewrite E7, E8, D1, M1, D2, M2.
  - unfold ordinary, entry_for. cbn [e_stream e_atype e_aid e_eid e_etype e_gsn e_ssn e_ts e_meta e_data].
    rewrite E4, E5, E6. repeat (split; [assumption|]).
    split; [now apply (decode_carried of_lit show Hback)|]. split; [rewrite freeze_levels; lia|].
    cbn [data_of_type no_types]. split; [|split; [now apply (decode_carried of_lit show Hback)|rewrite freeze_levels; lia]].
    intros K. apply freeze_nil in K. apply Hn. destruct (ce_data (n_event n)); cbn in K; congruence.
  - unfold record_of, entry_for, text_of_value. cbn [e_stream e_atype e_aid e_eid e_etype e_gsn e_ssn e_ts e_meta e_data payload_tree].
    rewrite !encode_freeze. fold (keep (ce_data (n_event n))). fold (keep (ce_meta (n_event n))). rewrite <- E7, <- E8. now destruct r.
  - unfold record_tree, entry_for. cbn [e_stream e_atype e_aid e_eid e_etype e_gsn e_ssn e_ts e_meta e_data payload_tree].
    rewrite !encode_freeze, E1, E2, E3, E4, E5, E6, E9, E10. do 2 eexists. split; [reflexivity|]. split; apply decode_echoes.
  - unfold record_tree, entry_for. cbn [e_stream e_atype e_aid e_eid e_etype e_gsn e_ssn e_ts e_meta e_data payload_tree nesting map fold_right snd].
    rewrite !encode_nesting, !freeze_levels. lia.
Qed.

Lemma matches_works r n : matches r n -> works (json_serializer show) r.
Proof.
  intros H. destruct (matches_entry r n H) as (E1 & Ho & E2 & _). exists (RecordIoProofs.text_of show (entry_for r n)). split.
  - cbn [json_serializer ser]. rewrite E1. exact (marshal_ok show no_types _ Ho).
  - cbn [json_serializer deser]. pose proof (read_entry show no_types _ "" Ho) as R. rewrite app_nil_s in R. rewrite R.
    rewrite (unmarshal_back show no_types _ Ho). now rewrite E2.
Qed.

(** * Pages *)

Lemma entries_match rs ns : Forall2 matches rs ns -> exists es, entries_of rs = es /\ Forall (ordinary no_types) es
  /\ Forall2 (shows back_of) (map (record_tree show) es) ns /\ Forall (fun e => nesting (record_tree show e) + 1 <= 10000) es.
Proof.
  induction 1 as [|r n rs ns H _ (es & E & Ho & Hs & Hn)].
  - exists []. repeat split; constructor.
  - destruct (matches_entry r n H) as (E1 & O1 & _ & S1 & N1). exists (entry_for r n :: es). cbn [entries_of map]. rewrite E1, E. repeat split; auto.
Qed.

Lemma array_printed es : ("[" ++ jdoc show es)%string = JsonText.print (JArr (map (record_tree show) es)).
Proof.
  destruct es as [|e es]; [reflexivity|]. cbn [map JsonText.print jdoc]. do 2 f_equal.
  induction es as [|x es IH]; [reflexivity|]. cbn [map jtail]. rewrite IH. reflexivity.
Qed.

Lemma body_page rs ns : Forall2 matches rs ns ->
  (exists os, text_of 10000 (JArr os) (body_of show packed "json" rs) /\ Forall2 (shows back_of) os ns)
  /\ (exists os, series os (body_of show packed "ndjson" rs) /\ Forall2 (shows back_of) os ns).
Proof.
  intros H. destruct (entries_match rs ns H) as (es & E & Ho & Hs & Hn). unfold body_of. cbn [String.eqb Ascii.eqb Bool.eqb]. rewrite E.
  split; exists (map (record_tree show) es); (split; [|exact Hs]).
  - rewrite (json_write_ok show no_types es Ho). cbn [fst]. rewrite array_printed. apply C101_written.
    + constructor. intros x Hx. apply in_map_iff in Hx as (e & <- & He). rewrite Forall_forall in Ho. apply (record_sound show no_types e). now apply Ho.
    + cbn [nesting]. assert (fold_right N.max 0 (map nesting (map (record_tree show) es)) <= 9999); [|lia]. rewrite map_map.
      apply (max_le (fun e => nesting (record_tree show e))). eapply Forall_impl; [|exact Hn]. cbn beta. intros; lia.
  - rewrite (ndjson_write_ok show no_types es Ho). cbn [fst].
    assert (T : forall e, In e es -> text_of 10000 (record_tree show e) (RecordIoProofs.text_of show e)).
    { intros e He. rewrite Forall_forall in Ho, Hn. apply C101_written; [apply (record_sound show no_types e); now apply Ho|]. pose proof (Hn e He). cbn beta in *. lia. }
    clear - T. destruct es as [|e es]; [apply series_end; constructor|]. cbn [map ndoc].
    change (RecordIoProofs.text_of show e ++ ntail show es)%string with ("" ++ RecordIoProofs.text_of show e ++ ntail show es)%string.
    apply series_more; [constructor|apply T; now left|discriminate|]. assert (T' : forall x, In x es -> text_of 10000 (record_tree show x) (RecordIoProofs.text_of show x)) by (intros; apply T; now right).
    clear T. induction es as [|x es IH]; [apply series_end; constructor|]. cbn [map ntail].
    apply series_more; [|apply T'; now left|discriminate|apply IH; intros; apply T'; now right].
    unfold newline, blanks. cbn. constructor; [|constructor]. cbn. auto.
Qed.

(** * New records *)

Lemma new_matches name st : is_text name -> (forall i, is_text (fst (st i)) /\ snd (st i) < 2 ^ 64) -> forall es i g k,
  Forall fit_event es -> Forall (fun e => ce_data e <> JNull) es -> g + N.of_nat (length es) < 2 ^ 64 -> k + N.of_nat (length es) < 2 ^ 64 ->
  Forall2 matches (LogSpec.records_from name g k (stamped (text_of_value show) st i (map (raw_event of_lit) es))) (numbered name st i k g es).
Proof.
  intros Hname Hst. induction es as [|e es IH]; intros i g k Hf Hd Hg Hk; cbn [map stamped LogSpec.records_from numbered]; [constructor|].
  inversion Hf as [|? ? F1 F2]; subst. inversion Hd as [|? ? D1 D2]; subst. cbn [length] in Hg, Hk. constructor; [|apply IH; auto; lia].
  destruct (Hst i) as [S1 S2].
  split; [repeat split|]. unfold record_at, event_of. cbn [r_stream r_eid r_ts r_ssn r_gsn ev_uuid ev_now n_event]. repeat (split; [assumption || lia|]). exact D1.
Qed.

(** * The notebook and the log *)

Definition pairs (bk : book) (b : notebook) : Prop := given bk = total b /\ Forall2 matches (events bk) (notes b).

Lemma f2_filter (P : record -> bool) (Q : note -> bool) rs ns : (forall r n, matches r n -> P r = Q n) ->
  Forall2 matches rs ns -> Forall2 matches (filter P rs) (filter Q ns).
Proof. intros H. induction 1 as [|r n rs ns Hm _ IH]; cbn [filter]; [constructor|]. rewrite (H r n Hm). destruct (Q n); auto. Qed.
Lemma f2_length {A B} (P : A -> B -> Prop) l l' : Forall2 P l l' -> length l = length l'.
Proof. induction 1; cbn; congruence. Qed.

Lemma pairs_stream bk b name : pairs bk b -> Forall2 matches (stream_of name bk) (notes_of name b).
Proof. intros [_ H]. apply f2_filter; [|exact H]. intros r n ((-> & _) & _). reflexivity. Qed.
Lemma pairs_size bk b name : pairs bk b -> size name bk = how_many name b.
Proof. intros H. unfold size, how_many. now rewrite (f2_length _ _ _ (pairs_stream _ _ name H)). Qed.

(** * Formats *)

Lemma dotted_unique q p e p' e' : lacks "." e = true -> lacks "." e' = true -> spelled q (p ++ "." ++ e)%string -> spelled q (p' ++ "." ++ e')%string -> e = e'.
Proof.
  intros He He' H H'. apply spelled_unescape in H. apply spelled_unescape in H'. rewrite H in H'. assert (K : (p ++ "." ++ e)%string = (p' ++ "." ++ e')%string) by congruence. clear H'.
  pose proof (cut_dot p e He) as C. pose proof (cut_dot p' e' He') as C'. rewrite K in C. congruence.
Qed.
Lemma ext_lacks e : ext_of e -> lacks "." e = true.
Proof. intros [<-|[<-|[<-|[]]]]; reflexivity. Qed.

Lemma format_read q b w e : says (with_body q b) w -> ext_of e -> in_format q e ->
  match w with GetStream _ | GetAll | GetTypes _ => True | _ => False end -> format_of (w_path q) = e.
Proof.
  intros H He (p & Hp) Hw. unfold format_of. change (w_path q) with (q_path (with_body q b)) in *.
  destruct w as [name ex es|name n|name| |ts|]; try contradiction; cbn [says] in H.
  - destruct H as (H0 & Hn & e' & He' & Ha). rewrite (route_stream _ name e') by (assumption || now apply ext_extension).
    apply (dotted_unique (w_path q) ("/events-by-stream/" ++ name) e' p e); [apply ext_lacks; exact He'|apply ext_lacks; exact He| |exact Hp].
    unfold addressed in Ha. rewrite !app_assoc_s. exact Ha.
  - destruct H as (e' & He' & Ha).
    assert (R : route_of (q_path (with_body q b)) = Some (ToAll e')).
    { unfold route_of. rewrite (spelled_unescape _ _ Ha). destruct He' as [<-|[<-|[<-|[]]]]; reflexivity. }
    rewrite R. eapply (dotted_unique _ "/all-events"); [apply ext_lacks; exact He'|apply ext_lacks; exact He|exact Ha|exact Hp].
  - destruct H as (_ & H0 & Hn & Hj & e' & He' & Ha). rewrite (route_types _ ts e') by (assumption || now apply ext_extension).
    apply (dotted_unique (w_path q) ("/events-by-aggregate-type/" ++ join "," ts) e' p e); [apply ext_lacks; exact He'|apply ext_lacks; exact He| |exact Hp].
    unfold addressed in Ha. rewrite !app_assoc_s. exact Ha.
Qed.

(** What is written on an answer. *)
Definition in_bytes (q : wire) (a : answer) : reply_bytes :=
  match a with
  | Answer status body => Bytes status body
  | Records rs => Bytes 200 (body_of show packed (format_of (w_path q)) rs)
  | NoAnswer => Silence
  end.

Lemma wants_says q w : wants q w -> says (request_of q) w.
Proof.
  intros [(b & Hb & Hs) _]. unfold request_of.
  destruct w as [name ex es|name n|name| |ts|]; try exact Hs; rewrite (carries_body _ _ Hb); exact Hs.
Qed.

Lemma wants_fit q name ex es : wants q (Post name ex es) -> is_text name /\ Forall fit_event es /\ Forall (fun e => ce_data e <> JNull) es.
Proof.
  intros [(b & Hb & Hs) [Hn Hd]]. split; [exact Hn|]. split; [|exact Hd].
  destruct Hs as (_ & _ & _ & _ & (l & Eb & Hl) & _). cbn in Eb. subst b. exact (posted_fit _ _ _ Hb Hl).
Qed.

Lemma read_page q w rs ns b : says (with_body q b) w -> Forall2 matches rs ns ->
  match w with GetStream _ | GetAll | GetTypes _ => True | _ => False end ->
  page back_of q ns (body_of show packed (format_of (w_path q)) rs).
Proof.
  intros Hs Hm Hw. destruct (body_page rs ns Hm) as [P1 P2].
  split; intros Hf.
  - rewrite (format_read q b w "json" Hs (or_introl eq_refl) Hf Hw). exact P1.
  - rewrite (format_read q b w "ndjson" Hs (or_intror (or_introl eq_refl)) Hf Hw). exact P2.
Qed.

Notation c' := (patched (json_serializer show)).
Notation call q w := (call_of of_lit (text_of_value show) (request_of q) w).

Lemma written_works L b q w : pairs (book_of L) b -> log_ok L -> wants q w -> sane_stamps q -> l_last L + new_events w < 2 ^ 64 ->
  (forall name ex es, w = Post name ex es -> Forall2 matches (appended L name (stamped (text_of_value show) (w_stamp q) 0 (map (raw_event of_lit) es)))
      (numbered name (w_stamp q) 0 (how_many name b) (total b) es))
  /\ Forall (works (json_serializer show)) (written_by L (call q w)).
Proof.
  intros HP Hok Hq Hs Hl.
  assert (G : forall name ex es, w = Post name ex es -> Forall2 matches (appended L name (stamped (text_of_value show) (w_stamp q) 0 (map (raw_event of_lit) es)))
      (numbered name (w_stamp q) 0 (how_many name b) (total b) es)).
  { intros name ex es ->. destruct (wants_fit q name ex es Hq) as (Hn & Hf & Hd). unfold appended.
    rewrite <- (pairs_size _ _ name HP). replace (total b) with (l_last L) by apply HP.
    change (size name (book_of L)) with (stream_length name L). cbn [new_events] in Hl. pose proof (stream_length_le L name Hok).
    apply new_matches; auto; lia. }
  split; [exact G|]. destruct w as [name ex es|name n|name| |ts|]; cbn [call_of written_by]; try constructor.
  specialize (G name ex es eq_refl). change (q_stamp (request_of q)) with (w_stamp q).
  clear - G Hback. induction G as [|r n rs ns Hm _ IH]; constructor; [now apply (matches_works r n)|exact IH].
Qed.

Lemma log_answers L b q w x y : pairs (book_of L) b -> log_ok L -> wants q w -> sane_stamps q -> l_last L + new_events w < 2 ^ 64 -> w <> Nonsense ->
  log_step c' L (call q w) x (log_after L (call q w) x) -> agrees (call q w) x y ->
  (exists b', answered back_of b q w (in_bytes q (reply w y)) b' /\ pairs (book_of (log_after L (call q w) x)) b')
  /\ l_last (log_after L (call q w) x) <= l_last L + new_events w
  /\ (match w, y with Post _ _ _, (OutSaved _ _ | OutFailed _) => True | Delete _ _, (OutDeleted | OutFailed _) => True
      | (GetStream _ | GetAll | GetTypes _), OutResults _ => True | _, _ => False end).
Proof.
  intros HP Hok Hq Hst Hl Hw Hs Ha. pose proof (wants_says q w Hq) as Hsays.
  destruct (log_serves of_lit (text_of_value show) c' L (request_of q) w x y (patched_total _) Hsays Hw Hs Ha) as [S S2].
  destruct (written_works L b q w HP Hok Hq Hst Hl) as [Hnew _].
  change (l_last (log_after L (call q w) x)) with (given (book_of (log_after L (call q w) x))).
  rewrite <- and_assoc. split; [|exact S2].
  assert (HP' := HP). destruct HP' as [HPg HPe].
  destruct Hq as [(bb & Hb & Hsb) _].
  remember (book_of (log_after L (call q w) x)) as bk' eqn:Ebk. remember (reply w y) as a eqn:Ea.
  destruct S as [name ex es new g body Hex Hsaid Hssn Hgsn Hg Htell|name k es body Hk Htell|name n body Hn Htell|name n body Hn Htell|name n body Hn|name| |ts|body];
    cbn [in_bytes given new_events].
  - assert (En : new = appended L name (stamped (text_of_value show) (w_stamp q) 0 (map (raw_event of_lit) es))).
    { destruct Ha as [<-|[]]. cbn [call_of] in *. destruct x as [m rs|er| | | | |]; try (destruct er); try discriminate Ea. cbn [log_after] in Ebk. unfold book_of, append_log in Ebk.
      injection Ebk as Ebk _. cbn [events] in Ebk. exact (app_inv_head _ _ _ Ebk). }
    split; [|rewrite Hg; cbn [given book_of]; lia].
    eexists. split.
    + apply a_posted; [|].
      * rewrite <- (pairs_size _ _ name HP). exact Hex.
      * rewrite <- (pairs_size _ _ name HP). exact Htell.
    + split; cbn [given events total notes].
      * rewrite Hg, HPg. reflexivity.
      * apply Forall2_app; [exact HPe|]. rewrite En. now apply (Hnew name ex es).
  - split; [|cbn [given book_of]; lia]. exists b. split; [|exact HP]. apply a_not_posted; rewrite <- (pairs_size _ _ name HP); assumption.
  - split; [|cbn [given book_of]; lia]. eexists. split; [apply a_deleted; [rewrite <- (pairs_size _ _ name HP); exact Hn|exact Htell]|].
    split; [exact HPg|]. cbn [events notes]. apply f2_filter; [|exact HPe]. intros r k ((-> & _) & _). reflexivity.
  - split; [|cbn [given book_of]; lia]. exists b. split; [|exact HP]. apply a_not_deleted; rewrite <- (pairs_size _ _ name HP); assumption.
  - split; [|cbn [given book_of]; lia]. exists b. split; [|exact HP]. apply a_nothing_to_delete. pose proof (pairs_stream _ _ name HP) as K. rewrite Hn in K. now inversion K.
  - split; [|cbn [given book_of]; lia]. exists b. split; [|exact HP]. apply a_stream. eapply read_page; [exact Hsb|now apply pairs_stream|exact Logic.I].
  - split; [|cbn [given book_of]; lia]. exists b. split; [|exact HP]. apply a_all. eapply read_page; [exact Hsb|exact HPe|exact Logic.I].
  - split; [|cbn [given book_of]; lia]. exists b. split; [|exact HP]. apply a_types. eapply read_page; [exact Hsb| |exact Logic.I].
    apply f2_filter; [|exact HPe]. intros r k ((_ & _ & _ & -> & _) & _). reflexivity.
  - congruence.
Qed.
End Engine.
