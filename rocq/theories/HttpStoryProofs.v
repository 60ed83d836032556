(** Proofs for C98: the server and the list of events. *)
From Verif Require Import Base Core CoreSpec CoreProofs LogSpec LogProofs StoreSpec InMemory InMemoryProofs
  DecText Text PathSpec PathProofs NumberSpec NumberProofs Json Remote Http HttpSpec HttpProofs HttpRouteProofs HttpStorySpec Properties_Http.
Open Scope string_scope.
Open Scope list_scope.
Open Scope N_scope.

Section Story.
Variables (of_lit : string -> float) (print : goval -> string).
Definition stored (j : json) : string := print (decode of_lit false j).

Definition call_of (q : request) (w : wish) : op :=
  match w with
  | Post name ex es => OpSave ex name (stamped print (q_stamp q) 0 (map (raw_event of_lit) es)) None
  | Delete name n => OpDelete n name None
  | GetStream name => OpByStream 0 name
  | GetAll => OpEvents 0
  | GetTypes ts => OpByTypes 0 ts
  | Nonsense => OpEvents 0
  end.

Definition reply (w : wish) (x : out) : answer :=
  match w, x with
  | Post _ _ _, OutSaved n _ => succeeded 201 "streamSequenceNumber" n
  | Post _ _ _, OutFailed (EUnexpectedSeq e a) => failed 409 (unexpected_text e a)
  | Post _ _ _, OutFailed _ => failed 500 "internal server error"
  | Delete _ n, OutDeleted => succeeded 200 "eventsDeleted" n
  | Delete _ _, OutFailed (EUnexpectedSeq e a) => failed 409 (unexpected_text e a)
  | Delete _ _, OutFailed EStreamNotFound => failed 404 "stream not found"
  | Delete _ _, OutFailed _ => failed 500 "internal server error"
  | GetStream _, OutResults l | GetAll, OutResults l | GetTypes _, OutResults l => Records (before_error l)
  | _, _ => NoAnswer
  end.

Variables (St : Type) (store : St -> op -> St * out).

Lemma expects_header q x : expects (q_expected q) x -> expected_header q = Some x.
Proof.
  unfold expects, expected_header. destruct x as [n|]; intros H; [|now rewrite H].
  rewrite (proj2 (String.eqb_neq _ "")) by apply H. apply parse_reads in H. now rewrite H.
Qed.

Lemma ext_extension e : ext_of e -> extension e = true.
Proof. intros [<-|[<-|[<-|[]]]]; reflexivity. Qed.

Lemma http_calls s q w s' x : says q w -> w <> Nonsense -> store s (call_of q w) = (s', x) ->
  (match w, x with Post _ _ _, (OutSaved _ _ | OutFailed _) => True | Delete _ _, (OutDeleted | OutFailed _) => True
   | (GetStream _ | GetAll | GetTypes _), OutResults _ => True | _, _ => False end) ->
  http_step of_lit print St store s q = (s', reply w x).
Proof.
  intros H Hw E Hx. destruct w as [name ex es|name n|name| |ts|]; cbn [says call_of] in *.
  - destruct H as (Hn & Ha & Hct & Hcn & Hd & Hne & Hag & Hex).
    unfold http_step. rewrite (route_save q name Hn Ha). unfold save_events.
    rewrite Hct, String.eqb_refl. cbn [negb].
    rewrite (described_body of_lit print q es Hd), (expects_header q ex Hex), Hcn, E. now destruct x as [| [] | | | | |].
  - destruct H as (Hn & Ha & Hcn & Hex). unfold http_step. rewrite (route_delete q name Hn Ha). unfold delete_stream.
    assert (exists ex, expected_header q = Some ex /\ match ex with Some k => k | None => 0 end = n) as (ex & -> & Ek).
    { destruct Hex as [Hex|[Hex ->]]; [exists (Some n)|exists None]; (split; [now apply expects_header|reflexivity]). }
    rewrite Ek, Hcn, E. now destruct x as [| [] | | | | |].
  - destruct H as (H0 & Hn & e & He & Ha). destruct x; try contradiction.
    now apply (proj1 (C74_readable_partial of_lit print St store s q e He) name s' l).
  - destruct H as (e & He & Ha). destruct x; try contradiction.
    now apply (proj2 (proj2 (C74_readable_partial of_lit print St store s q e He)) s' l).
  - destruct H as (_ & H0 & Hn & Hj & e & He & Ha). destruct x; try contradiction.
    now apply (proj1 (proj2 (C74_readable_partial of_lit print St store s q e He)) ts s' l).
  - congruence.
Qed.

Lemma nonsense_refused s q : no_sense q -> exists body, http_step of_lit print St store s q = (s, Answer 400 body).
Proof.
  intros [H|[(name & Hn & Ha & H)|(name & Hn & Ha & H)]].
  - now apply (proj1 (proj2 (C74_spelling of_lit print St store s))).
  - apply (C38_bad_requests of_lit print St store s name q Hn Ha). intuition.
  - apply (proj1 (C38_delete of_lit print St store s name q Hn Ha)); apply H.
Qed.

(** The book of a log. *)
Definition book_of (L : log) : book := mk_book (l_recs L) (l_last L).

Lemma numbers_from l : forall k, ssn_from k l -> map r_ssn l = count k (length l).
Proof. intros k. apply ssn_from_numbers. Qed.

Lemma stamped_gsn s evs : forall g k, map r_gsn (records_from s g k evs) = count g (length evs).
Proof.
  unfold count. induction evs as [|e evs IH]; intros g k; cbn [records_from map length seq]; [reflexivity|].
  f_equal. rewrite IH, <- (seq_shift _ 1), map_map. apply map_ext. intros i. lia.
Qed.

Lemma all_of (l : list record) : filter (fun r => 0 <=? r_gsn r) l = l.
Proof. apply filter_all. intros r _. apply N.leb_le. lia. Qed.
Lemma all_of_stream (l : list record) : filter (fun r => 0 <=? r_ssn r) l = l.
Proof. apply filter_all. intros r _. apply N.leb_le. lia. Qed.

Lemma refusal_one c cn s t i evs : codec_total c -> cn = None -> (forall e, In e evs -> ev_atype e = t /\ ev_aid e = i) ->
  forall g k n, refusal c cn s t i g k n evs = None.
Proof.
  intros Hc -> H. induction evs as [|e evs IH]; intros g k n; cbn [refusal]; [reflexivity|].
  destruct (H e (or_introl eq_refl)) as [-> ->]. rewrite !String.eqb_refl. cbn [negb done_at].
  destruct (ser c _) eqn:E; [|now apply Hc in E]. apply IH. intros; apply H; now right.
Qed.

Lemma told_ok field n : tells ("{" ++ quoted "status" ++ ":" ++ quoted "OK" ++ "," ++ quoted field ++ ":" ++ dec n ++ "}") (":" ++ dec n ++ "}").
Proof.
  exists ("{" ++ quoted "status" ++ ":" ++ quoted "OK" ++ "," ++ quoted field)%string, "". unfold quoted. rewrite !app_assoc_s. now rewrite app_nil_s.
Qed.
Lemma told_failed e a : tells ("{" ++ quoted "status" ++ ":" ++ quoted "Failed" ++ "," ++ quoted "message" ++ ":" ++ quoted (unexpected_text e a) ++ "}")
  ("unexpected sequence number: " ++ dec e ++ ", actual: " ++ dec a).
Proof.
  exists ("{" ++ quoted "status" ++ ":" ++ quoted "Failed" ++ "," ++ quoted "message" ++ ":" ++ q2)%string, (q2 ++ "}")%string.
  unfold quoted, unexpected_text. now rewrite !app_assoc_s.
Qed.

Lemma log_serves c L q w x y : codec_total c -> says q w -> w <> Nonsense ->
  log_step c L (call_of q w) x (log_after L (call_of q w) x) -> agrees (call_of q w) x y ->
  served stored (book_of L) w (reply w y) (book_of (log_after L (call_of q w) x))
  /\ (match w, y with Post _ _ _, (OutSaved _ _ | OutFailed _) => True | Delete _ _, (OutDeleted | OutFailed _) => True
      | (GetStream _ | GetAll | GetTypes _), OutResults _ => True | _, _ => False end).
Proof.
  intros Hc H Hw Hs Ha.
  destruct w as [name ex es|name n|name| |ts|]; cbn [says call_of] in *; [| | | | |congruence].
  - destruct H as (Hn & _ & _ & _ & _ & Hne & Hag & _).
    set (evs := stamped print (q_stamp q) 0 (map (raw_event of_lit) es)) in *.
    assert (Hl : length evs = length es) by (unfold evs; now rewrite stamped_length, map_length).
    assert (Hone : one_aggregate evs) by now apply stamped_aggregate.
    destruct Ha as [<-|[]]. destruct evs as [|e0 evs0] eqn:Ev; [destruct es; [congruence|discriminate]|]. rewrite <- Ev in *.
    assert (Hr : forall g k n, refusal c None name (ev_atype e0) (ev_aid e0) g k n evs = None).
    { intros. apply refusal_one; auto. intros e He. apply Hone; auto. rewrite Ev. now left. }
    assert (Hsr : save_refused c L ex name evs None =
      match ex with Some k => if N.eqb k (stream_length name L) then None else Some (EUnexpectedSeq k (stream_length name L)) | None => None end).
    { unfold save_refused. rewrite Ev at 1. cbn [done_at]. destruct ex as [k|]; [destruct (N.eqb _ _)|]; auto. }
    inversion Hs as [? ? ? ? ? R0|? ? ? ? ? e last R0 R1| | |? ? ? R0]; subst; [| |discriminate].
    + split; [|exact Logic.I]. cbn [reply log_after]. unfold book_of, append_log. cbn [l_recs l_last].
      rewrite Hl. apply posted; cbn [events given].
      * rewrite Hsr in R0. destruct ex as [k|]; [|now left]. right. destruct (N.eqb_spec k (stream_length name L)); [|discriminate]. now f_equal.
      * unfold appended, evs. apply stored_content.
      * unfold appended. rewrite (numbers_from _ _ (records_from_ssn name evs _ _)), records_from_length, Hl. reflexivity.
      * unfold appended. now rewrite stamped_gsn, Hl.
      * reflexivity.
      * apply told_ok.
    + rewrite Hsr in R0. destruct ex as [k|]; [|discriminate]. destruct (N.eqb_spec k (stream_length name L)) as [|Hk]; [discriminate|].
      injection R0 as <-. split; [|exact Logic.I]. cbn [reply log_after burnt]. unfold book_of. cbn [l_recs l_last].
      apply not_posted; [exact Hk|]. apply told_failed.
  - clear H. assert (E0 : stream_length name L = 0 -> stream_of name (book_of L) = []).
    { unfold stream_length. change (stream_of name (book_of L)) with (of_stream name L). destruct (of_stream name L); [reflexivity|]. cbn [length]. lia. }
    assert (D : agrees (OpDelete n name None) x y -> (stream_length name L = 0 -> x = OutFailed EStreamNotFound) ->
      (x = y \/ (stream_length name L = 0 /\ y = if N.eqb n 0 then OutDeleted else OutFailed (EUnexpectedSeq n 0)))).
    { intros [<-|K] _; [now left|]. right. inversion Hs as [| | |? ? ? ? e R0|? ? ? R0]; subst; try contradiction; [|discriminate R0].
      destruct e; try contradiction. cbn [log_after] in *. split; [|exact K]. unfold delete_refused in R0. cbn [done_at] in R0.
      destruct (N.eqb_spec (stream_length name L) 0); [assumption|]. destruct (N.eqb n (stream_length name L)); discriminate R0. }
    inversion Hs as [| |? ? ? ? R0|? ? ? ? e R0|]; subst; [| |discriminate]; cbn [log_after] in *; unfold delete_refused in R0; cbn [done_at] in R0;
      destruct (N.eqb_spec (stream_length name L) 0) as [Z|Z]; try discriminate.
    + destruct (N.eqb_spec n (stream_length name L)) as [Hk|]; [|discriminate].
      destruct Ha as [<-|[]]. split; [|exact Logic.I]. cbn [reply log_after]. unfold book_of, remove_stream. cbn [l_recs l_last].
      apply (deleted stored (mk_book (l_recs L) (l_last L)) name n); [exact Hk|]. apply told_ok.
    + injection R0 as <-. cbn [log_after]. destruct (D Ha) as [<-|[_ ->]]; [now intros|split; [|exact Logic.I]; cbn [reply]; apply nothing_to_delete; auto|].
      destruct (N.eqb_spec n 0) as [->|Hk]; (split; [|exact Logic.I]); cbn [reply].
      * replace (book_of L) with (mk_book (filter (fun r => negb (String.eqb (r_stream r) name)) (events (book_of L))) (given (book_of L))) at 2.
        { apply deleted; [symmetry; exact Z|apply told_ok]. }
        unfold book_of. cbn [events given]. f_equal. pose proof (remove_absent L name (E0 Z)) as K.
        apply (f_equal l_recs) in K. exact K.
      * apply not_deleted; [change (size name (book_of L)) with (stream_length name L); now rewrite Z|].
        change (size name (book_of L)) with (stream_length name L). rewrite Z. apply told_failed.
    + destruct (N.eqb_spec n (stream_length name L)) as [|Hk]; [discriminate|]. injection R0 as <-.
      destruct Ha as [<-|[]]. split; [|exact Logic.I]. cbn [reply log_after]. apply not_deleted; [exact Hk|apply told_failed].
  - inversion Hs as [| | | |? ? ? R0]; subst. cbn [read_result] in R0. injection R0 as <-. destruct Ha as [<-|[]].
    split; [|exact Logic.I]. cbn [reply log_after].
    replace (before_error _) with (stream_of name (book_of L)); [apply got_stream|].
    change (stream_of name (book_of L)) with (of_stream name L). unfold stream_length.
    destruct (of_stream name L) eqn:E; [reflexivity|]. cbn [length]. rewrite (proj2 (N.eqb_neq _ 0)) by lia.
    rewrite before_error_map. unfold log_by_stream. now rewrite all_of_stream, E.
  - inversion Hs as [| | | |? ? ? R0]; subst. cbn [read_result] in R0. injection R0 as <-. destruct Ha as [<-|[]].
    split; [|exact Logic.I]. cbn [reply log_after]. rewrite before_error_map. unfold log_events. rewrite all_of. apply got_all.
  - inversion Hs as [| | | |? ? ? R0]; subst. cbn [read_result] in R0. injection R0 as <-. destruct Ha as [<-|[]].
    split; [|exact Logic.I]. cbn [reply log_after]. rewrite before_error_map.
    replace (log_by_types 0 ts L) with (filter (fun r => if in_dec string_dec (r_atype r) ts then true else false) (events (book_of L))); [apply got_types|].
    cbn [events book_of]. unfold log_by_types. apply filter_ext. intros r. rewrite (proj2 (N.leb_le 0 _)) by lia. cbn [andb].
    unfold memb. destruct (in_dec string_dec (r_atype r) ts) as [i|i].
    + symmetry. apply existsb_exists. eexists. split; [exact i|]. apply String.eqb_refl.
    + symmetry. destruct (existsb _ _) eqn:E; [|reflexivity]. apply existsb_exists in E as (t & Ht & Et). apply String.eqb_eq in Et. subst t. contradiction.
Qed.
End Story.
