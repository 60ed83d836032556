(** C104: the bytes of the HTTP server in front of LevelDB, in a process that may die. *)
From Coq Require Import ZArith.
From Verif Require Import Base Core CoreSpec CoreProofs LogSpec LogProofs StoreSpec
  InMemory DecText Text PathSpec PathProofs NumberSpec NumberProofs Json JsonSpec JsonProofs JsonText JsonTextSpec JsonTextProofs JsonGrammar JsonGrammarProofs JsonGrammarReads
  RecordIo RecordIoSpec RecordIoProofs JsonRecordSpec Properties_JsonGrammar Remote Http HttpSpec HttpProofs HttpStorySpec HttpStoryProofs Properties_Http
  LevelDB LevelDBSpec LevelDBProofs LevelDBRun Properties_LevelDB Properties_HttpStory HttpCrash HttpCrashSpec Properties_HttpCrash
  HttpBytes HttpBytesSpec HttpBytesJson PatchCodec HttpBytesProofs Properties_HttpBytes HttpBytesCrash HttpBytesCrashSpec.
Import RecordIo JsonGrammar HttpStorySpec HttpBytesSpec.
Open Scope string_scope.
Open Scope list_scope.
Open Scope N_scope.

Section Chronicles.
Variables (of_lit : string -> float) (show : float -> num) (packed : list entry -> string).
Hypothesis Hback : forall n, number n -> number (show (float_of of_lit n)).
Notation js := (json_serializer show).
Notation back := (fun n => show (float_of of_lit n)).

Lemma chronicle_ok ms cs : Forall2 recounts ms cs -> Forall tidy (flat_map wishes cs) -> forall (st : ldb) L b (stuck : Prop),
  D (patched js) (h_db (s_h st)) L -> pairs of_lit show (book_of L) b -> (stuck \/ is_quiet st) ->
  l_last L + all_new (flat_map wishes cs) < 2 ^ 64 ->
  exists b', chronicle back stuck b cs (received of_lit show packed st ms) b'.
Proof.
  pose proof (patched_ok js (unmarked_json show)) as Hc. pose proof (patched_total js) as Ht.
  intros H. induction H as [|h d hs ds Hh _ IH]; intros Hti st L b stuck HD HP Hq Hsm; cbn [received].
  { eexists. constructor. }
  destruct h as [q|q k|], d as [q' w|q' w|]; cbn [recounts] in Hh; try contradiction; cbn [flat_map wishes app] in Hti, Hsm.
  - destruct Hh as (<- & Hwt & Hst1). inversion Hti as [|? ? Hti1 Hti2]; subst. cbn [all_new] in Hsm. pose proof (wants_says q w Hwt) as Hh.
    assert (Hw : w = Nonsense \/ w <> Nonsense) by (destruct w; auto; right; discriminate). destruct Hw as [->|Hw].
    + destruct (nonsense_refused of_lit (text_of_value show) ldb (ldb_step js) st (request_of q) Hh) as (body & E).
      rewrite (bytes_http of_lit show packed _ _ _ _ _ _ E). cbn [in_bytes].
      destruct (IH Hti2 st L b (stuck \/ refuses_delete Nonsense (Bytes 400 body)) HD HP ltac:(tauto) ltac:(cbn [new_events] in Hsm; lia)) as (b' & Hb).
      exists b'. eapply c_answered; [apply a_refused|exact Hb].
    + pose proof (call_clean of_lit (text_of_value show) _ w Hh Hti1 Hw) as Hcl.
      assert (Hadd : added (call_of of_lit (text_of_value show) (request_of q) w) = new_events w).
      { destruct w; cbn; try reflexivity. now rewrite stamped_length, map_length. }
      set (o := call_of of_lit (text_of_value show) (request_of q) w) in *.
      destruct (exec_step (patched js) L o Ht) as [Hs Ef].
      destruct (log_answers of_lit show packed Hback L b q w _ _ HP (D_ok _ _ _ HD) Hwt Hst1 ltac:(lia) Hw Hs (or_introl eq_refl)) as ((b1 & S1 & HP1) & Hl1 & S2).
      fold o in S1, HP1, Hl1, S2. rewrite <- Ef in HP1, Hl1.
      destruct (written_works of_lit show Hback L b q w HP (D_ok _ _ _ HD) Hwt Hst1 ltac:(lia)) as [_ Hwk].
      destruct (ldb_same_any js (unmarked_json show) st L o HD (pairs_work of_lit show Hback L b HP) Hcl ltac:(rewrite Hadd; change two64 with (2 ^ 64); lia) Hwk) as [Em _].
      pose proof (step_any (patched js) Hc st L o HD Hcl ltac:(rewrite Hadd; change two64 with (2 ^ 64); lia)) as Hst.
      pose proof (step_quiet (patched js) st o) as Hsq. rewrite <- Em in Hst, Hsq.
      destruct (ldb_step js st o) as [st' y] eqn:E. cbn [fst snd] in Hst, Hsq.
      destruct Hst as [[-> Es]|[-> HD']].
      * rewrite (bytes_http of_lit show packed _ _ _ _ _ _ (blocked_call of_lit (text_of_value show) ldb (ldb_step js) st _ w st' Hh Hw E)). cbn [in_bytes].
        assert (Hstuck : stuck) by (destruct Hq as [Hq|Hq]; [exact Hq|]; now destruct (proj1 (Hsq Hq))).
        rewrite <- Es in HD. destruct (IH Hti2 st' L b stuck HD HP (or_introl Hstuck) ltac:(lia)) as (b' & Hb).
        exists b'. now apply c_hung.
      * rewrite (bytes_http of_lit show packed _ _ _ _ _ _ (http_calls of_lit (text_of_value show) ldb (ldb_step js) st _ w st' _ Hh Hw E S2)).
        set (a := in_bytes show packed q (reply w (snd (log_exec (patched js) L o)))) in *.
        destruct (IH Hti2 st' _ b1 (stuck \/ refuses_delete w a) HD' HP1) as (b' & Hb); [|lia|exists b'; eapply c_answered; [exact S1|exact Hb]].
        destruct Hq as [Hq|Hq]; [left; now left|]. destruct (Hsq Hq) as [_ [Hr|Hq']]; [|now right].
        left. right. unfold a, o in *. destruct w as [name ex es|name n|name| |ts|]; cbn [call_of refused_delete] in Hr; try contradiction.
        cbn [call_of] in *. destruct (snd (log_exec (patched js) L (OpDelete n name None))) as [|[] | | | | |]; try contradiction;
          cbn [reply failed in_bytes refuses_delete]; intros body K; discriminate K.
  - destruct Hh as (<- & Hwt & Hst1). inversion Hti as [|? ? Hti1 Hti2]; subst. cbn [all_new] in Hsm. pose proof (wants_says q w Hwt) as Hh. unfold struck.
    assert (Hw : w = Nonsense \/ w <> Nonsense) by (destruct w; auto; right; discriminate). destruct Hw as [->|Hw].
    + destruct (nonsense_refused of_lit (text_of_value show) ldb (fun s o => (ldb_crash js s o k, OutBlocked)) st (request_of q) Hh) as (body & E).
      rewrite (bytes_http of_lit show packed _ _ _ _ _ _ E). cbn [fst].
      destruct (IH Hti2 (ldb_reopen st) L b False HD HP (or_intror (conj eq_refl eq_refl)) ltac:(cbn [new_events] in Hsm; lia)) as (b' & Hb).
      exists b'. now apply c_before.
    + rewrite (bytes_http of_lit show packed _ _ _ _ _ _ (blocked_call of_lit (text_of_value show) ldb (fun s o => (ldb_crash js s o k, OutBlocked)) st _ w _ Hh Hw eq_refl)). cbn [fst].
      pose proof (call_clean of_lit (text_of_value show) _ w Hh Hti1 Hw) as Hcl.
      assert (Hadd : added (call_of of_lit (text_of_value show) (request_of q) w) = new_events w).
      { destruct w; cbn; try reflexivity. now rewrite stamped_length, map_length. }
      set (o := call_of of_lit (text_of_value show) (request_of q) w) in *.
      destruct (exec_step (patched js) L o Ht) as [Hs Ef].
      destruct (log_answers of_lit show packed Hback L b q w _ _ HP (D_ok _ _ _ HD) Hwt Hst1 ltac:(lia) Hw Hs (or_introl eq_refl)) as ((b1 & S1 & HP1) & Hl1 & _).
      fold o in S1, HP1, Hl1. rewrite <- Ef in HP1, Hl1.
      destruct (written_works of_lit show Hback L b q w HP (D_ok _ _ _ HD) Hwt Hst1 ltac:(lia)) as [_ Hwk].
      destruct (ldb_same_any js (unmarked_json show) st L o HD (pairs_work of_lit show Hback L b HP) Hcl ltac:(rewrite Hadd; change two64 with (2 ^ 64); lia) Hwk) as [_ Em].
      pose proof (step_any (patched js) Hc st L o HD Hcl ltac:(rewrite Hadd; change two64 with (2 ^ 64); lia)) as Hst.
      rewrite Em. set (st1 := ldb_crash (patched js) st o k).
      assert (HC : D (patched js) (h_db (s_h st1)) L \/ D (patched js) (h_db (s_h st1)) (fst (log_exec (patched js) L o))).
      { unfold st1. destruct (crash_atomic (patched js) st o k) as [->| ->]; auto. destruct Hst as [[_ ->]|[_ K]]; auto. }
      destruct HC as [HC|HC].
      * destruct (IH Hti2 (ldb_reopen st1) L b False HC HP (or_intror (conj eq_refl eq_refl)) ltac:(lia)) as (b' & Hb).
        exists b'. now apply c_before.
      * destruct (IH Hti2 (ldb_reopen st1) _ b1 False HC HP1 (or_intror (conj eq_refl eq_refl)) ltac:(lia)) as (b' & Hb).
        exists b'. eapply c_after; [exact S1|exact Hb].
  - destruct (IH Hti (ldb_reopen st) L b False HD HP (or_intror (conj eq_refl eq_refl)) Hsm) as (b' & Hb).
    exists b'. now apply c_again.
Qed.
End Chronicles.

(** C104: any requests, crashes in the middle of requests and restarts, from an empty
    LevelDB store on, with no "$!" in the names and fewer than 2^64 events posted: the
    bytes the clients get are those of the notebook in HttpBytesCrashSpec.v. *)
Theorem C104_chronicles_partial : forall of_lit show packed ms cs, (forall n, number n -> number (show (float_of of_lit n))) ->
  Forall2 recounts ms cs -> Forall tidy (flat_map wishes cs) -> all_new (flat_map wishes cs) < 2 ^ 64 ->
  exists b, chronicle (fun n => show (float_of of_lit n)) False empty_notebook cs (received of_lit show packed ldb_init ms) b.
Proof.
  intros of_lit show packed ms cs Hb H Hti Hn. apply (chronicle_ok of_lit show packed Hb ms cs H Hti ldb_init empty_log); [apply D_init| | |exact Hn].
  - split; [reflexivity|constructor].
  - right. split; reflexivity.
Qed.
Print Assumptions C104_chronicles_partial.

Lemma chronicle_split back cs1 : forall stuck b cs2 l b2, chronicle back stuck b (cs1 ++ cs2) l b2 ->
  exists l1 l2 stuck' b1, l = l1 ++ l2 /\ length l1 = length (filter is_told cs1) /\ chronicle back stuck b cs1 l1 b1 /\ chronicle back stuck' b1 cs2 l2 b2.
Proof.
  induction cs1 as [|d cs1 IH]; intros stuck b cs2 l b2 H; cbn [app] in H.
  - exists [], l, stuck, b. repeat split; try assumption. constructor.
  - inversion H as [|? ? q w a b1 ? l' ? S K|? ? q w ? l' ? St K|? ? q w ? ? ? K|? ? q w a b1 ? ? ? S K|? ? ? ? ? K]; subst;
      destruct (IH _ _ _ _ _ K) as (l1 & l2 & stuck' & b3 & -> & E & A & B).
    + exists (a :: l1), l2, stuck', b3. repeat split; [cbn; f_equal; exact E| |exact B]. eapply c_answered; eassumption.
    + exists (Silence :: l1), l2, stuck', b3. repeat split; [cbn; f_equal; exact E| |exact B]. now apply c_hung.
    + exists l1, l2, stuck', b3. repeat split; [exact E| |exact B]. now apply c_before.
    + exists l1, l2, stuck', b3. repeat split; [exact E| |exact B]. eapply c_after; eassumption.
    + exists l1, l2, stuck', b3. repeat split; [exact E| |exact B]. now apply c_again.
Qed.

Lemma keeps_notes back b q w a b1 name : answered back b q w a b1 -> (forall n, w <> Delete name n) ->
  exists new, notes_of name b1 = notes_of name b ++ new.
Proof.
  intros S K. inversion S; subst; try (exists []; now rewrite app_nil_r).
  - eexists. unfold notes_of. cbn [notes]. apply filter_app.
  - exists []. rewrite app_nil_r. unfold notes_of. cbn [notes].
    match goal with |- filter _ (filter (fun r => negb (String.eqb _ ?m)) _) = _ => assert (m <> name) by (intros ->; eapply K; reflexivity); rename m into other end.
    clear S. induction (notes b) as [|r l IH]; [reflexivity|]. cbn [filter]. destruct (String.eqb_spec (n_stream r) other) as [E|E]; cbn [negb filter].
    + rewrite E, (proj2 (String.eqb_neq other name)) by assumption. exact IH.
    + destruct (String.eqb (n_stream r) name); now rewrite IH.
Qed.
Lemma chronicle_keeps back name cs : Forall (spared name) cs -> forall stuck b l b2, chronicle back stuck b cs l b2 ->
  exists new, notes_of name b2 = notes_of name b ++ new.
Proof.
  intros F stuck b l b2 H. induction H as [|? ? q w a b1 ? ? ? S K IH|? ? q w ? ? ? St K IH|? ? q w ? ? ? K IH|? ? q w a b1 ? ? ? S K IH|? ? ? ? ? K IH].
  { exists []. now rewrite app_nil_r. }
  all: inversion F as [|? ? F1 F2]; subst; destruct (IH F2) as (new & ->).
  2,3,5: now exists new.
  all: destruct (keeps_notes back b q w a b1 name S) as (new' & ->);
    [intros n ->; apply (F1 n); now left|exists (new' ++ new); now rewrite app_assoc].
Qed.
Lemma numbered_stream name st es : forall i k g, filter (fun n => String.eqb (n_stream n) name) (numbered name st i k g es) = numbered name st i k g es.
Proof. induction es as [|e es IH]; intros i k g; [reflexivity|]. cbn [numbered filter n_stream]. now rewrite String.eqb_refl, IH. Qed.
Lemma numbered_length name st es : forall i k g, length (numbered name st i k g es) = length es.
Proof. induction es as [|e es IH]; intros i k g; cbn; [reflexivity|now rewrite IH]. Qed.
Lemma same_cut {A} (l1 l1' l2 l2' : list A) : length l1 = length l1' -> l1 ++ l2 = l1' ++ l2' -> l1 = l1' /\ l2 = l2'.
Proof. revert l1'. induction l1 as [|a l1 IH]; intros [|a' l1'] Hl E; try discriminate; [auto|]. cbn in E. injection E as -> E. destruct (IH l1' ltac:(cbn in Hl; congruence) E) as [-> ->]. auto. Qed.

(** In particular, whatever happened before: the events of a post that was answered with
    201 are in the JSON array every later read of the stream gets, one behind the other,
    whole, with the numbers, IDs and times they were given, however often the process
    died in between, unless the stream was to be deleted. *)
Theorem C104_acknowledged_is_durable_partial : forall of_lit show packed ms1 cs1 q name ex es ms2 cs2 g l1 body l2 now,
  (forall n, number n -> number (show (float_of of_lit n))) ->
  let cs := cs1 ++ Told q (Post name ex es) :: cs2 ++ [Told g (GetStream name)] in
  Forall2 recounts (ms1 ++ Asks q :: ms2 ++ [Asks g]) cs -> Forall tidy (flat_map wishes cs) -> all_new (flat_map wishes cs) < 2 ^ 64 ->
  Forall (spared name) cs2 -> in_format g "json" -> length l1 = length (filter is_told cs1) -> length l2 = length (filter is_told cs2) ->
  received of_lit show packed ldb_init (ms1 ++ Asks q :: ms2 ++ [Asks g]) = l1 ++ Bytes 201 body :: l2 ++ [Bytes 200 now] ->
  exists old new later before_, text_of 10000 (JArr (old ++ new ++ later)) now
    /\ Forall2 (shows (fun n => show (float_of of_lit n))) new (numbered name (w_stamp q) 0 (N.of_nat (length old)) before_ es).
Proof.
  intros of_lit show packed ms1 cs1 q name ex es ms2 cs2 g l1 body l2 now Hb cs HF Hti Hn Hsp Hf E1 E2 E.
  destruct (C104_chronicles_partial of_lit show packed _ _ Hb HF Hti Hn) as (b & S). rewrite E in S. unfold cs in S. clear E HF Hti Hn.
  apply chronicle_split in S as (l1' & r & stuck & b1 & Er & K1 & _ & S).
  destruct (same_cut _ _ _ _ (eq_trans E1 (eq_sym K1)) Er) as [<- <-]. clear Er.
  inversion S as [|? ? ? w a b2 ? l' ? Sv K| | | |]; subst.
  inversion Sv as [? ? ? bod Hex Htell| | | | | | | |]; subst. clear S Sv.
  apply chronicle_split in K as (l2' & r & stuck2 & b3 & Er & K2 & Mid & S).
  destruct (same_cut _ _ _ _ (eq_trans E2 (eq_sym K2)) Er) as [<- <-]. clear Er.
  inversion S as [|? ? ? w a b4 ? l' ? Sv K| | | |]; subst. inversion Sv as [| | | | |? ? Hpage| | |]; subst.
  destruct (chronicle_keeps _ name cs2 Hsp _ _ _ _ Mid) as (rest & EL).
  unfold notes_of at 2 in EL. cbn [notes] in EL. rewrite filter_app, numbered_stream in EL. change (filter _ (notes b1)) with (notes_of name b1) in EL.
  destruct (proj1 Hpage Hf) as (os & Ht & Hos). rewrite EL, <- app_assoc in Hos.
  apply Forall2_app_inv_r in Hos as (old & os' & Hold & Hos & ->). apply Forall2_app_inv_r in Hos as (new & later & Hnew & _ & ->).
  exists old, new, later, (total b1). split; [exact Ht|].
  replace (N.of_nat (length old)) with (how_many name b1); [exact Hnew|]. unfold how_many. now rewrite (f2_length _ _ _ Hold).
Qed.
Print Assumptions C104_acknowledged_is_durable_partial.

(** What meets the hypotheses: a post; a delete with a wrong number; a post that hangs
    therefore; a restart; a post during which the process dies before the commit and one
    during which it dies after it; a read of each of the streams. *)
Definition first_post : wire := send "/save-events/thing!x" "" first_body.
Definition other_post : wire := send "/save-events/other%21y" "" other_body.
Definition troubled : list (moment * chapter) :=
  [ (Asks first_post, Told first_post (Post "thing!x" None first_events))
  ; (Asks (send "/delete-stream/other!y" "9" ""), Told (send "/delete-stream/other!y" "9" "") (Delete "other!y" 9))
  ; (Asks other_post, Told other_post (Post "other!y" None [other_event]))
  ; (Restarts, Again)
  ; (Dies other_post 1, Cut other_post (Post "other!y" None [other_event]))
  ; (Dies other_post 9, Cut other_post (Post "other!y" None [other_event]))
  ; (Asks (send "/events-by-stream/other!y.ndjson" "" ""), Told (send "/events-by-stream/other!y.ndjson" "" "") (GetStream "other!y"))
  ; (Asks (send "/events-by-stream/thing!x.json" "" ""), Told (send "/events-by-stream/thing!x.json" "" "") (GetStream "thing!x")) ].
Definition on_disk := received lit_float lit_show (fun _ => "") ldb_init.

Example C104_inhabited : Forall2 recounts (map fst troubled) (map snd troubled) /\ Forall tidy (flat_map wishes (map snd troubled))
  /\ (exists cs2 g, map snd troubled = [] ++ Told first_post (Post "thing!x" None first_events) :: cs2 ++ [Told g (GetStream "thing!x")]
      /\ Forall (spared "thing!x") cs2 /\ length (filter is_told cs2) = 3%nat /\ in_format g "json")
  /\ exists t array, on_disk (map fst troubled)
      = [ Bytes 201 "{""status"":""OK"",""streamSequenceNumber"":2}"; Bytes 404 t; Silence
        ; Bytes 200 "{""streamName"":""other!y"",""aggregateType"":""other"",""aggregateID"":""y"",""globalSequenceNumber"":3,""streamSequenceNumber"":1,""insertTimestamp"":7,""eventID"":""id0"",""eventType"":""E"",""data"":[],""metadata"":1}"
        ; Bytes 200 array ]
      /\ nth_error (answers on_mem mem_init (map fst scene)) 3 = Some (Bytes 200 array).
Proof.
  assert (SS : forall p e b, sane_stamps (send p e b)) by (intros p e b [|i]; (split; [now apply ascii_text|reflexivity])).
  assert (W1 : wants first_post (Post "thing!x" None first_events)).
  { destruct C102_inhabited as (H & _). now inversion H. }
  assert (W2 : wants other_post (Post "other!y" None [other_event])).
  { split; [|split; [now apply ascii_text|repeat constructor; discriminate]]. eexists. split; [eapply reads_carries; vm_compute; reflexivity|].
    split; [address|]. split; [spell|]. split; [reflexivity|]. split; [reflexivity|]. split.
    { eexists. split; [reflexivity|]. apply Forall2_cons; [|apply Forall2_nil]. eexists. split; [reflexivity|]. apply Permutation.Permutation_refl. }
    split; [discriminate|]. split; [apply alone|]. reflexivity. }
  split; [|split; [|split]].
  - unfold troubled. cbn [map fst snd]. repeat (apply Forall2_cons); [| | | | | | | |apply Forall2_nil]; cbn [recounts];
      try exact Logic.I; (split; [reflexivity|]); (split; [|apply SS]); try assumption; (split; [|exact Logic.I]); exists None; (split; [exact Logic.I|]).
    + split; [address|]. split; [spell|]. split; [reflexivity|]. left. apply parse_reads. reflexivity.
    + split; [discriminate|]. split; [reflexivity|]. exists "ndjson". split; [cbn; auto|spell].
    + split; [discriminate|]. split; [reflexivity|]. exists "json". split; [cbn; auto|spell].
  - assert (A : clean "thing!x") by (apply (clean_by_check _ 7); vm_compute; auto).
    assert (B : clean "other!y") by (apply (clean_by_check _ 7); vm_compute; auto).
    assert (C : clean "thing") by (apply (clean_by_check _ 5); vm_compute; auto).
    assert (E : clean "other") by (apply (clean_by_check _ 5); vm_compute; auto).
    cbn [troubled map snd flat_map wishes app]. repeat constructor; assumption.
  - eexists [_; _; _; _; _; _], _. split; [reflexivity|]. split; [|split; [reflexivity|]].
    + repeat constructor; intros n K; cbn in K; intuition discriminate.
    + exists "/events-by-stream/thing!x". spell.
  - eexists _, _. split; vm_compute; reflexivity.
Qed.
