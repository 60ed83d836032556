(** C105: HTTP requests that overlap are answered as if they had come one by one. *)
From Coq Require Import ZArith PeanoNat.
From Verif Require Import Base Core CoreSpec CoreProofs LogSpec LogProofs StoreSpec ToyCodec InMemory InMemoryProofs
  DecText Text PathSpec NumberSpec Json JsonSpec JsonText JsonTextSpec JsonGrammar JsonGrammarProofs JsonGrammarReads
  RecordIo RecordIoSpec RecordIoProofs JsonRecordSpec Remote Http HttpSpec HttpProofs HttpStorySpec HttpStoryProofs Properties_Http
  LevelDB LevelDBSpec LevelDBProofs LevelDBRun Properties_LevelDB Properties_HttpStory HttpBytes HttpBytesSpec HttpBytesJson PatchCodec HttpBytesProofs Properties_HttpBytes
  Locks LocksSpec LocksProofs LocksStores LocksAnswers LocksStoresLive Properties_Locks HttpConc HttpConcSpec HttpConcProofs.
Import RecordIo JsonGrammar HttpStorySpec Base.
Open Scope string_scope.
Open Scope list_scope.
Open Scope N_scope.

(** * Sequential histories behind the order *)
Section Calls.
Variables (of_lit : string -> float) (print : goval -> string).
Notation call := (call_of of_lit print).

Lemma says_call q w : says q w -> w <> Nonsense -> http_call of_lit print q = Some (call q w).
Proof.
  intros H Hw. set (x := match w with Post _ _ _ => OutSaved 0 [] | Delete _ _ => OutDeleted | _ => OutResults [] end).
  rewrite <- (call_any of_lit print q x).
  assert (S2 : match w, x with Post _ _ _, (OutSaved _ _ | OutFailed _) => True | Delete _ _, (OutDeleted | OutFailed _) => True
      | (GetStream _ | GetAll | GetTypes _), OutResults _ => True | _, _ => False end) by (unfold x; destruct w; try exact Logic.I; congruence).
  now rewrite (http_calls of_lit print (option op) (fun _ o => (Some o, x)) None q w (Some (call q w)) x H Hw eq_refl S2).
Qed.
Lemma nonsense_call q : no_sense q -> http_call of_lit print q = None /\ exists body, http_answer of_lit print q OutBlocked = Answer 400 body.
Proof.
  intros H. split.
  - unfold http_call. destruct (nonsense_refused of_lit print (option op) (fun _ o => (Some o, OutBlocked)) None q H) as (body & ->). reflexivity.
  - unfold http_answer. destruct (nonsense_refused of_lit print unit (fun s _ => (s, OutBlocked)) tt q H) as (body & ->). cbn [snd]. exists body. reflexivity.
Qed.
Lemma says_answer q w x : says q w -> w <> Nonsense ->
  (match w, x with Post _ _ _, (OutSaved _ _ | OutFailed _) => True | Delete _ _, (OutDeleted | OutFailed _) => True
      | (GetStream _ | GetAll | GetTypes _), OutResults _ => True | _, _ => False end) ->
  http_answer of_lit print q x = reply w x.
Proof. intros H Hw S2. unfold http_answer. now rewrite (http_calls of_lit print unit (fun s _ => (s, x)) tt q w tt x H Hw eq_refl S2). Qed.

(** Store calls one after the other are requests one after the other. *)
Lemma replies_run St (store : St -> op -> St * out) (order : list (nat * (request * out))) : forall s,
  (forall t, In t order -> exists o, http_call of_lit print (fst (snd t)) = Some o) ->
  snd (run store s (flat_map (fun t => match http_call of_lit print (fst (snd t)) with Some o => [o] | None => [] end) order)) = map (fun t => snd (snd t)) order ->
  replies (http_step of_lit print St store) s (map (fun t => fst (snd t)) order) = map (fun t => http_answer of_lit print (fst (snd t)) (snd (snd t))) order.
Proof.
  induction order as [|[j [q x]] order IH]; intros s Hc E; [reflexivity|]. cbn [map replies fst snd].
  rewrite http_handler. destruct (Hc (j, (q, x)) (or_introl eq_refl)) as (o & Ho). cbn [fst snd] in Ho. cbn [flat_map map fst snd] in E. rewrite Ho in E |- *.
  cbn [app run] in E. destruct (store s o) as [s' y]. destruct (run store s' _) as [s2 ys] eqn:Er. cbn [snd] in E. injection E as -> E. f_equal.
  apply IH; [intros t Ht; apply Hc; now right|]. rewrite Er. exact E.
Qed.
End Calls.

Section ByteCalls.
Variables (of_lit : string -> float) (show : float -> num) (packed : list entry -> string).
Lemma answers_run St (store : St -> op -> St * out) (order : list (nat * (wire * out))) : forall s,
  (forall t, In t order -> exists o, bytes_call of_lit show packed (fst (snd t)) = Some o) ->
  snd (run store s (flat_map (fun t => match bytes_call of_lit show packed (fst (snd t)) with Some o => [o] | None => [] end) order)) = map (fun t => snd (snd t)) order ->
  answers (bytes_step of_lit show packed St store) s (map (fun t => fst (snd t)) order) = map (fun t => bytes_answer of_lit show packed (fst (snd t)) (snd (snd t))) order.
Proof.
  induction order as [|[j [q x]] order IH]; intros s Hc E; [reflexivity|]. cbn [map answers fst snd].
  rewrite bytes_handler. destruct (Hc (j, (q, x)) (or_introl eq_refl)) as (o & Ho). cbn [fst snd] in Ho. cbn [flat_map map fst snd] in E. rewrite Ho in E |- *.
  cbn [app run] in E. destruct (store s o) as [s' y]. destruct (run store s' _) as [s2 ys] eqn:Er. cbn [snd] in E. injection E as -> E. f_equal.
  apply IH; [intros t Ht; apply Hc; now right|]. rewrite Er. exact E.
Qed.
End ByteCalls.

(** Reads by several types lock the store once per type (C57). *)
Definition one_type (w : wish) : Prop := match w with GetTypes ts => (length ts <= 1)%nat | _ => True end.

Lemma call_one_lock of_lit print q w : one_type w -> one_lock (call_of of_lit print q w).
Proof. destruct w; cbn; auto. Qed.

(** The wish at a place. *)
Lemma wish_at {Q} (P : Q -> wish -> Prop) (qs : list Q) ws : Forall2 P qs ws -> forall j q, nth_error qs j = Some q -> P q (nth j ws Nonsense).
Proof. induction 1 as [|q0 w qs ws H _ IH]; intros [|j] q E; cbn in *; try discriminate; [now injection E as <-|now apply IH]. Qed.

(** Some of the posts hold no more than all of them. *)
Lemma some_new (js : list nat) ws : NoDup js -> Forall (fun j => (j < length ws)%nat) js -> all_new (map (fun j => nth j ws Nonsense) js) <= all_new ws.
Proof.
  intros Hn Hb.
  assert (A : forall l, all_new l = fold_right N.add 0 (map new_events l)) by (induction l as [|w l IH]; cbn; congruence). rewrite !A, !map_map.
  transitivity (fold_right N.add 0 (map (fun j => new_events (nth j ws Nonsense)) (seq 0 (length ws)))).
  - apply sum_incl; [exact Hn|]. intros j Hj. rewrite Forall_forall in Hb. specialize (Hb j Hj). apply in_seq. lia.
  - clear. apply N.eq_le_incl. f_equal. rewrite <- (map_map (fun j => nth j ws Nonsense) new_events). f_equal.
    induction ws as [|w ws IH]; [reflexivity|]. cbn [length seq map]. f_equal. rewrite <- seq_shift, map_map. exact IH.
Qed.

(** LevelDB: the calls that returned, one after the other. *)
Lemma ldb_in_order c ls k : krun (ldb_obj c) (start (s_h ldb_init)) ls = Some k -> Forall one_lock (made (k_hist k)) ->
  linearizable_as (fun ops outs => snd (run (ldb_step c) ldb_init ops) = outs /\ Forall (fun x => x <> OutBlocked) outs) (k_hist k).
Proof.
  intros E H1. pose proof (C57_leveldb_linearizable_partial c ls k _ E H1) as Hl. revert Hl. apply linearizable_weaken with (keep := not_blocked).
  - intros order Hr _ _. apply seq_drop in Hr. split; [exact Hr|]. apply Forall_forall. intros x Hx. apply in_map_iff in Hx as (t & <- & Ht). apply filter_In in Ht as [_ Ht].
    unfold not_blocked in Ht. destruct (snd t); discriminate.
  - intros i o x Hx. pose proof (ldb_never_blocked c ls _ k E i x Hx). unfold not_blocked. cbn. destruct x; congruence.
  - intros i o x y _ (p & rest & -> & _). reflexivity.
Qed.

Lemma ldb_story_any of_lit print c : codec_ok c -> codec_total c -> forall (order : list (nat * (request * out))) ws,
  Forall2 (fun t w => says (fst (snd t)) w /\ w <> Nonsense) order ws -> Forall tidy ws -> forall st L, D c (h_db (s_h st)) L -> l_last L + all_new ws < two64 ->
  snd (run (ldb_step c) st (flat_map (fun t => match http_call of_lit print (fst (snd t)) with Some o => [o] | None => [] end) order)) = map (fun t => snd (snd t)) order ->
  Forall (fun x => x <> OutBlocked) (map (fun t => snd (snd t)) order) ->
  exists b, story (stored of_lit print) (book_of L) ws (map (fun t => http_answer of_lit print (fst (snd t)) (snd (snd t))) order) b.
Proof.
  intros Hc Ht order ws H. induction H as [|[j [q x]] w order ws [Hq Hw] _ IH]; intros Hti st L HD Hsm E Hb.
  { eexists. constructor. }
  cbn [map flat_map fst snd] in *. inversion Hti as [|? ? Hti1 Hti2]; subst. cbn [all_new] in Hsm.
  rewrite (says_call of_lit print q w Hq Hw) in E. cbn [app run] in E. apply Forall_cons_iff in Hb as [Hb1 Hb2].
  pose proof (call_clean of_lit print q w Hq Hti1 Hw) as Hcl.
  assert (Hadd : added (call_of of_lit print q w) = new_events w).
  { destruct w; cbn; try reflexivity. now rewrite stamped_length, map_length. }
  destruct (exec_step c L (call_of of_lit print q w) Ht) as [Hs Ef].
  pose proof (log_exec_last c L (call_of of_lit print q w)) as Hlast.
  pose proof (step_any c Hc st L (call_of of_lit print q w) HD Hcl ltac:(lia)) as Hst.
  set (o := call_of of_lit print q w) in *.
  destruct (ldb_step c st o) as [st1 y]. destruct (run (ldb_step c) st1 _) as [st2 ys] eqn:Er. cbn [fst snd] in *. injection E as -> E.
  destruct Hst as [[-> _]|[Hx HD']]; [congruence|].
  set (z := snd (log_exec c L o)) in *. clearbody z. subst z.
  destruct (log_serves of_lit print c L q w x x Ht Hq Hw Hs (or_introl eq_refl)) as [S1 S2].
  rewrite (says_answer of_lit print q w x Hq Hw S2). 
  destruct (IH Hti2 st1 _ HD' ltac:(lia)) as (b & Hb'); [now rewrite Er|exact Hb2|].
  exists b. econstructor; [exact S1|]. fold o. rewrite <- Ef. exact Hb'.
Qed.

(** * C105 *)

(** Every history of requests to a server in front of an empty in-memory store. *)
Theorem C105_http_partial : forall of_lit print c ls k ws, codec_ok c -> codec_total c ->
  hrun (mem_obj c) (http_call of_lit print) (http_answer of_lit print) (hstart mem_init) ls = Some k ->
  Forall2 says (sent (h_seen k)) ws -> Forall one_type ws ->
  one_by_one
    (fun qs l => exists ws' b, Forall2 says qs ws' /\ story (fun j => print (decode of_lit false j)) empty_book ws' l b)
    (fun q a => says q Nonsense /\ exists body, a = Answer 400 body)
    (h_seen k).
Proof.
  intros of_lit print c ls k ws Hc Ht E Hs H1.
  pose proof (inv_run _ _ _ mem_init ls _ _ (inv_start _ _ _ mem_init) E) as V. pose proof (sent_run _ _ _ ls _ _ E eq_refl) as Hsent.
  assert (Hq : forall q, In q (sent (h_seen k)) -> exists w, says q w /\ one_type w).
  { intros q Hq. apply In_nth_error in Hq as (j & Hj). exists (nth j ws Nonsense). split; [exact (wish_at says _ _ Hs j q Hj)|].
    destruct (nth_in_or_default j ws Nonsense) as [Hn| ->]; [|exact Logic.I]. rewrite Forall_forall in H1. now apply H1. }
  destruct (v_run _ _ _ _ _ V) as (kls & Hk).
  eapply finish; [exact V| | |].
  - apply (C57_inmemory_linearizable_partial c kls _ Hk). apply Forall_forall. intros o Ho.
    destruct (made_sent _ _ _ _ _ V o Ho) as (q & Hin & Hm). destruct (Hq q Hin) as (w & Hw & Hone).
    assert (Hn : w = Nonsense \/ w <> Nonsense) by (destruct w; auto; right; discriminate). destruct Hn as [->|Hn].
    + destruct (nonsense_call of_lit print q Hw) as [K _]. congruence.
    + rewrite (says_call of_lit print q w Hw Hn) in Hm. injection Hm as <-. now apply call_one_lock.
  - intros order Hr Hnd Hin. cbv beta in Hr. unfold linearizable in *.
    assert (R : replies (http_step of_lit print mem (mem_step c)) mem_init (map (fun t => fst (snd t)) order) = map (fun t => http_answer of_lit print (fst (snd t)) (snd (snd t))) order).
    { apply replies_run; [|exact Hr]. intros [j [q x]] Hi. now destruct (Hin _ _ _ Hi). }
    assert (F : exists ws', Forall2 says (map (fun t => fst (snd t)) order) ws').
    { clear - Hin Hq Hsent. induction order as [|[j [q x]] order IH]; [exists []; constructor|].
      destruct IH as (ws' & IH); [intros; eapply Hin; right; eassumption|]. destruct (Hin j q x (or_introl eq_refl)) as [(st & Hj) _].
      destruct (Hq q) as (w & Hw & _). { rewrite Hsent. apply nth_error_In in Hj. now apply (in_map fst) in Hj. }
      exists (w :: ws'). constructor; assumption. }
    destruct F as (ws' & F). destruct (C98_http_history of_lit print c _ ws' Hc Ht F) as (b & S). rewrite R in S. eauto.
  - intros q Hin Hm. destruct (Hq q Hin) as (w & Hw & _).
    assert (Hn : w = Nonsense \/ w <> Nonsense) by (destruct w; auto; right; discriminate). destruct Hn as [->|Hn].
    + split; [exact Hw|]. now destruct (nonsense_call of_lit print q Hw).
    + rewrite (says_call of_lit print q w Hw Hn) in Hm. discriminate Hm.
Qed.
Print Assumptions C105_http_partial.

(** ... of an empty LevelDB store.  Deletes may be refused: the requests that wait for
    the lock from then on (C18) are not answered, those that are answered are right. *)
Theorem C105_http_leveldb_partial : forall of_lit print c ls k ws, codec_ok c -> codec_total c ->
  hrun (ldb_obj c) (http_call of_lit print) (http_answer of_lit print) (hstart (s_h ldb_init)) ls = Some k ->
  Forall2 says (sent (h_seen k)) ws -> Forall one_type ws -> Forall tidy ws -> all_new ws < 2 ^ 64 ->
  one_by_one
    (fun qs l => exists ws' b, Forall2 says qs ws' /\ story (fun j => print (decode of_lit false j)) empty_book ws' l b)
    (fun q a => says q Nonsense /\ exists body, a = Answer 400 body)
    (h_seen k).
Proof.
  intros of_lit print c ls k ws Hc Ht E Hs H1 Hti Hnew.
  pose proof (inv_run _ _ _ (s_h ldb_init) ls _ _ (inv_start _ _ _ (s_h ldb_init)) E) as V. pose proof (sent_run _ _ _ ls _ _ E eq_refl) as Hsent.
  assert (Hat : forall j q st, nth_error (h_reqs k) j = Some (q, st) -> says q (nth j ws Nonsense) /\ one_type (nth j ws Nonsense) /\ tidy (nth j ws Nonsense) /\ (j < length ws)%nat).
  { intros j q st Hj. assert (Hq : nth_error (sent (h_seen k)) j = Some q) by (rewrite Hsent, nth_error_map, Hj; reflexivity).
    assert (Hl : (j < length ws)%nat).
    { rewrite <- (f2_length _ _ _ Hs). apply nth_error_Some. congruence. }
    split; [exact (wish_at says _ _ Hs j q Hq)|]. rewrite !Forall_forall in *. split; [|split; [|exact Hl]]; [apply H1|apply Hti]; now apply nth_In. }
  assert (Hq : forall q, In q (sent (h_seen k)) -> exists w, says q w /\ one_type w).
  { intros q Hq. rewrite Hsent in Hq. apply in_map_iff in Hq as ([q' st] & <- & Hi). apply In_nth_error in Hi as (j & Hj). destruct (Hat _ _ _ Hj) as (A & B & _). eauto. }
  destruct (v_run _ _ _ _ _ V) as (kls & Hk).
  eapply finish; [exact V| | |].
  - apply (ldb_in_order c kls _ Hk). apply Forall_forall. intros o Ho.
    destruct (made_sent _ _ _ _ _ V o Ho) as (q & Hin & Hm). destruct (Hq q Hin) as (w & Hw & Hone).
    assert (Hn : w = Nonsense \/ w <> Nonsense) by (destruct w; auto; right; discriminate). destruct Hn as [->|Hn].
    + destruct (nonsense_call of_lit print q Hw) as [K _]. congruence.
    + rewrite (says_call of_lit print q w Hw Hn) in Hm. injection Hm as <-. now apply call_one_lock.
  - intros order [Hr Hb] Hnd Hin. set (ws' := map (fun j => nth j ws Nonsense) (map fst order)).
    assert (F : Forall2 (fun t w => says (fst (snd t)) w /\ w <> Nonsense) order ws' /\ Forall tidy ws').
    { unfold ws'. clear - Hin Hat. induction order as [|[j [q x]] order IH]; [split; constructor|]. destruct IH as [IH1 IH2]; [intros; eapply Hin; right; eassumption|].
      destruct (Hin j q x (or_introl eq_refl)) as [(st & Hj) (o & Ho)]. destruct (Hat _ _ _ Hj) as (A & _ & B & _). cbn [map fst]. split; constructor; auto. cbn [fst snd]. split; [exact A|].
      intros K. rewrite K in A. destruct (nonsense_call of_lit print q A) as [K' _]. congruence. }
    destruct F as [F Hti'].
    assert (Hn' : all_new ws' < two64).
    { change two64 with (2 ^ 64). eapply N.le_lt_trans; [|exact Hnew]. apply some_new; [exact Hnd|]. apply Forall_forall. intros j Hj. apply in_map_iff in Hj as ([j' [q x]] & <- & Hi).
      destruct (Hin _ _ _ Hi) as [(st & Hj) _]. now destruct (Hat _ _ _ Hj) as (_ & _ & _ & Hl). }
    destruct (ldb_story_any of_lit print c Hc Ht order ws' F Hti' ldb_init empty_log (D_init c) Hn' Hr Hb) as (b & S).
    exists ws', b. split; [|exact S]. clear - F. induction F as [|t w l l' [A _] _ IH]; constructor; assumption.
  - intros q Hin Hm. destruct (Hq q Hin) as (w & Hw & _).
    assert (Hn : w = Nonsense \/ w <> Nonsense) by (destruct w; auto; right; discriminate). destruct Hn as [->|Hn].
    + split; [exact Hw|]. now destruct (nonsense_call of_lit print q Hw).
    + rewrite (says_call of_lit print q w Hw Hn) in Hm. discriminate Hm.
Qed.
Print Assumptions C105_http_leveldb_partial.

(** * In bytes, with the JSON serializer *)
Section Bytes.
Variables (of_lit : string -> float) (show : float -> num) (packed : list entry -> string).
Hypothesis Hback : forall n, number n -> number (show (float_of of_lit n)).
Notation js := (json_serializer show).
Notation back := (fun n => show (float_of of_lit n)).

Lemma ldb_tale_any (order : list (nat * (wire * out))) ws :
  Forall2 (fun t w => wants (fst (snd t)) w /\ w <> Nonsense /\ sane_stamps (fst (snd t))) order ws -> Forall tidy ws -> forall st L b, D (patched js) (h_db (s_h st)) L ->
  pairs of_lit show (book_of L) b -> l_last L + all_new ws < 2 ^ 64 ->
  snd (run (ldb_step js) st (flat_map (fun t => match bytes_call of_lit show packed (fst (snd t)) with Some o => [o] | None => [] end) order)) = map (fun t => snd (snd t)) order ->
  Forall (fun x => x <> OutBlocked) (map (fun t => snd (snd t)) order) ->
  exists b', tale back b (map (fun t => fst (snd t)) order) ws (map (fun t => bytes_answer of_lit show packed (fst (snd t)) (snd (snd t))) order) b'.
Proof.
  pose proof (patched_ok js (unmarked_json show)) as Hc. pose proof (patched_total js) as Ht.
  intros H. induction H as [|[j [q x]] w order ws (Hq & Hw & Hst) _ IH]; intros Hti st L b HD HP Hl E Hb.
  { eexists. constructor. }
  cbn [map flat_map fst snd] in *. inversion Hti as [|? ? Hti1 Hti2]; subst. cbn [all_new] in Hl. pose proof (wants_says q w Hq) as Hsays.
  rewrite bytes_call_is, (says_call of_lit (text_of_value show) (request_of q) w Hsays Hw) in E. cbn [app run] in E. apply Forall_cons_iff in Hb as [Hb1 Hb2].
  pose proof (call_clean of_lit (text_of_value show) _ w Hsays Hti1 Hw) as Hcl.
  assert (Hadd : added (call_of of_lit (text_of_value show) (request_of q) w) = new_events w).
  { destruct w; cbn; try reflexivity. now rewrite stamped_length, map_length. }
  destruct (exec_step (patched js) L (call_of of_lit (text_of_value show) (request_of q) w) Ht) as [Hs Ef].
  destruct (written_works of_lit show Hback L b q w HP (D_ok _ _ _ HD) Hq Hst ltac:(lia)) as [_ Hwk].
  destruct (ldb_same_any js (unmarked_json show) st L _ HD (pairs_work of_lit show Hback L b HP) Hcl ltac:(rewrite Hadd; change two64 with (2 ^ 64); lia) Hwk) as [Em _].
  pose proof (step_any (patched js) Hc st L (call_of of_lit (text_of_value show) (request_of q) w) HD Hcl ltac:(change two64 with (2 ^ 64); lia)) as Hst1. rewrite <- Em in Hst1. clear Em.
  set (o := call_of of_lit (text_of_value show) (request_of q) w) in *.
  destruct (ldb_step js st o) as [st1 y]. destruct (run (ldb_step js) st1 _) as [st2 ys] eqn:Er. cbn [fst snd] in *. injection E as -> E.
  destruct Hst1 as [[-> _]|[Hx HD']]; [congruence|].
  set (z := snd (log_exec (patched js) L o)) in *. clearbody z. subst z.
  destruct (log_answers of_lit show packed Hback L b q w x x HP (D_ok _ _ _ HD) Hq Hst ltac:(lia) Hw Hs (or_introl eq_refl)) as ((b1 & S1 & HP1) & Hl1 & S2).
  fold o in HP1, Hl1. rewrite Ef in HD'.
  assert (Ea : bytes_answer of_lit show packed q x = in_bytes show packed q (reply w x)).
  { unfold bytes_answer. rewrite (bytes_http of_lit show packed unit (fun s _ => (s, x)) tt q tt _ (http_calls of_lit (text_of_value show) unit (fun s _ => (s, x)) tt _ w tt x Hsays Hw eq_refl S2)). reflexivity. }
  rewrite Ea. destruct (IH Hti2 st1 _ b1 HD' HP1 ltac:(lia)) as (b' & Hb'); [now rewrite Er|exact Hb2|]. exists b'. econstructor; [exact S1|exact Hb'].
Qed.

Lemma nonsense_bytes q : wants q Nonsense -> bytes_call of_lit show packed q = None /\ exists body, bytes_answer of_lit show packed q OutBlocked = Bytes 400 body.
Proof.
  intros H. pose proof (wants_says _ _ H) as Hs. rewrite bytes_call_is. split; [now apply nonsense_call|].
  destruct (nonsense_refused of_lit (text_of_value show) unit (fun s _ => (s, OutBlocked)) tt _ Hs) as (body & E).
  exists body. unfold bytes_answer. now rewrite (bytes_http _ _ _ _ _ _ _ _ _ E).
Qed.
Lemma wants_call q w : wants q w -> w <> Nonsense -> bytes_call of_lit show packed q = Some (call_of of_lit (text_of_value show) (request_of q) w).
Proof. intros H Hw. rewrite bytes_call_is. apply says_call; [now apply wants_says|exact Hw]. Qed.
End Bytes.

(** The bytes of the answers, for every history of requests, in-memory store. *)
Theorem C105_bytes_partial : forall of_lit show packed ls k ws, (forall n, number n -> number (show (float_of of_lit n))) ->
  hrun (mem_obj (json_serializer show)) (bytes_call of_lit show packed) (bytes_answer of_lit show packed) (hstart mem_init) ls = Some k ->
  Forall2 wants (sent (h_seen k)) ws -> Forall sane_stamps (sent (h_seen k)) -> Forall one_type ws -> all_new ws < 2 ^ 64 ->
  one_by_one
    (fun qs l => exists ws' b, Forall2 wants qs ws' /\ tale (fun n => show (float_of of_lit n)) empty_notebook qs ws' l b)
    (fun q a => wants q Nonsense /\ exists body, a = Bytes 400 body)
    (h_seen k).
Proof.
  intros of_lit show packed ls k ws Hback E Hs Hst H1 Hnew.
  pose proof (inv_run _ _ _ mem_init ls _ _ (inv_start _ _ _ mem_init) E) as V. pose proof (sent_run _ _ _ ls _ _ E eq_refl) as Hsent.
  assert (Hat : forall j q st, nth_error (h_reqs k) j = Some (q, st) -> wants q (nth j ws Nonsense) /\ one_type (nth j ws Nonsense) /\ sane_stamps q /\ (j < length ws)%nat).
  { intros j q st Hj. assert (Hq : nth_error (sent (h_seen k)) j = Some q) by (rewrite Hsent, nth_error_map, Hj; reflexivity).
    assert (Hl : (j < length ws)%nat).
    { rewrite <- (f2_length _ _ _ Hs). apply nth_error_Some. congruence. }
    split; [exact (wish_at wants _ _ Hs j q Hq)|]. rewrite !Forall_forall in *. split; [apply H1; now apply nth_In|]. split; [|exact Hl]. apply Hst. eapply nth_error_In; exact Hq. }
  assert (Hq : forall q, In q (sent (h_seen k)) -> exists w, wants q w /\ one_type w).
  { intros q Hq. rewrite Hsent in Hq. apply in_map_iff in Hq as ([q' st] & <- & Hi). apply In_nth_error in Hi as (j & Hj). destruct (Hat _ _ _ Hj) as (A & B & _). eauto. }
  destruct (v_run _ _ _ _ _ V) as (kls & Hk).
  eapply finish; [exact V| | |].
  - apply (C57_inmemory_linearizable_partial _ kls _ Hk). apply Forall_forall. intros o Ho.
    destruct (made_sent _ _ _ _ _ V o Ho) as (q & Hin & Hm). destruct (Hq q Hin) as (w & Hw & Hone).
    assert (Hn : w = Nonsense \/ w <> Nonsense) by (destruct w; auto; right; discriminate). destruct Hn as [->|Hn].
    + destruct (nonsense_bytes of_lit show packed q Hw) as [K _]. congruence.
    + rewrite (wants_call of_lit show packed q w Hw Hn) in Hm. injection Hm as <-. now apply call_one_lock.
  - intros order Hr Hnd Hin. cbv beta in Hr. set (ws' := map (fun j => nth j ws Nonsense) (map fst order)).
    assert (R : answers (bytes_step of_lit show packed mem (mem_step (json_serializer show))) mem_init (map (fun t => fst (snd t)) order) = map (fun t => bytes_answer of_lit show packed (fst (snd t)) (snd (snd t))) order).
    { apply answers_run; [|exact Hr]. intros [j [q x]] Hi. now destruct (Hin _ _ _ Hi). }
    assert (F : Forall2 wants (map (fun t => fst (snd t)) order) ws' /\ Forall sane_stamps (map (fun t => fst (snd t)) order)).
    { unfold ws'. clear - Hin Hat. induction order as [|[j [q x]] order IH]; [split; constructor|]. destruct IH as [IH1 IH2]; [intros; eapply Hin; right; eassumption|].
      destruct (Hin j q x (or_introl eq_refl)) as [(st & Hj) _]. destruct (Hat _ _ _ Hj) as (A & _ & B & _). cbn [map fst snd]. split; constructor; auto. }
    destruct F as [F Hst'].
    assert (Hn' : all_new ws' < 2 ^ 64).
    { eapply N.le_lt_trans; [|exact Hnew]. apply some_new; [exact Hnd|]. apply Forall_forall. intros j Hj. apply in_map_iff in Hj as ([j' [q x]] & <- & Hi).
      destruct (Hin _ _ _ Hi) as [(st & Hj) _]. now destruct (Hat _ _ _ Hj) as (_ & _ & _ & Hl). }
    destruct (C102_bytes of_lit show packed _ ws' Hback F Hst' Hn') as (b & S). rewrite R in S. eauto.
  - intros q Hin Hm. destruct (Hq q Hin) as (w & Hw & _).
    assert (Hn : w = Nonsense \/ w <> Nonsense) by (destruct w; auto; right; discriminate). destruct Hn as [->|Hn].
    + split; [exact Hw|]. now destruct (nonsense_bytes of_lit show packed q Hw).
    + rewrite (wants_call of_lit show packed q w Hw Hn) in Hm. discriminate Hm.
Qed.
Print Assumptions C105_bytes_partial.

(** ... LevelDB store. *)
Theorem C105_bytes_leveldb_partial : forall of_lit show packed ls k ws, (forall n, number n -> number (show (float_of of_lit n))) ->
  hrun (ldb_obj (json_serializer show)) (bytes_call of_lit show packed) (bytes_answer of_lit show packed) (hstart (s_h ldb_init)) ls = Some k ->
  Forall2 wants (sent (h_seen k)) ws -> Forall sane_stamps (sent (h_seen k)) -> Forall one_type ws -> Forall tidy ws -> all_new ws < 2 ^ 64 ->
  one_by_one
    (fun qs l => exists ws' b, Forall2 wants qs ws' /\ tale (fun n => show (float_of of_lit n)) empty_notebook qs ws' l b)
    (fun q a => wants q Nonsense /\ exists body, a = Bytes 400 body)
    (h_seen k).
Proof.
  intros of_lit show packed ls k ws Hback E Hs Hst H1 Hti Hnew.
  pose proof (inv_run _ _ _ (s_h ldb_init) ls _ _ (inv_start _ _ _ (s_h ldb_init)) E) as V. pose proof (sent_run _ _ _ ls _ _ E eq_refl) as Hsent.
  assert (Hat : forall j q st, nth_error (h_reqs k) j = Some (q, st) -> wants q (nth j ws Nonsense) /\ one_type (nth j ws Nonsense) /\ sane_stamps q /\ tidy (nth j ws Nonsense) /\ (j < length ws)%nat).
  { intros j q st Hj. assert (Hq : nth_error (sent (h_seen k)) j = Some q) by (rewrite Hsent, nth_error_map, Hj; reflexivity).
    assert (Hl : (j < length ws)%nat).
    { rewrite <- (f2_length _ _ _ Hs). apply nth_error_Some. congruence. }
    split; [exact (wish_at wants _ _ Hs j q Hq)|]. rewrite !Forall_forall in *. split; [apply H1; now apply nth_In|]. split; [|split; [apply Hti; now apply nth_In|exact Hl]]. apply Hst. eapply nth_error_In; exact Hq. }
  assert (Hq : forall q, In q (sent (h_seen k)) -> exists w, wants q w /\ one_type w).
  { intros q Hq. rewrite Hsent in Hq. apply in_map_iff in Hq as ([q' st] & <- & Hi). apply In_nth_error in Hi as (j & Hj). destruct (Hat _ _ _ Hj) as (A & B & _). eauto. }
  destruct (v_run _ _ _ _ _ V) as (kls & Hk).
  eapply finish; [exact V| | |].
  - apply (ldb_in_order _ kls _ Hk). apply Forall_forall. intros o Ho.
    destruct (made_sent _ _ _ _ _ V o Ho) as (q & Hin & Hm). destruct (Hq q Hin) as (w & Hw & Hone).
    assert (Hn : w = Nonsense \/ w <> Nonsense) by (destruct w; auto; right; discriminate). destruct Hn as [->|Hn].
    + destruct (nonsense_bytes of_lit show packed q Hw) as [K _]. congruence.
    + rewrite (wants_call of_lit show packed q w Hw Hn) in Hm. injection Hm as <-. now apply call_one_lock.
  - intros order [Hr Hb] Hnd Hin. set (ws' := map (fun j => nth j ws Nonsense) (map fst order)).
    assert (F : Forall2 (fun t w => wants (fst (snd t)) w /\ w <> Nonsense /\ sane_stamps (fst (snd t))) order ws' /\ Forall tidy ws').
    { unfold ws'. clear - Hin Hat. induction order as [|[j [q x]] order IH]; [split; constructor|]. destruct IH as [IH1 IH2]; [intros; eapply Hin; right; eassumption|].
      destruct (Hin j q x (or_introl eq_refl)) as [(st & Hj) (o & Ho)]. destruct (Hat _ _ _ Hj) as (A & _ & B & C & _). cbn [map fst]. split; constructor; auto. cbn [fst snd]. split; [exact A|]. split; [|exact B].
      intros K. rewrite K in A. destruct (nonsense_bytes of_lit show packed q A) as [K' _]. congruence. }
    destruct F as [F Hti'].
    assert (Hn' : all_new ws' < 2 ^ 64).
    { eapply N.le_lt_trans; [|exact Hnew]. apply some_new; [exact Hnd|]. apply Forall_forall. intros j Hj. apply in_map_iff in Hj as ([j' [q x]] & <- & Hi).
      destruct (Hin _ _ _ Hi) as [(st & Hj) _]. now destruct (Hat _ _ _ Hj) as (_ & _ & _ & _ & Hl). }
    destruct (ldb_tale_any of_lit show packed Hback order ws' F Hti' ldb_init empty_log empty_notebook (D_init _) ltac:(split; [reflexivity|constructor]) Hn' Hr Hb) as (b & S).
    exists ws', b. split; [|exact S]. clear - F. induction F as [|t w l l' [A _] _ IH]; constructor; assumption.
  - intros q Hin Hm. destruct (Hq q Hin) as (w & Hw & _).
    assert (Hn : w = Nonsense \/ w <> Nonsense) by (destruct w; auto; right; discriminate). destruct Hn as [->|Hn].
    + split; [exact Hw|]. now destruct (nonsense_bytes of_lit show packed q Hw).
    + rewrite (wants_call of_lit show packed q w Hw Hn) in Hm. discriminate Hm.
Qed.
Print Assumptions C105_bytes_leveldb_partial.

(** * Cases that meet the hypotheses *)

(** Two posts, a read of everything and a request that makes no sense, all at once: the
    read waits for the first post, the second post for the read; the last request is
    answered first and the first one last. *)
Definition moves (n0 n2 r : nat) : list label :=
  steps 0 2 ++ steps 2 1 ++ steps 1 2 ++ steps 0 n0 ++ steps 1 1 ++ steps 2 1 ++ repeat (LSub 1 0) r ++ [LStep 1] ++ steps 2 n2.
Definition at_once {Req} (qs : list Req) (n0 n2 r : nat) : list (hlabel (Req := Req)) :=
  map HArrive qs ++ map HServe [3; 0; 1; 2]%nat ++ map HStore (moves n0 n2 r) ++ map HServe [2; 1; 0]%nat.
Definition some_of {A} (l : list A) (d : A) (is : list nat) : list A := map (fun i => nth i l d) is.
Lemma some_f2 {A B} (P : A -> B -> Prop) (l : list (A * B)) d is : Forall2 P (map fst l) (map snd l) -> Forall (fun i => (i < length l)%nat) is ->
  Forall2 P (map fst (some_of l d is)) (map snd (some_of l d is)).
Proof.
  intros H Hi. assert (N : forall i, (i < length l)%nat -> P (fst (nth i l d)) (snd (nth i l d))).
  { clear Hi is. induction l as [|[a b] l IH]; intros [|i] Hl; cbn in *; try lia; inversion H; subst; [assumption|]. apply IH; [assumption|lia]. }
  induction Hi as [|i is Hi _ IH]; cbn; constructor; auto.
Qed.

Definition crowd_of : list (request * wish) := some_of demo (post "" "" None, Nonsense) [0; 7; 1; 6]%nat.
Notation hcall := (http_call (fun s => FOther s) show_value).
Notation hans := (http_answer (fun s => FOther s) show_value).
Example C105_inhabited : exists k k' r1 r2 t3, Forall2 says (map fst crowd_of) (map snd crowd_of)
  /\ Forall one_type (map snd crowd_of) /\ Forall tidy (map snd crowd_of)
  /\ hrun (mem_obj toy) hcall hans (hstart mem_init) (at_once (map fst crowd_of) 6 5 3) = Some k
  /\ hrun (ldb_obj toy) hcall hans (hstart (s_h ldb_init)) (at_once (map fst crowd_of) 8 7 4) = Some k'
  /\ h_seen k = h_seen k' /\ sent (h_seen k) = map fst crowd_of
  /\ skipn 4 (h_seen k) = [Got 3 (Answer 400 t3); Got 2 (succeeded 201 "streamSequenceNumber" 1);
                           Got 1 (Records [r1; r2]); Got 0 (succeeded 201 "streamSequenceNumber" 2)].
Proof.
  destruct C98_inhabited as (F & T & _).
  eexists _, _, _, _, _. split; [apply some_f2; [exact F|repeat constructor; cbn; lia]|]. split; [repeat constructor|]. split.
  { clear F. unfold demo in T. cbn [map snd] in T. repeat match type of T with Forall _ (_ :: _) => apply Forall_cons_iff in T as [? T] end. repeat (apply Forall_cons; [assumption|]); apply Forall_nil. }
  split; [vm_compute; reflexivity|]. split; [vm_compute; reflexivity|]. split; [reflexivity|]. split; reflexivity.
Qed.

(** The same in bytes. *)
Definition wires : list (wire * wish) := some_of scene (send "" "" "", Nonsense) [0; 6; 2; 4]%nat.
Notation bcall := (bytes_call lit_float lit_show (fun _ => "")).
Notation bans := (bytes_answer lit_float lit_show (fun _ => "")).
Example C105_bytes_inhabited : exists k k' t1 t2 t3, Forall2 wants (map fst wires) (map snd wires)
  /\ Forall sane_stamps (map fst wires) /\ Forall one_type (map snd wires) /\ Forall tidy (map snd wires)
  /\ hrun (mem_obj (json_serializer lit_show)) bcall bans (hstart mem_init) (at_once (map fst wires) 6 5 3) = Some k
  /\ hrun (ldb_obj (json_serializer lit_show)) bcall bans (hstart (s_h ldb_init)) (at_once (map fst wires) 8 7 4) = Some k'
  /\ h_seen k = h_seen k' /\ sent (h_seen k) = map fst wires
  /\ skipn 4 (h_seen k) = [Got 3 (Bytes 400 t3); Got 2 (Bytes 201 "{""status"":""OK"",""streamSequenceNumber"":1}");
                           Got 1 (Bytes 200 (t1 ++ t2)); Got 0 (Bytes 201 "{""status"":""OK"",""streamSequenceNumber"":2}")]
  /\ t1 = "{""streamName"":""thing!x"",""aggregateType"":""thing"",""aggregateID"":""x"",""globalSequenceNumber"":1,""streamSequenceNumber"":1,""insertTimestamp"":7,""eventID"":""id0"",""eventType"":""E"",""data"":{""a"":[true,null],""b"":-2e3},""metadata"":null}".
Proof.
  destruct C102_inhabited as (F & S & T & _).
  eexists _, _, _, _, _. split; [apply some_f2; [exact F|repeat constructor; cbn; lia]|]. split.
  { clear F T. unfold scene in S. cbn [map fst] in S. repeat match type of S with Forall _ (_ :: _) => apply Forall_cons_iff in S as [? S] end. repeat (apply Forall_cons; [assumption|]); apply Forall_nil. }
  split; [repeat constructor|]. split.
  { clear F S. unfold scene in T. cbn [map snd] in T. repeat match type of T with Forall _ (_ :: _) => apply Forall_cons_iff in T as [? T] end. repeat (apply Forall_cons; [assumption|]); apply Forall_nil. }
  split; [vm_compute; reflexivity|]. split; [vm_compute; reflexivity|]. split; [reflexivity|]. split; [reflexivity|]. split; [|reflexivity]. reflexivity.
Qed.

(** * Reads of several types *)

(** Without the condition on them it is not so, whatever the store: a read of two types
    that overlaps two posts, the second sent when the first was answered, shows the
    event of the second post only. *)
Definition torn_requests : list request :=
  [ post "/events-by-aggregate-type/thing,other.json" "" None
  ; post "/save-events/thing!x" "" (Some (JArr [ev_json "thing" "x" "a"]))
  ; post "/save-events/other!y" "" (Some (JArr [ev_json "other" "y" "b"])) ].
Definition torn_http (first n last : nat) : list (hlabel (Req := request)) :=
  match torn_requests with
  | [q0; q1; q2] =>
      [HArrive q0; HServe 0] ++ map HStore (steps 0 3 ++ repeat (LSub 0 0) first) ++
      [HArrive q1; HServe 1] ++ map HStore (steps 1 n) ++ [HServe 1] ++
      [HArrive q2; HServe 2] ++ map HStore (steps 2 n) ++ [HServe 2] ++
      map HStore (steps 0 2 ++ repeat (LSub 0 1) last ++ [LStep 0]) ++ [HServe 0]
  | _ => []
  end.

Lemma three_http {Q A} (allowed : list Q -> list A -> Prop) q0 q1 q2 a0 a1 a2 :
  (forall order, In order [[(q0, a0); (q1, a1); (q2, a2)]; [(q0, a0); (q2, a2); (q1, a1)]; [(q1, a1); (q0, a0); (q2, a2)];
      [(q1, a1); (q2, a2); (q0, a0)]; [(q2, a2); (q0, a0); (q1, a1)]; [(q2, a2); (q1, a1); (q0, a0)]] -> ~ allowed (map fst order) (map snd order)) ->
  ~ one_by_one allowed (fun _ _ => False) [Came 0 q0; Came 1 q1; Got 1 a1; Came 2 q2; Got 2 a2; Got 0 a0].
Proof.
  intros Hno (order & H1 & H2 & H3 & H4 & _).
  destruct (H4 0%nat a0) as (p0 & J0 & [I0|[]]); [cbn; tauto|].
  destruct (H4 1%nat a1) as (p1 & J1 & [I1|[]]); [cbn; tauto|].
  destruct (H4 2%nat a2) as (p2 & J2 & [I2|[]]); [cbn; tauto|].
  cbn in J0, J1, J2. assert (p0 = q0) as -> by intuition congruence. assert (p1 = q1) as -> by intuition congruence. assert (p2 = q2) as -> by intuition congruence.
  set (T0 := (0%nat, (q0, a0))) in *. set (T1 := (1%nat, (q1, a1))) in *. set (T2 := (2%nat, (q2, a2))) in *.
  assert (U : forall t1 t2, In t1 order -> In t2 order -> fst t1 = fst t2 -> t1 = t2).
  { clear -H2. induction order as [|t order IH]; cbn; [tauto|]. inversion H2 as [|? ? N1 N2]; subst.
    intros t1 t2 [->|G1] [->|G2] Ef; auto; exfalso; apply N1; apply in_map_iff; eauto. }
  assert (D01 : T0 <> T1) by discriminate. assert (D02 : T0 <> T2) by discriminate. assert (D12 : T1 <> T2) by discriminate.
  assert (All : forall t, In t order -> t = T0 \/ t = T1 \/ t = T2).
  { intros [i [q a]] Ht. destruct i as [|[|[|i]]]; [left|right; left|right; right|].
    - exact (U _ _ Ht I0 eq_refl).
    - exact (U _ _ Ht I1 eq_refl).
    - exact (U _ _ Ht I2 eq_refl).
    - exfalso. clear - H3 Ht. specialize (H3 _ _ _ Ht). cbn [In] in H3. destruct H3 as [K|[K|[K|[K|[K|[K|[]]]]]]]; discriminate K. }
  assert (Hn : NoDup order) by (eapply NoDup_map_inv; exact H2).
  assert (Hl : length order = 3%nat).
  { apply Nat.le_antisymm.
    - apply (NoDup_incl_length (l' := [T0; T1; T2]) Hn). intros t Ht. destruct (All _ Ht) as [->|[->| ->]]; [left|right; left|right; right; left]; reflexivity.
    - apply (NoDup_incl_length (l := [T0; T1; T2]) (l' := order)).
      + constructor; [intros [K|[K|[]]]; now symmetry in K|]. constructor; [intros [K|[]]; now symmetry in K|]. constructor; [intros []|constructor].
      + intros t [<-|[<-|[<-|[]]]]; assumption. }
  destruct order as [|a [|b [|d [|? ?]]]]; try discriminate. clear Hl.
  assert (Ha := All a (or_introl eq_refl)). assert (Hb := All b (or_intror (or_introl eq_refl))). assert (Hd := All d (or_intror (or_intror (or_introl eq_refl)))).
  apply NoDup_cons_iff in Hn as [N1 Hn]. apply NoDup_cons_iff in Hn as [N3 _].
  assert (Nab : a <> b) by (intros ->; apply N1; now left). assert (Nad : a <> d) by (intros ->; apply N1; right; now left). assert (Nbd : b <> d) by (intros ->; apply N3; now left).
  apply (Hno (map snd [a; b; d])); [|exact H1]. clear - Ha Hb Hd Nab Nad Nbd.
  destruct Ha as [->|[->| ->]], Hb as [->|[->| ->]]; try (now destruct (Nab eq_refl)); destruct Hd as [->|[->| ->]];
    try (now destruct (Nad eq_refl)); try (now destruct (Nbd eq_refl)); cbn [map snd T0 T1 T2]; unfold T0, T1, T2; cbn [snd In]; auto 7.
Qed.

Theorem C105_several_types_refuted : exists k r t1 t2,
  hrun (mem_obj toy) hcall hans (hstart mem_init) (torn_http 1 7 2) = Some k
  /\ h_seen k = [Came 0 (nth 0 torn_requests (post "" "" None)); Came 1 (nth 1 torn_requests (post "" "" None)); Got 1 (Answer 201 t1);
                 Came 2 (nth 2 torn_requests (post "" "" None)); Got 2 (Answer 201 t2); Got 0 (Records [r])]
  /\ said r = ("other!y", "other", "y", "E", "b", "null")
  /\ ~ one_by_one (fun qs l => replies (http_step (fun s => FOther s) show_value mem (mem_step toy)) mem_init qs = l) (fun _ _ => False) (h_seen k).
Proof.
  eexists _, _, _, _. split; [vm_compute; reflexivity|]. split; [reflexivity|]. split; [reflexivity|].
  apply three_http. intros order H. cbn [In] in H. decompose [or] H; try tauto; subst; vm_compute; discriminate.
Qed.
Print Assumptions C105_several_types_refuted.

Theorem C105_several_types_leveldb_refuted : exists k r t1 t2,
  hrun (ldb_obj toy) hcall hans (hstart (s_h ldb_init)) (torn_http 2 9 3) = Some k
  /\ h_seen k = [Came 0 (nth 0 torn_requests (post "" "" None)); Came 1 (nth 1 torn_requests (post "" "" None)); Got 1 (Answer 201 t1);
                 Came 2 (nth 2 torn_requests (post "" "" None)); Got 2 (Answer 201 t2); Got 0 (Records [r])]
  /\ said r = ("other!y", "other", "y", "E", "b", "null")
  /\ ~ one_by_one (fun qs l => replies (http_step (fun s => FOther s) show_value ldb (ldb_step toy)) ldb_init qs = l) (fun _ _ => False) (h_seen k).
Proof.
  eexists _, _, _, _. split; [vm_compute; reflexivity|]. split; [reflexivity|]. split; [reflexivity|].
  apply three_http. intros order H. cbn [In] in H. decompose [or] H; try tauto; subst; vm_compute; discriminate.
Qed.
Print Assumptions C105_several_types_leveldb_refuted.
