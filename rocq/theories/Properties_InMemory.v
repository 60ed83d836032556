(** Property theorems about the in-memory store (C06-C13). *)
From Verif Require Import Base Core CoreSpec CoreProofs LogSpec LogProofs StoreSpec ToyCodec InMemory InMemoryProofs InMemoryNumbers.
From Coq Require Import Arith.

(** The store after a history, and the answers it gave. *)
Definition mem_after (c : codec) (ops : list op) : mem := fst (run (mem_step c) mem_init ops).
Definition mem_outs (c : codec) (ops : list op) : list out := snd (run (mem_step c) mem_init ops).

Definition thing (d : string) : event := mk_event "thing" "x" "E" d "" "u" 7.
Definition other (d : string) : event := mk_event "other" "y" "E" d "" "u" 7.

(** C06: every plain history gets the answers of the log. *)
Theorem C06_inmemory_refines_log : forall c ops, codec_ok c -> Forall (plain_call c) ops ->
  exists answers L, log_run c empty_log ops answers L /\ all_agree ops answers (mem_outs c ops).
Proof.
  intros c ops Hc Hp. destruct (run_ok c Hc ops mem_init empty_log (R_init c) Hp) as (xs & L & H1 & H2 & _). eauto.
Qed.
Print Assumptions C06_inmemory_refines_log.

Definition demo : list op :=
  [ OpSave None "thing!x" [thing "a"; thing "b"] None;
    OpSave (Some 0) "other!y" [other "c"] None;
    OpSave (Some 5) "thing!x" [thing "d"] None;
    OpSave (Some 2) "thing!x" [thing "d"; thing "e"] None;
    OpByTypes 2 ["other"; "thing"];
    OpDelete 4 "thing!x" None;
    OpEvents 0;
    OpByStream 0 "thing!x" ].

Example C06_witness_plain : Forall (plain_call toy) demo.
Proof.
  assert (S : forall ex s evs, one_aggregate evs -> plain_call toy (OpSave ex s evs None)).
  { intros ex s evs H. split; [exact H|]. split; [now left|]. left. exact toy_total. }
  unfold demo. repeat apply Forall_cons; try (apply S; intros e e' He He'; cbn in *; intuition (subst; auto)); try exact I.
  - cbn. repeat constructor; cbn; intuition discriminate.
  - constructor.
Qed.
Example C06_witness_answers : mem_outs toy demo = snd (run (log_exec toy) empty_log demo)
  /\ nth_error (mem_outs toy demo) 2 = Some (OutFailed (EUnexpectedSeq 5 2)).
Proof. split; vm_compute; reflexivity. Qed.

(** C07: in any history whatever (any names, batches, cancellations, encoding
    failures), what was saved or read earlier has a smaller number than what is
    saved later; each batch is numbered upwards. *)
Theorem C07_numbers_grow : forall c ops, codec_ok c ->
  (forall i j x y r r', (i < j)%nat ->
     nth_error (mem_outs c ops) i = Some x -> nth_error (mem_outs c ops) j = Some y ->
     In r (shown x) -> In r' (saved y) -> r_gsn r < r_gsn r')
  /\ (forall i x, nth_error (mem_outs c ops) i = Some x -> gsn_increasing (saved x)).
Proof. intros c ops Hc. apply (numbers_ok c Hc ops mem_init). right. apply J_init. Qed.
Print Assumptions C07_numbers_grow.

(** C07: and Events never fails on what is stored and is sorted, distinct, and
    starts at the requested number. *)
Theorem C07_events_sorted : forall c ops g, codec_ok c ->
  snd (mem_step c (mem_after c ops) (OpEvents g)) = OutBlocked \/
  exists rs, snd (mem_step c (mem_after c ops) (OpEvents g)) = OutResults (map RRec rs)
    /\ gsn_increasing rs /\ forall r, In r rs -> g <= r_gsn r.
Proof.
  intros c ops g Hc. destruct (fact_run c Hc ops mem_init (or_intror (J_init c))) as [[Hl|HJ] _];
    fold (mem_after c ops) in *; cbn [mem_step].
  - left. now rewrite Hl.
  - destruct (m_locked (mem_after c ops)); [now left|right].
    destruct (events_sorted c _ g HJ) as (rs & E & H). exists rs. cbn. now rewrite E.
Qed.
Print Assumptions C07_events_sorted.

Example C07_witness :
  (exists r r', mem_outs toy [OpSave None "s" [thing "a"] None; OpDelete 1 "s" None; OpSave None "s" [thing "b"] None]
    = [OutSaved 1 [r]; OutDeleted; OutSaved 1 [r']] /\ r_gsn r = 1 /\ r_gsn r' = 2).
Proof. vm_compute. eexists _, _. split; [reflexivity|]. split; reflexivity. Qed.

(** C08: every stream is numbered 1..n, and the total is n. *)
Theorem C08_streams_numbered_from_one : forall c ops s, codec_ok c -> Forall (tame_call c) ops ->
  let m := mem_after c ops in
  exists rs, mem_step c m (OpTotal s None) = (m, OutTotal (N.of_nat (length rs)))
    /\ mem_step c m (OpByStream 0 s) = (m, OutResults (match rs with [] => [RErr EStreamNotFound] | _ => map RRec rs end))
    /\ map r_ssn rs = one_to (length rs).
Proof.
  intros c ops s Hc Ht m. destruct (run_tame c Hc ops mem_init empty_log (R_init c) Ht) as (L & HR).
  fold (mem_after c ops) in HR. fold m in HR. exists (of_stream s L). repeat split.
  - destruct (step_read c m L (OpTotal s None) HR I) as (x & E & ->). cbn in E. injection E as <-. reflexivity.
  - destruct (step_read c m L (OpByStream 0 s) HR I) as (x & E & ->). cbn in E. injection E as <-. do 2 f_equal.
    unfold stream_length, log_by_stream. destruct (of_stream s L) eqn:Eo; [reflexivity|].
    cbn [length]. replace (N.of_nat (S (length l)) =? 0) with false by (symmetry; apply N.eqb_neq; lia).
    rewrite filter_all; auto. intros. apply N.leb_le. lia.
  - eapply stream_numbers; eauto.
Qed.
Print Assumptions C08_streams_numbered_from_one.

Example C08_witness : codec_ok toy /\ Forall (tame_call toy) demo
  /\ snd (mem_step toy (mem_after toy (firstn 4 demo)) (OpTotal "thing!x" None)) = OutTotal 4
  /\ snd (mem_step toy (mem_after toy demo) (OpTotal "thing!x" None)) = OutTotal 0
  /\ snd (mem_step toy (mem_after toy demo) (OpTotal "other!y" None)) = OutTotal 1.
Proof.
  split; [exact toy_ok|]. split; [|repeat split; vm_compute; reflexivity].
  unfold demo. repeat (apply Forall_cons; [first [exact I|left; exact toy_total]|]). apply Forall_nil.
Qed.

(** C08 fails when an encoding failure hits a batch saved to a stream that is not
    named after its aggregate: the rollback trims the wrong stream.  Here one event
    of "thing!x" is in Events, but the total of "thing!x" is 0, and the total of
    "custom" is 1 although nothing of it exists. *)
Definition wrong_trim : list op :=
  [ OpSave None "thing!x" [thing "a"] None;
    OpSave None "custom" [thing "b"; thing "unencodable"] None ].
Theorem C08_streams_numbered_refuted : exists c ops s r, codec_ok c
  /\ mem_step c (mem_after c ops) (OpEvents 0) = (mem_after c ops, OutResults [RRec r])
  /\ r_stream r = s
  /\ snd (mem_step c (mem_after c ops) (OpTotal s None)) = OutTotal 0
  /\ snd (mem_step c (mem_after c ops) (OpTotal "custom" None)) = OutTotal 1
  /\ snd (mem_step c (mem_after c ops) (OpByStream 0 "custom")) = OutResults [RErr ERecordMissing].
Proof.
  exists picky, wrong_trim, "thing!x". eexists. split; [exact picky_ok|].
  split; [vm_compute; reflexivity|]. repeat split; vm_compute; reflexivity.
Qed.
Print Assumptions C08_streams_numbered_refuted.

Lemma encodable_accepted c s t i evs : encodable c s evs ->
  Forall (fun e => ev_atype e = t /\ ev_aid e = i) evs ->
  forall g k n, refusal c None s t i g k n evs = None.
Proof.
  intros He Hf. induction Hf as [|e evs [Et Ei] Hf IH]; intros g k n; cbn [refusal done_at]; auto.
  rewrite Et, Ei, !String.eqb_refl. cbn [negb].
  destruct (ser c _) eqn:E; [|exfalso; eapply He; [now left|exact E]].
  apply IH. intros e' g' k' Hin. apply He. now right.
Qed.

Lemma one_aggregate_forall e evs : one_aggregate (e :: evs) ->
  Forall (fun e' => ev_atype e' = ev_atype e /\ ev_aid e' = ev_aid e) (e :: evs).
Proof. intros H. apply Forall_forall. intros e' He'. apply H; [exact He'|now left]. Qed.

Lemma save_total c m L s n : R c m L -> stream_length s L = n -> mem_step c m (OpTotal s None) = (m, OutTotal n).
Proof.
  intros HR E. destruct (step_read c m L (OpTotal s None) HR I) as (x & Ex & ->). cbn in Ex. injection Ex as <-. now rewrite E.
Qed.

(** An encodable batch is stored from any reachable state. *)
Lemma save_succeeds c m L ex s evs : codec_ok c -> R c m L -> evs <> [] -> one_aggregate evs -> encodable c s evs ->
  (ex = None \/ ex = Some (stream_length s L)) ->
  exists m', mem_step c m (OpSave ex s evs None)
     = (m', OutSaved (stream_length s L + N.of_nat (length evs)) (appended L s evs)) /\ R c m' (append_log L s evs).
Proof.
  intros Hc HR Hne Hone Henc Hex. destruct evs as [|e evs]; [congruence|].
  cbn [mem_step]. rewrite (R_locked _ _ _ HR).
  (* the loop, without assumption on the name since nothing fails *)
  assert (Hgen : forall todo pre m at_ ai ex n pending last,
    R c m (append_log L s pre) -> pre ++ todo = e :: evs ->
    ((at_ = "" /\ ai = "") \/ (at_ = ev_atype e /\ ai = ev_aid e)) ->
    next_expected (append_log L s pre) s ex -> decoded c pending = appended L s pre ->
    last = stream_length s L + N.of_nat (length pre) \/ todo <> [] ->
    exists m' pending', mem_save_loop c m s at_ ai ex None n (map r_gsn (appended L s pre)) pending last todo
      = (m', SaveOk (stream_length s L + N.of_nat (length (e :: evs))) pending')
      /\ R c m' (append_log L s (e :: evs)) /\ decoded c pending' = appended L s (e :: evs)).
  { induction todo as [|e' todo IH]; intros pre m0 at_ ai ex0 n pending last HR0 Hpre Hat Hex0 Hp Hl.
    - rewrite app_nil_r in Hpre. subst pre. cbn [mem_save_loop]. destruct Hl as [->|]; [|congruence]. eauto.
    - assert (He' : ev_atype e' = ev_atype e /\ ev_aid e' = ev_aid e).
      { apply Hone; [|now left]. rewrite <- Hpre. apply in_or_app. cbn. auto. }
      destruct He' as [Et Ei]. cbn [mem_save_loop done_at]. rewrite Et, Ei.
      assert (Hat1 : negb (String.eqb at_ "") && negb (String.eqb at_ (ev_atype e)) = false).
      { destruct Hat as [[-> _]|[-> _]]; [reflexivity|]. rewrite String.eqb_refl. apply Bool.andb_false_r. }
      assert (Hai1 : negb (String.eqb ai "") && negb (String.eqb ai (ev_aid e)) = false).
      { destruct Hat as [[_ ->]|[_ ->]]; [reflexivity|]. rewrite String.eqb_refl. apply Bool.andb_false_r. }
      rewrite Hat1, Hai1.
      destruct (ser c (record_at s (l_last (append_log L s pre) + 1) (stream_length s (append_log L s pre) + 1) e')) as [d|] eqn:Eser.
      2:{ exfalso. eapply Henc; [|exact Eser]. rewrite <- Hpre. apply in_or_app. cbn. auto. }
      destruct (R_save_one c Hc m0 _ s ex0 e' d HR0 Hex0 Eser) as (m1 & -> & HR1).
      rewrite append_append in HR1.
      assert (Ecs : map r_gsn (appended L s pre) ++ [r_gsn (record_at s (l_last (append_log L s pre) + 1) (stream_length s (append_log L s pre) + 1) e')]
                    = map r_gsn (appended L s (pre ++ [e']))).
      { rewrite appended_app, map_app. reflexivity. }
      rewrite Ecs. apply IH; auto.
      + rewrite <- app_assoc. exact Hpre.
      + destruct Hex0 as [->|Hx]; [left; reflexivity|right]. rewrite Hx. f_equal.
        rewrite <- append_append, (stream_length_append (append_log L s pre)). cbn [length]. lia.
      + rewrite decoded_app, Hp, appended_app. f_equal. cbn [decoded]. rewrite (Hc _ _ Eser). reflexivity.
      + left. cbn [r_ssn record_at]. rewrite stream_length_append, app_length. cbn [length]. lia. }
  destruct (Hgen (e :: evs) [] m "" "" ex 0%nat [] 0) as (m' & p & E & HR' & Hd); auto;
    try (rewrite append_nil; assumption); try (right; discriminate).
  - change (map r_gsn (appended L s [])) with (@nil N) in E. unfold mem_save. rewrite E, Hd. eauto.
Qed.

(** C09: OptimisticSave is a compare-and-append, from every state reached by any
    tame history. *)
Theorem C09_inmemory_compare_and_append : forall c ops e s evs, codec_ok c -> Forall (tame_call c) ops ->
  evs <> [] -> one_aggregate evs -> encodable c s evs ->
  let m := mem_after c ops in
  exists n, mem_step c m (OpTotal s None) = (m, OutTotal n) /\
  (e = n -> exists m' recs, mem_step c m (OpSave (Some e) s evs None) = (m', OutSaved (e + N.of_nat (length evs)) recs)
      /\ mem_step c m' (OpTotal s None) = (m', OutTotal (e + N.of_nat (length evs)))) /\
  (e <> n -> exists m', mem_step c m (OpSave (Some e) s evs None) = (m', OutFailed (EUnexpectedSeq e n))
      /\ same_reads (mem_step c) m m').
Proof.
  intros c ops e s evs Hc Ht Hne Hone Henc m.
  destruct (run_tame c Hc ops mem_init empty_log (R_init c) Ht) as (L & HR).
  fold (mem_after c ops) in HR. fold m in HR. exists (stream_length s L). split; [eapply save_total; eauto|]. split.
  - intros ->. destruct (save_succeeds c m L (Some (stream_length s L)) s evs) as (m' & E & HR'); auto.
    exists m', (appended L s evs). split; [exact E|]. eapply save_total; eauto. apply stream_length_append.
  - intros Hx. destruct evs as [|e0 evs]; [congruence|].
    destruct (save_mismatch c m L s e e0 evs None HR eq_refl Hx) as (m' & E & HR'). exists m'.
    split; [cbn [mem_step]; rewrite (R_locked _ _ _ HR); exact E|]. eapply reads_same; eauto.
Qed.
Print Assumptions C09_inmemory_compare_and_append.

Example C09_witness : one_aggregate [thing "a"; thing "b"] /\ encodable picky "s" [thing "a"; thing "b"]
  /\ snd (mem_step picky mem_init (OpSave (Some 0) "s" [thing "a"; thing "b"] None)) <> OutFailed ESerialize.
Proof.
  split; [intros e e' [<-|[<-|[]]] [<-|[<-|[]]]; split; reflexivity|]. split; [|vm_compute; discriminate].
  intros e g k [<-|[<-|[]]]; cbn; discriminate.
Qed.

(** C10 (guarded): a plain save that returns an error changes no read. *)
Theorem C10_failed_save_leaves_no_trace_partial : forall c ops ex s evs cn m' e,
  codec_ok c -> Forall (tame_call c) ops -> plain_call c (OpSave ex s evs cn) ->
  mem_step c (mem_after c ops) (OpSave ex s evs cn) = (m', OutFailed e) ->
  same_reads (mem_step c) (mem_after c ops) m'.
Proof.
  intros c ops ex s evs cn m' e Hc Ht Hp E.
  destruct (run_tame c Hc ops mem_init empty_log (R_init c) Ht) as (L & HR). fold (mem_after c ops) in HR.
  destruct (step_save c Hc _ L ex s evs cn HR Hp) as (x & L' & H1 & H2 & H3 & H4 & _).
  rewrite E in *. cbn [fst snd] in *. subst x. rewrite (H4 e eq_refl) in H3.
  eapply reads_same; eauto.
Qed.
Print Assumptions C10_failed_save_leaves_no_trace_partial.

(** C10 (guarded): and unless the failure was one of encoding (which burns one
    global number), every later plain history answers as if the call had not been
    made. *)
Theorem C10_later_answers_unchanged_partial : forall c ops ex s evs cn m' e later,
  codec_ok c -> Forall (tame_call c) ops -> plain_call c (OpSave ex s evs cn) ->
  mem_step c (mem_after c ops) (OpSave ex s evs cn) = (m', OutFailed e) -> e <> ESerialize ->
  Forall (plain_call c) later ->
  exists answers, all_agree later answers (snd (run (mem_step c) (mem_after c ops) later))
    /\ all_agree later answers (snd (run (mem_step c) m' later)).
Proof.
  intros c ops ex s evs cn m' e later Hc Ht Hp E Hne Hl.
  destruct (run_tame c Hc ops mem_init empty_log (R_init c) Ht) as (L & HR). fold (mem_after c ops) in HR.
  destruct (step_save c Hc _ L ex s evs cn HR Hp) as (x & L' & H1 & H2 & H3 & H4 & _).
  rewrite E in *. cbn [fst snd] in *. subst x. rewrite (H4 e eq_refl) in H3.
  apply (run_same c Hc later _ _ L); auto. destruct e; try exact H3; try (destruct L; exact H3). congruence.
Qed.
Print Assumptions C10_later_answers_unchanged_partial.

Example C10_witness : plain_call picky (OpSave None "thing!x" [thing "b"; thing "unencodable"] None)
  /\ snd (mem_step picky (mem_after picky [OpSave None "thing!x" [thing "a"] None])
       (OpSave None "thing!x" [thing "b"; thing "unencodable"] None)) = OutFailed ESerialize.
Proof.
  split; [|vm_compute; reflexivity]. repeat split; auto; cbn in *;
    try (destruct H as [<-|[<-|[]]]; destruct H0 as [<-|[<-|[]]]; reflexivity).
  right; right. split; [intros e e' [<-|[<-|[]]] [<-|[<-|[]]]; split; reflexivity|].
  intros e [<-|[<-|[]]]; reflexivity.
Qed.

(** C10 is false in general, in three ways. A batch of two aggregates: the error is
    returned but the first event stays. *)
Theorem C10_mismatched_batch_refuted : exists m' r,
  mem_step toy mem_init (OpSave None "s" [thing "a"; other "b"] None) = (m', OutFailed EUnmatchedType)
  /\ snd (mem_step toy m' (OpEvents 0)) = OutResults [RRec r].
Proof. eexists _, _. split; [vm_compute; reflexivity|vm_compute; reflexivity]. Qed.
Print Assumptions C10_mismatched_batch_refuted.

(** A context cancelled in the middle of the batch: the same. *)
Theorem C10_cancelled_batch_refuted : exists m' r,
  mem_step toy mem_init (OpSave None "s" [thing "a"; thing "b"] (Some 1%nat)) = (m', OutFailed ECanceled)
  /\ snd (mem_step toy m' (OpEvents 0)) = OutResults [RRec r].
Proof. eexists _, _. split; vm_compute; reflexivity. Qed.
Print Assumptions C10_cancelled_batch_refuted.

(** An encoding failure in a batch saved to a stream not named after its aggregate:
    the rollback panics with the mutex held, and every later call blocks. *)
Theorem C10_store_wedged_refuted : exists m', codec_ok picky /\
  mem_step picky mem_init (OpSave None "custom" [thing "a"; thing "unencodable"] None) = (m', OutPanic)
  /\ snd (mem_step picky m' (OpEvents 0)) = OutBlocked
  /\ snd (mem_step picky m' (OpSave None "s" [thing "a"] None)) = OutBlocked.
Proof. eexists. split; [exact picky_ok|]. split; [vm_compute; reflexivity|]. split; vm_compute; reflexivity. Qed.
Print Assumptions C10_store_wedged_refuted.

(** And even a clean rollback burns a global number, which later reads show. *)
Theorem C10_number_burnt_refuted : exists m' r,
  mem_step picky mem_init (OpSave None "thing!x" [thing "unencodable"] None) = (m', OutFailed ESerialize)
  /\ snd (mem_step picky m' (OpSave None "thing!x" [thing "a"] None)) = OutSaved 1 [r] /\ r_gsn r = 2.
Proof. eexists _, _. split; [vm_compute; reflexivity|]. split; [vm_compute; reflexivity|]. reflexivity. Qed.
Print Assumptions C10_number_burnt_refuted.

Lemma delete_log c L n s cn x L' : log_step c L (OpDelete n s cn) x L' ->
  (x = OutDeleted /\ delete_refused L n s cn = None /\ L' = remove_stream s L)
  \/ (exists e, x = OutFailed e /\ delete_refused L n s cn = Some e /\ L' = L).
Proof. intros H. inversion H; subst; try discriminate; eauto 6. Qed.

(** C11: a successful delete removes exactly that stream from every read, and the
    stream starts again at 1. *)
Theorem C11_inmemory_delete_exact : forall c ops n s cn m', codec_ok c -> Forall (tame_call c) ops ->
  mem_step c (mem_after c ops) (OpDelete n s cn) = (m', OutDeleted) ->
  let m := mem_after c ops in
  let keep := fun r => negb (String.eqb (r_stream r) s) in
  (forall g, exists rs, mem_step c m (OpEvents g) = (m, OutResults (map RRec rs))
     /\ mem_step c m' (OpEvents g) = (m', OutResults (map RRec (filter keep rs))))
  /\ (forall g ts, NoDup ts -> exists rs, mem_step c m (OpByTypes g ts) = (m, OutResults (map RRec rs))
     /\ mem_step c m' (OpByTypes g ts) = (m', OutResults (map RRec (filter keep rs))))
  /\ (forall k s', s' <> s -> snd (mem_step c m' (OpByStream k s')) = snd (mem_step c m (OpByStream k s'))
     /\ snd (mem_step c m' (OpTotal s' None)) = snd (mem_step c m (OpTotal s' None)))
  /\ (forall k, mem_step c m' (OpByStream k s) = (m', OutResults [RErr EStreamNotFound]))
  /\ mem_step c m' (OpTotal s None) = (m', OutTotal 0)
  /\ (forall evs, evs <> [] -> one_aggregate evs -> encodable c s evs ->
        exists m'' recs, mem_step c m' (OpSave (Some 0) s evs None) = (m'', OutSaved (N.of_nat (length evs)) recs)
          /\ map r_ssn recs = one_to (length evs)).
Proof.
  intros c ops n s cn m' Hc Ht E m keep.
  destruct (run_tame c Hc ops mem_init empty_log (R_init c) Ht) as (L & HR). fold (mem_after c ops) in HR.
  destruct (step_delete c _ L n s cn HR) as (x & L' & H1 & H2 & H3).
  rewrite E in *. cbn [fst snd] in *. fold m in HR.
  assert (HL : l_recs L' = filter keep (l_recs L)).
  { destruct (delete_log _ _ _ _ _ _ _ H1) as [(_ & _ & ->)|(e & -> & Href & ->)]; [reflexivity|].
    destruct H2 as [H2|H2]; [congruence|]. destruct e; try contradiction.
    assert (of_stream s L = []) as Hz.
    { unfold delete_refused in Href. destruct (done_at cn 0); [discriminate|].
      destruct (N.eqb_spec (stream_length s L) 0) as [Hz|]; [|destruct (n =? stream_length s L); discriminate].
      unfold stream_length in Hz. destruct (of_stream s L); auto. cbn in Hz. lia. }
    rewrite <- (remove_absent L s Hz) at 1. reflexivity. }
  assert (Hos : of_stream s L' = []).
  { unfold of_stream. rewrite HL, filter_filter. apply filter_none. intros r _. unfold keep, in_stream.
    destruct (String.eqb (r_stream r) s); reflexivity. }
  assert (Hot : forall s', s' <> s -> of_stream s' L' = of_stream s' L).
  { intros s' Hne. unfold of_stream. rewrite HL, filter_filter. apply filter_ext_in. intros r _. unfold keep, in_stream.
    destruct (String.eqb_spec (r_stream r) s'); [|apply Bool.andb_false_r].
    destruct (String.eqb_spec (r_stream r) s); [congruence|reflexivity]. }
  assert (Hz : stream_length s L' = 0) by (unfold stream_length; now rewrite Hos).
  repeat apply conj.
  - intros g. exists (log_events g L).
    destruct (step_read c m L (OpEvents g) HR I) as (x1 & E1 & ->).
    destruct (step_read c m' L' (OpEvents g) H3 I) as (x2 & E2 & ->). cbn in E1, E2. injection E1 as <-. injection E2 as <-.
    split; [reflexivity|]. unfold log_events. rewrite HL, !filter_filter.
    do 3 f_equal. apply filter_ext. intros r. apply Bool.andb_comm.
  - intros g ts Hnd. exists (log_by_types g ts L).
    destruct (step_read c m L (OpByTypes g ts) HR Hnd) as (x1 & E1 & ->).
    destruct (step_read c m' L' (OpByTypes g ts) H3 Hnd) as (x2 & E2 & ->). cbn in E1, E2. injection E1 as <-. injection E2 as <-.
    split; [reflexivity|]. unfold log_by_types. rewrite HL, !filter_filter.
    do 3 f_equal. apply filter_ext. intros r. apply Bool.andb_comm.
  - intros k s' Hne.
    destruct (step_read c m L (OpByStream k s') HR I) as (x1 & E1 & ->).
    destruct (step_read c m' L' (OpByStream k s') H3 I) as (x2 & E2 & ->). cbn in E1, E2. injection E1 as <-. injection E2 as <-.
    destruct (step_read c m L (OpTotal s' None) HR I) as (x1 & E1 & ->).
    destruct (step_read c m' L' (OpTotal s' None) H3 I) as (x2 & E2 & ->). cbn in E1, E2. injection E1 as <-. injection E2 as <-.
    unfold stream_length, log_by_stream. rewrite Hot by auto. split; reflexivity.
  - intros k. destruct (step_read c m' L' (OpByStream k s) H3 I) as (x2 & E2 & ->). cbn in E2. injection E2 as <-.
    now rewrite Hz.
  - eapply save_total; eauto.
  - intros evs Hne Hone Henc. rewrite <- Hz.
    destruct (save_succeeds c m' L' (Some (stream_length s L')) s evs) as (m'' & E' & HR''); auto.
    exists m'', (appended L' s evs). split.
    + rewrite E'. rewrite Hz. f_equal.
    + unfold appended. rewrite Hz. rewrite (ssn_from_numbers _ 0).
      * rewrite records_from_length. unfold one_to. apply map_ext. intros. lia.
      * apply records_from_ssn.
Qed.
Print Assumptions C11_inmemory_delete_exact.

Example C11_witness : snd (mem_step toy (mem_after toy [OpSave None "thing!x" [thing "a"; thing "b"] None; OpSave None "other!y" [other "c"] None])
   (OpDelete 2 "thing!x" None)) = OutDeleted.
Proof. vm_compute. reflexivity. Qed.

(** C12: a delete that returns an error changes nothing at all, in any state. *)
Theorem C12_inmemory_rejected_delete_changes_nothing : forall c m n s cn m' e,
  mem_step c m (OpDelete n s cn) = (m', OutFailed e) -> m' = m.
Proof.
  intros c m n s cn m' e. cbn [mem_step]. destruct (done_at cn 0) eqn:Ed; [congruence|].
  destruct (m_locked m); [congruence|]. unfold mem_delete. rewrite Ed.
  destruct (m_streams m s); [|congruence]. destruct (negb _); [congruence|].
  destruct (delete_loop m l); congruence.
Qed.
Print Assumptions C12_inmemory_rejected_delete_changes_nothing.

(** C12: which answer a delete gives, if the stream has events. *)
Theorem C12_inmemory_delete_answer : forall c ops n s k, codec_ok c -> Forall (tame_call c) ops ->
  let m := mem_after c ops in
  mem_step c m (OpTotal s None) = (m, OutTotal k) -> k <> 0 ->
  snd (mem_step c m (OpDelete n s None)) = (if n =? k then OutDeleted else OutFailed (EUnexpectedSeq n k)).
Proof.
  intros c ops n s k Hc Ht m Hk Hk0.
  destruct (run_tame c Hc ops mem_init empty_log (R_init c) Ht) as (L & HR). fold (mem_after c ops) in HR. fold m in HR.
  rewrite (save_total c m L s _ HR eq_refl) in Hk. injection Hk as Hk.
  destruct (step_delete c m L n s None HR) as (x & L' & H1 & H2 & H3).
  subst k. destruct (delete_log _ _ _ _ _ _ _ H1) as [(-> & Href & _)|(e & -> & Href & _)];
    unfold delete_refused in Href; cbn [done_at] in Href;
    destruct (N.eqb_spec (stream_length s L) 0); try congruence; destruct (n =? stream_length s L); try discriminate.
  - destruct H2 as [<-|[]]. reflexivity.
  - injection Href as <-. destruct H2 as [<-|[]]. reflexivity.
Qed.
Print Assumptions C12_inmemory_delete_answer.

(** C12, "not found" for a stream without events: holds as long as no save failed. *)
Lemma no_empty_entry c m o : (forall s, m_streams m s <> Some []) ->
  (forall e, snd (mem_step c m o) <> OutFailed e \/ match o with OpSave _ _ _ _ => False | _ => True end) ->
  snd (mem_step c m o) <> OutPanic ->
  forall s, m_streams (fst (mem_step c m o)) s <> Some [].
Proof.
  intros Hm Hf Hp.
  destruct o as [ex s evs cn|ex s cn|g|g ts|k s|s cn]; cbn [mem_step] in *.
  - destruct evs as [|e evs]; [exact Hm|]. destruct (m_locked m); [exact Hm|].
    unfold mem_save in *.
    assert (Hgen : forall evs m at_ ai ex n created pending last m' l p, (forall s, m_streams m s <> Some []) ->
      mem_save_loop c m s at_ ai ex cn n created pending last evs = (m', SaveOk l p) -> forall s, m_streams m' s <> Some []).
    { clear. induction evs as [|e evs IH]; intros m at_ ai ex n created pending last m' l p Hm; cbn [mem_save_loop].
      - intros [= <- _ _]. exact Hm.
      - destruct (_ && _); [discriminate|]. destruct (_ && _); [discriminate|]. destruct (done_at cn n); [discriminate|].
        unfold mem_save_event. destruct (match ex with Some _ => _ | None => _ end).
        + destruct (remove_recent m created (ev_atype e) (ev_aid e)); discriminate.
        + destruct (ser c _).
          * apply IH. cbn. intros s'. unfold fset. destruct (String.eqb s' s); auto. destruct (ids_of_stream m s); discriminate.
          * destruct (remove_recent _ created (ev_atype e) (ev_aid e)); discriminate. }
    destruct (mem_save_loop c m s "" "" ex cn 0 [] [] 0 (e :: evs)) as [m1 [l p|er|]] eqn:E; cbn [fst snd] in *.
    + eapply Hgen; eauto.
    + destruct (Hf er) as [H|[]]. congruence.
    + congruence.
  - destruct (done_at cn 0) eqn:Ed; [exact Hm|]. destruct (m_locked m); [exact Hm|].
    unfold mem_delete in *. rewrite Ed in *. destruct (m_streams m s) as [ids|] eqn:Es; [|exact Hm].
    destruct (negb _); [exact Hm|]. destruct (delete_loop m ids) as [m1|] eqn:E; cbn [fst snd] in *; [|congruence].
    assert (m_streams m1 = m_streams m) as Hsame.
    { clear - E. revert m E. induction ids as [|y ids IH]; intros m E; cbn in E; [congruence|].
      destruct (remove_in_place y (m_records m)); [|discriminate]. destruct (remove_from_types y (m_types m)); [|discriminate].
      apply IH in E. exact E. }
    intros s'. cbn. unfold fset. destruct (String.eqb s' s); [discriminate|]. rewrite Hsame. apply Hm.
  - destruct (m_locked m); exact Hm.
  - destruct (m_locked m && _); [exact Hm|]. destruct (mem_by_types c m g ts); exact Hm.
  - destruct (m_locked m); exact Hm.
  - destruct (done_at cn 0); [exact Hm|]. destruct (m_locked m); exact Hm.
Qed.

(** All saves of the history succeeded and nothing panicked. *)
Fixpoint saves_succeed (ops : list op) (answers : list out) : Prop :=
  match ops, answers with
  | o :: ops', x :: answers' =>
      (match o with OpSave _ _ _ _ => forall e, x <> OutFailed e | _ => True end)
      /\ x <> OutPanic /\ saves_succeed ops' answers'
  | _, _ => True
  end.

Theorem C12_inmemory_not_found : forall c ops n s, codec_ok c -> Forall (tame_call c) ops ->
  saves_succeed ops (mem_outs c ops) ->
  let m := mem_after c ops in
  mem_step c m (OpTotal s None) = (m, OutTotal 0) ->
  snd (mem_step c m (OpDelete n s None)) = OutFailed EStreamNotFound.
Proof.
  intros c ops n s Hc Ht Hs m Hz.
  destruct (run_tame c Hc ops mem_init empty_log (R_init c) Ht) as (L & HR). fold (mem_after c ops) in HR. fold m in HR.
  assert (HE : forall s, m_streams m s <> Some []).
  { unfold m, mem_after. unfold mem_outs in Hs. clear - Hs.
    assert (H0 : forall s, m_streams mem_init s <> Some []) by (intros; discriminate).
    revert Hs H0. generalize mem_init. induction ops as [|o ops IH]; intros m0 Hs H0; cbn [run] in *; [exact H0|].
    pose proof (no_empty_entry c m0 o H0) as Hn. destruct (mem_step c m0 o) as [m1 x]. cbn [fst snd] in *.
    specialize (IH m1). destruct (run (mem_step c) m1 ops) as [m2 xs]. cbn [fst snd saves_succeed] in *.
    destruct Hs as (Hs1 & Hs2 & Hs3). apply IH; auto. apply Hn; auto.
    intros e. destruct o; auto. }
  rewrite (save_total c m L s _ HR eq_refl) in Hz. injection Hz as Hz.
  cbn [mem_step done_at]. rewrite (R_locked _ _ _ HR). unfold mem_delete. cbn [done_at].
  destruct (m_streams m s) as [ids|] eqn:Es; [|reflexivity].
  exfalso. pose proof (stream_number c m L s HR) as En. rewrite Hz in En. unfold mem_stream_number, ids_of_stream in En.
  rewrite Es in En. destruct ids; [|cbn in En; lia]. now apply (HE s).
Qed.
Print Assumptions C12_inmemory_not_found.

Example C12_witness : saves_succeed [OpSave None "s" [thing "a"] None; OpDelete 1 "s" None]
  (mem_outs toy [OpSave None "s" [thing "a"] None; OpDelete 1 "s" None]).
Proof. vm_compute. repeat split; try discriminate. Qed.

(** After a failed OptimisticSave, deleting the stream that has no events reports
    success. *)
Theorem C12_not_found_refuted : exists ops,
  snd (mem_step toy (mem_after toy ops) (OpTotal "thing!x" None)) = OutTotal 0
  /\ snd (mem_step toy (mem_after toy ops) (OpDelete 0 "thing!x" None)) = OutDeleted.
Proof. exists [OpSave (Some 3) "thing!x" [thing "a"] None]. split; vm_compute; reflexivity. Qed.
Print Assumptions C12_not_found_refuted.

Lemma suffix_from (f : record -> N) (l : list record) g : StronglySorted (fun a b => f a < f b) l ->
  exists pre, l = pre ++ filter (fun r => g <=? f r) l /\ forall r, In r pre -> f r < g.
Proof.
  induction 1 as [|a l Hs IH HF]; cbn [filter].
  - exists []. split; [reflexivity|contradiction].
  - destruct (N.leb_spec g (f a)) as [H|H].
    + exists []. split; [|contradiction]. cbn. f_equal. symmetry. apply filter_all. intros r Hr.
      rewrite Forall_forall in HF. apply HF in Hr. apply N.leb_le. lia.
    + destruct IH as (pre & E & Hp). exists (a :: pre). cbn. rewrite <- E. split; auto. intros r [<-|Hr]; auto.
Qed.

Lemma ssn_sorted l : forall k, ssn_from k l -> StronglySorted (fun a b => r_ssn a < r_ssn b) l /\ forall r, In r l -> k < r_ssn r.
Proof.
  induction l as [|r l IH]; intros k; cbn [ssn_from]; [intros _; split; [constructor|contradiction]|].
  intros [E H]. destruct (IH _ H) as [H1 H2]. split.
  - constructor; auto. apply Forall_forall. intros b Hb. apply H2 in Hb. lia.
  - intros r' [<-|Hr']; [lia|]. apply H2 in Hr'. lia.
Qed.

(** C13: all reads are cut out of one list, in its order, and an offset cuts off
    exactly the records with smaller numbers. *)
Theorem C13_inmemory_views_agree : forall c ops, codec_ok c -> Forall (tame_call c) ops ->
  let m := mem_after c ops in
  exists all : list record,
  (forall g, exists before from, all = before ++ from
     /\ mem_step c m (OpEvents g) = (m, OutResults (map RRec from))
     /\ (forall r, In r before -> r_gsn r < g) /\ (forall r, In r from -> g <= r_gsn r))
  /\ (forall g types, NoDup types -> exists before from,
     filter (fun r => memb (r_atype r) types) all = before ++ from
     /\ mem_step c m (OpByTypes g types) = (m, OutResults (map RRec from))
     /\ (forall r, In r before -> r_gsn r < g) /\ (forall r, In r from -> g <= r_gsn r))
  /\ (forall k s, exists before from,
     filter (fun r => String.eqb (r_stream r) s) all = before ++ from
     /\ mem_step c m (OpByStream k s) = (m, OutResults (match before, from with [], [] => [RErr EStreamNotFound] | _, _ => map RRec from end))
     /\ (forall r, In r before -> r_ssn r < k) /\ (forall r, In r from -> k <= r_ssn r)).
Proof.
  intros c ops Hc Ht m.
  destruct (run_tame c Hc ops mem_init empty_log (R_init c) Ht) as (L & HR). fold (mem_after c ops) in HR. fold m in HR.
  pose proof (R_log _ _ _ HR) as (Hi & _ & Hss). exists (l_recs L). repeat apply conj.
  - intros g. destruct (suffix_from r_gsn (l_recs L) g Hi) as (pre & E & Hp).
    exists pre, (log_events g L). split; [exact E|].
    destruct (step_read c m L (OpEvents g) HR I) as (x1 & E1 & ->). cbn in E1. injection E1 as <-.
    split; [reflexivity|]. split; [exact Hp|]. intros r Hr. apply filter_In in Hr. apply N.leb_le. tauto.
  - intros g ts Hnd. destruct (suffix_from r_gsn (filter (fun r => memb (r_atype r) ts) (l_recs L)) g) as (pre & E & Hp).
    { apply incr_filter, Hi. }
    exists pre, (log_by_types g ts L). split.
    { rewrite E at 1. f_equal. rewrite filter_filter. apply filter_ext. intros r. apply Bool.andb_comm. }
    destruct (step_read c m L (OpByTypes g ts) HR Hnd) as (x1 & E1 & ->). cbn in E1. injection E1 as <-.
    split; [reflexivity|]. split; [exact Hp|]. intros r Hr. apply filter_In in Hr. apply N.leb_le.
    destruct Hr as [_ Hr]. apply Bool.andb_true_iff in Hr. tauto.
  - intros k s. destruct (ssn_sorted _ 0 (Hss s)) as [Hso _].
    destruct (suffix_from r_ssn (of_stream s L) k Hso) as (pre & E & Hp).
    exists pre, (log_by_stream k s L). split; [exact E|].
    destruct (step_read c m L (OpByStream k s) HR I) as (x1 & E1 & ->). cbn in E1. injection E1 as <-.
    split.
    + f_equal. f_equal. unfold stream_length. destruct pre as [|p pre].
      * unfold log_by_stream. cbn in E. rewrite E at 1. destruct (filter _ (of_stream s L)) eqn:Ef; [reflexivity|].
        cbn [length]. now replace (N.of_nat (S (length l)) =? 0) with false by (symmetry; apply N.eqb_neq; lia).
      * rewrite E at 1. cbn [length app]. now rewrite (proj2 (N.eqb_neq _ 0)) by lia.
    + split; [exact Hp|]. intros r Hr. apply filter_In in Hr. apply N.leb_le. tauto.
Qed.
Print Assumptions C13_inmemory_views_agree.

Example C13_witness : exists r1 r2 r3,
  snd (mem_step toy (mem_after toy [OpSave None "thing!x" [thing "a"; thing "b"] None; OpSave None "other!y" [other "c"] None])
    (OpByTypes 0 ["other"; "thing"])) = OutResults [RRec r1; RRec r2; RRec r3]
  /\ map r_gsn [r1; r2; r3] = [1; 2; 3].
Proof. eexists _, _, _. split; [vm_compute; reflexivity|reflexivity]. Qed.
