(** The HTTP interface: C38, C73, C74. *)
From Verif Require Import Base Core CoreSpec LogSpec StoreSpec ToyCodec InMemory InMemoryProofs Properties_InMemory
  DecText Text PathSpec PathProofs NumberSpec NumberProofs Json Remote Http HttpSpec HttpProofs HttpRouteProofs.
Open Scope string_scope.
Open Scope list_scope.
Open Scope N_scope.

(** Bodies of the answers, spelled out. *)
Definition ok_body (field : string) (n : N) : string :=
  (String "034" "" ++ "status" ++ String "034" "" ++ ":" ++ String "034" "" ++ "OK" ++ String "034" "" ++ ","
   ++ String "034" "" ++ field ++ String "034" "" ++ ":" ++ dec n)%string.

(** ** C38: saving *)

(** C38: a request to save well described events of one aggregate, in the in-memory
    store after any history: without an expected number, or with the number of events
    in the stream, it is answered 201 with the new number of events and exactly these
    events follow the old ones; with any other number it is answered 409 naming both
    numbers and no read sees a change. *)
Theorem C38_save : forall of_lit print c ops name q es,
  codec_ok c -> Forall (tame_call c) ops -> addressable name -> addressed q "save-events" name ->
  q_ctype q = "application/json" -> q_cancel q = None ->
  describes_all (q_body q) es -> es <> [] -> client_aggregate es ->
  (forall r, In (said r) (map (described_as (fun j => print (decode of_lit false j)) name) es) -> ser c r <> None) ->
  let m := mem_after c ops in
  let step := http_step of_lit print mem (mem_step c) in
  exists n, mem_step c m (OpTotal name None) = (m, OutTotal n) /\
  (q_expected q = "" \/ numeral (q_expected q) n ->
     exists m' old new, step m q = (m', Answer 201 ("{" ++ ok_body "streamSequenceNumber" (n + N.of_nat (length es)) ++ "}"))
       /\ mem_step c m (OpEvents 0) = (m, OutResults (map RRec old))
       /\ mem_step c m' (OpEvents 0) = (m', OutResults (map RRec (old ++ new)))
       /\ map said new = map (described_as (fun j => print (decode of_lit false j)) name) es
       /\ map (fun r => (r_eid r, r_ts r)) new = map (q_stamp q) (seq 0 (length es))) /\
  (forall x, numeral (q_expected q) x -> x <> n ->
     exists m' pre post, step m q = (m', Answer 409 (pre ++ "unexpected sequence number: " ++ dec x ++ ", actual: " ++ dec n ++ post))
       /\ same_reads (mem_step c) m m').
Proof.
  intros of_lit print c ops name q es Hc Ht Hn Ha Hct Hcn Hd Hes Hag Htot m step.
  set (evs := stamped print (q_stamp q) 0 (map (raw_event of_lit) es)).
  assert (Hl : length evs = length es) by (unfold evs; now rewrite stamped_length, map_length).
  assert (Hne : evs <> []) by (intros E; rewrite E in Hl; destruct es; [congruence|discriminate]).
  assert (Hone : one_aggregate evs) by now apply stamped_aggregate.
  assert (Henc : encodable c name evs).
  { intros e g k He. apply Htot. destruct (stamped_in _ _ _ _ _ He) as (w & Hw & E1 & E2 & E3 & E4 & E5).
    apply in_map_iff in Hw as (x & <- & Hx). apply in_map_iff. exists x. split; [|exact Hx].
    unfold described_as, said, record_at. cbn in *. now rewrite E1, E2, E3, E4, E5. }
  assert (Hstep : forall ex, expected_header q = Some ex -> forall m' x,
    mem_step c m (OpSave ex name evs None) = (m', x) ->
    step m q = (m', match x with
                    | OutSaved n _ => succeeded 201 "streamSequenceNumber" n
                    | OutFailed (EUnexpectedSeq e a) => failed 409 (unexpected_text e a)
                    | OutFailed _ => failed 500 "internal server error"
                    | _ => NoAnswer end)).
  { intros ex Hex m' x E. unfold step, http_step. rewrite (route_save q name Hn Ha). unfold save_events.
    rewrite Hct, String.eqb_refl. cbn [negb].
    rewrite (described_body of_lit print q es Hd), Hex, Hcn. fold evs. now rewrite E. }
  assert (Hhead : forall x, numeral (q_expected q) x -> expected_header q = Some (Some x)).
  { intros x Hx. unfold expected_header. rewrite (proj2 (String.eqb_neq _ "")) by apply Hx.
    apply parse_reads in Hx. now rewrite Hx. }
  destruct (C09_inmemory_compare_and_append c ops 0 name evs Hc Ht Hne Hone Henc) as (n & Hn0 & _). fold m in Hn0.
  exists n. split; [exact Hn0|]. split.
  - destruct (run_tame c Hc ops mem_init empty_log (R_init c) Ht) as (L & HR). fold (mem_after c ops) in HR. fold m in HR.
    assert (En : stream_length name L = n) by (rewrite (save_total c m L name _ HR eq_refl) in Hn0; now injection Hn0).
    intros Hx. assert (Hex : exists ex, expected_header q = Some ex /\ (ex = None \/ ex = Some (stream_length name L))).
    { destruct Hx as [E|E]; [exists None; unfold expected_header; rewrite E; auto|]. rewrite En. eauto. }
    destruct Hex as (ex & Hex & Hex').
    destruct (save_succeeds c m L ex name evs Hc HR Hne Hone Henc Hex') as (m' & E & HR').
    assert (Hall : forall l : list record, filter (fun r => 0 <=? r_gsn r) l = l).
    { induction l as [|r l IH]; [reflexivity|]. cbn [filter]. rewrite (proj2 (N.leb_le _ _)) by lia. now f_equal. }
    exists m', (l_recs L), (appended L name evs). split; [|split; [|split; [|split]]].
    + rewrite (Hstep _ Hex _ _ E), Hl, En. unfold succeeded, ok_body, quoted, q2. rewrite !app_assoc_s. reflexivity.
    + destruct (step_read c m L (OpEvents 0) HR Logic.I) as (x & Ex & ->). cbn in Ex. injection Ex as <-.
      unfold log_events. now rewrite Hall.
    + destruct (step_read c m' _ (OpEvents 0) HR' Logic.I) as (x & Ex & ->). cbn in Ex. injection Ex as <-.
      unfold log_events. now rewrite Hall.
    + unfold appended, evs. apply stored_content.
    + unfold appended, evs. rewrite stored_stamps. now rewrite map_length.
  - intros x Hx Hne'.
    destruct (C09_inmemory_compare_and_append c ops x name evs Hc Ht Hne Hone Henc) as (n' & Hn1 & _ & Hf). fold m in Hn1, Hf.
    assert (n' = n) by (rewrite Hn0 in Hn1; now injection Hn1). subst n'. destruct (Hf Hne') as (m' & E & Hs).
    exists m', ("{" ++ q2 ++ "status" ++ q2 ++ ":" ++ q2 ++ "Failed" ++ q2 ++ "," ++ q2 ++ "message" ++ q2 ++ ":" ++ q2)%string, (q2 ++ "}")%string. split; [|exact Hs].
    rewrite (Hstep _ (Hhead x Hx) _ _ E). unfold failed, unexpected_text, quoted. rewrite !app_assoc_s. reflexivity.
Qed.
Print Assumptions C38_save.

(** A client's request, and a printer of values good enough for examples. *)
Definition show_value (v : goval) : string :=
  match v with
  | GStr s => s
  | GNil => "null"
  | _ => "?"
  end.
Definition post (path expected : string) (body : option json) : request :=
  mk_request "POST" path "application/json" expected body (fun i => ("u", 7)) None.
Definition ev_json (t i d : string) : json :=
  JObj [("data", JStr d); ("aggregateType", JStr t); ("aggregateID", JStr i); ("eventType", JStr "E"); ("metadata", JNull)].
Definition hmem (m : mem) (q : request) : mem * answer := http_step (fun s => FOther s) show_value mem (mem_step toy) m q.

Example C38_save_inhabited :
  addressable "thing!x" /\ addressed (post "/save-events/thing%21x" "1" None) "save-events" "thing!x"
  /\ describes_all (Some (JArr [ev_json "thing" "x" "a"])) [mk_client_event "thing" "x" "E" (JStr "a") JNull]
  /\ let m := fst (hmem mem_init (post "/save-events/thing%21x" "" (Some (JArr [ev_json "thing" "x" "a"])))) in
     snd (hmem m (post "/save-events/thing!x" "1" (Some (JArr [ev_json "thing" "x" "b"]))))
     = Answer 201 ("{" ++ ok_body "streamSequenceNumber" 2 ++ "}")
     /\ exists t, snd (hmem m (post "/save-events/thing!x" "4" (Some (JArr [ev_json "thing" "x" "b"])))) = Answer 409 t.
Proof.
  split; [repeat split; discriminate|]. split; [apply unescape_spelled; reflexivity|]. split.
  - eexists. split; [reflexivity|]. constructor; [|constructor]. eexists. split; [reflexivity|]. cbn [ce_atype ce_aid ce_etype ce_data ce_meta].
    exact (Permutation.Permutation_middle [("aggregateType", JStr "thing"); ("aggregateID", JStr "x"); ("eventType", JStr "E")]
             [("metadata", JNull)] ("data", JStr "a")).
  - split; [vm_compute; reflexivity|]. eexists. vm_compute. reflexivity.
Qed.

(** C38, any store, any request to save: which answer means what.  400 means the
    store was not asked. *)
Theorem C38_save_status : forall of_lit print St (store : St -> op -> St * out) s name q s' status body,
  addressable name -> addressed q "save-events" name ->
  http_step of_lit print St store s q = (s', Answer status body) ->
  (status = 400 /\ s' = s) \/
  exists ex evs x, store s (OpSave ex name evs (q_cancel q)) = (s', x)
    /\ (q_expected q = "" /\ ex = None \/ exists n, numeral (q_expected q) n /\ ex = Some n)
    /\ (match x with
        | OutSaved n _ => status = 201 /\ body = ("{" ++ ok_body "streamSequenceNumber" n ++ "}")%string
        | OutFailed (EUnexpectedSeq _ _) => status = 409
        | OutFailed _ => status = 500
        | _ => False
        end).
Proof.
  intros of_lit print St store s name q s' status body Hn Ha. unfold http_step. rewrite (route_save q name Hn Ha).
  unfold save_events. destruct (negb _); [intros H; injection H as <- <- _; auto|].
  destruct (event_records of_lit print q) as [evs|]; [|intros H; injection H as <- <- _; auto].
  unfold expected_header. destruct (String.eqb_spec (q_expected q) "") as [E|E].
  - destruct (store s _) as [s1 x] eqn:Es. intros H. right. exists None, evs, x.
    destruct x as [n bc|e| | | | |]; try discriminate.
    + injection H as <- <- <-. split; [exact Es|]. split; [auto|]. split; [reflexivity|]. unfold ok_body, quoted, q2. now rewrite !app_assoc_s.
    + destruct e; injection H as <- <- _; (split; [exact Es|]; split; [auto|reflexivity]).
  - destruct (parse_uint (q_expected q)) as [k|] eqn:Ep; [|intros H; injection H as <- <- _; auto]. apply parse_reads in Ep.
    destruct (store s _) as [s1 x] eqn:Es. intros H. right. exists (Some k), evs, x.
    destruct x as [n bc|e| | | | |]; try discriminate.
    + injection H as <- <- <-. split; [exact Es|]. split; [eauto|]. split; [reflexivity|]. unfold ok_body, quoted, q2. now rewrite !app_assoc_s.
    + destruct e; injection H as <- <- _; (split; [exact Es|]; split; [eauto|reflexivity]).
Qed.
Print Assumptions C38_save_status.

(** C38: which requests are answered 400: another content type (a parameter such as
    a charset is enough), a body that is not a list of objects, a type or ID that is
    not a text, an expected number
    that is not a decimal uint64. *)
Theorem C38_bad_requests : forall of_lit print St (store : St -> op -> St * out) s name q,
  addressable name -> addressed q "save-events" name ->
  q_ctype q <> "application/json" \/ q_body q = None
  \/ (exists j, q_body q = Some j /\ (forall l, j <> JArr l) /\ j <> JNull)
  \/ (exists l j, q_body q = Some (JArr l) /\ In j l /\ (forall ms, j <> JObj ms) /\ j <> JNull)
  \/ (exists l ms k v, q_body q = Some (JArr l) /\ In (JObj ms) l /\ In (k, v) ms
        /\ In k ["aggregateType"; "aggregateID"; "eventType"] /\ (forall t, v <> JStr t) /\ v <> JNull)
  \/ (q_expected q <> "" /\ forall n, ~ numeral (q_expected q) n) ->
  exists body, http_step of_lit print St store s q = (s, Answer 400 body).
Proof.
  intros of_lit print St store s name q Hn Ha H. unfold http_step. rewrite (route_save q name Hn Ha). unfold save_events.
  destruct (String.eqb_spec (q_ctype q) "application/json") as [Ec|Ec]; cbn [negb]; [|eauto].
  destruct H as [H|[H|[(j & Hb & Ho & Hnull)|[(l & j & Hb & Hj & Ho & Hnull)|[(l & ms & k & v & Hb & Hj & Hv & Hk & Ho & Hnull)|[H0 H]]]]]];
    [congruence| | | | |].
  - unfold event_records. rewrite H. unfold failed. eauto.
  - unfold event_records. rewrite Hb. destruct j; try congruence; unfold failed; eauto.
  - assert (E : raws_of of_lit l = None).
    { clear Hb. induction l as [|x l IH]; [contradiction|]. cbn [raws_of]. destruct Hj as [->|Hj].
      - destruct j; try reflexivity; [congruence|now destruct (Ho l0)].
      - rewrite (IH Hj). now destruct (raw_of of_lit x). }
    unfold event_records. rewrite Hb, E. unfold failed. eauto.
  - assert (Em : forall w, set_members of_lit w ms = None).
    { clear Hb Hj. induction ms as [|[k0 v0] ms IH]; [contradiction|]. intros w. cbn [set_members].
      destruct Hv as [Hv|Hv]; [|destruct (set_member of_lit w k0 v0); [now apply IH|reflexivity]].
      injection Hv as -> ->. assert (Et : forall old, to_text old v = None) by (intros old; destruct v; try reflexivity; congruence).
      assert (set_member of_lit w k v = None) as ->; [|reflexivity]. unfold set_member. rewrite !Et.
      destruct Hk as [<-|[<-|[<-|[]]]]; reflexivity. }
    assert (E : raws_of of_lit l = None).
    { clear Hb. induction l as [|x l IH]; [contradiction|]. cbn [raws_of]. destruct Hj as [->|Hj].
      - cbn [raw_of]. now rewrite Em.
      - rewrite (IH Hj). now destruct (raw_of of_lit x). }
    unfold event_records. rewrite Hb, E. unfold failed. eauto.
  - destruct (event_records of_lit print q); [|unfold failed; eauto]. unfold expected_header.
    rewrite (proj2 (String.eqb_neq _ "")) by exact H0.
    assert (E : parse_uint (q_expected q) = None); [|rewrite E; unfold failed; eauto].
    now apply parse_reads_not.
Qed.
Print Assumptions C38_bad_requests.

Example C38_bad_inhabited :
  exists b1 b2 b3 b4 b5 b6, snd (hmem mem_init (mk_request "POST" "/save-events/s" "application/json; charset=utf-8" "" (Some (JArr [])) (fun _ => ("", 0)) None)) = Answer 400 b1
  /\ snd (hmem mem_init (post "/save-events/s" "" None)) = Answer 400 b2
  /\ snd (hmem mem_init (post "/save-events/s" "" (Some (JArr [JStr "x"])))) = Answer 400 b3
  /\ snd (hmem mem_init (post "/save-events/s" "-1" (Some (JArr [])))) = Answer 400 b4
  /\ snd (hmem mem_init (post "/save-events/s" "" (Some (JStr "x")))) = Answer 400 b5
  /\ snd (hmem mem_init (post "/save-events/s" "" (Some (JArr [JObj [("eventType", JArr [])]])))) = Answer 400 b6.
Proof. eexists _, _, _, _, _, _. do 3 (split; [vm_compute; reflexivity|]). split; [vm_compute; reflexivity|]. split; [vm_compute; reflexivity|]. split; vm_compute; reflexivity. Qed.

(** C38, in-memory store: any other answer than 201 to events of one aggregate means
    that no read sees a change. *)
Theorem C38_refused_save_changes_nothing_partial : forall of_lit print c ops name q es m' status body,
  codec_ok c -> Forall (tame_call c) ops -> addressable name -> addressed q "save-events" name ->
  describes_all (q_body q) es -> client_aggregate es -> (q_cancel q = None \/ q_cancel q = Some O) ->
  codec_total c \/ (length es <= 1)%nat \/ (forall e, In e es -> name = (ce_atype e ++ "!" ++ ce_aid e)%string) ->
  http_step of_lit print mem (mem_step c) (mem_after c ops) q = (m', Answer status body) -> status <> 201 ->
  same_reads (mem_step c) (mem_after c ops) m'.
Proof.
  intros of_lit print c ops name q es m' status body Hc Ht Hn Ha Hd Hag Hcn Htame. unfold http_step.
  rewrite (route_save q name Hn Ha). unfold save_events.
  destruct (negb _); [intros H _; injection H as <- _ _; intros o _; reflexivity|].
  rewrite (described_body of_lit print q es Hd). set (evs := stamped print (q_stamp q) 0 (map (raw_event of_lit) es)).
  destruct (expected_header q) as [ex|]; [|intros H _; injection H as <- _ _; intros o _; reflexivity].
  destruct (mem_step c (mem_after c ops) (OpSave ex name evs (q_cancel q))) as [m1 x] eqn:E. intros H Hst.
  destruct x as [n bc|e| | | | |]; try discriminate; [injection H as _ H _; congruence|].
  assert (m1 = m') by (destruct e; injection H; auto). subst m1.
  apply (C10_failed_save_leaves_no_trace_partial c ops ex name evs (q_cancel q) m' e Hc Ht); [|exact E].
  split; [now apply stamped_aggregate|]. split; [exact Hcn|]. unfold tame_call.
  destruct Htame as [H1|[H1|H1]]; [auto| |].
  - right. left. unfold evs. now rewrite stamped_length, map_length.
  - right. right. split; [now apply stamped_aggregate|]. intros ev Hev.
    destruct (stamped_in _ _ _ _ _ Hev) as (w & Hw & E1 & E2 & _). apply in_map_iff in Hw as (x & <- & Hx). cbn in *.
    rewrite E1, E2. now apply H1.
Qed.
Print Assumptions C38_refused_save_changes_nothing_partial.

Example C38_refused_inhabited : exists m' t,
  hmem mem_init (post "/save-events/thing!x" "4" (Some (JArr [ev_json "thing" "x" "b"]))) = (m', Answer 409 t)
  /\ snd (mem_step toy m' (OpEvents 0)) = OutResults [].
Proof. eexists _, _. split; [vm_compute; reflexivity|vm_compute; reflexivity]. Qed.

(** C38 refuted: a batch mixing aggregates is answered 500 although its first event
    was stored; and so is an empty list, which is the client's mistake. *)
Theorem C38_500_but_stored_refuted : exists m' t r,
  hmem mem_init (post "/save-events/s" "" (Some (JArr [ev_json "thing" "x" "a"; ev_json "other" "y" "b"]))) = (m', Answer 500 t)
  /\ snd (mem_step toy m' (OpEvents 0)) = OutResults [RRec r] /\ r_data r = "a".
Proof. eexists _, _, _. split; [vm_compute; reflexivity|]. split; [vm_compute; reflexivity|reflexivity]. Qed.
Print Assumptions C38_500_but_stored_refuted.
Theorem C38_empty_list_is_500_refuted : forall of_lit print c m q name, addressable name -> addressed q "save-events" name ->
  q_ctype q = "application/json" -> q_expected q = "" -> q_body q = Some (JArr []) \/ q_body q = Some JNull ->
  exists body, http_step of_lit print mem (mem_step c) m q = (m, Answer 500 body).
Proof.
  intros of_lit print c m q name Hn Ha Hct Hx Hb. unfold http_step. rewrite (route_save q name Hn Ha). unfold save_events.
  rewrite Hct. rewrite String.eqb_refl. cbn [negb]. unfold event_records, expected_header. rewrite Hx.
  destruct Hb as [->| ->]; cbn; unfold failed; eauto.
Qed.
Print Assumptions C38_empty_list_is_500_refuted.

(** ** C38: deleting *)

Theorem C38_delete : forall of_lit print St (store : St -> op -> St * out) s name q,
  addressable name -> addressed q "delete-stream" name ->
  (q_expected q <> "" -> (forall n, ~ numeral (q_expected q) n) ->
     exists body, http_step of_lit print St store s q = (s, Answer 400 body)) /\
  (forall n, (q_expected q = "" /\ n = 0) \/ numeral (q_expected q) n ->
     forall s' x, store s (OpDelete n name (q_cancel q)) = (s', x) ->
      match x with
      | OutDeleted => http_step of_lit print St store s q = (s', Answer 200 ("{" ++ ok_body "eventsDeleted" n ++ "}"))
      | OutFailed (EUnexpectedSeq e a) => exists pre post,
          http_step of_lit print St store s q = (s', Answer 409 (pre ++ "unexpected sequence number: " ++ dec e ++ ", actual: " ++ dec a ++ post))
      | OutFailed EStreamNotFound => exists body, http_step of_lit print St store s q = (s', Answer 404 body)
      | OutFailed _ => exists body, http_step of_lit print St store s q = (s', Answer 500 body)
      | _ => http_step of_lit print St store s q = (s', NoAnswer)
      end).
Proof.
  intros of_lit print St store s name q Hn Ha. unfold http_step. rewrite (route_delete q name Hn Ha).
  unfold delete_stream, expected_header.
  assert (Hmain : forall n, forall s' x, store s (OpDelete n name (q_cancel q)) = (s', x) ->
      match x with
      | OutDeleted => (s', succeeded 200 "eventsDeleted" n) = (s', Answer 200 ("{" ++ ok_body "eventsDeleted" n ++ "}"))
      | OutFailed (EUnexpectedSeq e a) => exists pre post,
          (s', failed 409 (unexpected_text e a)) = (s', Answer 409 (pre ++ "unexpected sequence number: " ++ dec e ++ ", actual: " ++ dec a ++ post))
      | _ => True
      end).
  { intros n s' x _. destruct x as [| e | | | | |]; try exact Logic.I.
    - destruct e; try exact Logic.I. exists ("{" ++ q2 ++ "status" ++ q2 ++ ":" ++ q2 ++ "Failed" ++ q2 ++ "," ++ q2 ++ "message" ++ q2 ++ ":" ++ q2)%string, (q2 ++ "}")%string.
      unfold failed, unexpected_text, quoted. rewrite !app_assoc_s. reflexivity.
    - unfold succeeded, ok_body, quoted, q2. now rewrite !app_assoc_s. }
  split.
  - intros H0 H. rewrite (proj2 (String.eqb_neq _ "")) by exact H0. apply parse_reads_not in H. rewrite H. unfold failed. eauto.
  - intros n [[H0 ->]|H] s' x E; specialize (Hmain _ s' x E).
    + rewrite H0, String.eqb_refl, E. destruct x as [n bc|e| | | | |]; auto. destruct e; auto; unfold failed; eauto.
    + rewrite (proj2 (String.eqb_neq _ "")) by apply H. apply parse_reads in H. rewrite H, E.
      destruct x as [k bc|e| | | | |]; auto. destruct e; auto; unfold failed; eauto.
Qed.
Print Assumptions C38_delete.

(** C38, in-memory store: an answer other than 200 means nothing was deleted. *)
Theorem C38_refused_delete_changes_nothing : forall of_lit print c m name q m' status body,
  addressable name -> addressed q "delete-stream" name ->
  http_step of_lit print mem (mem_step c) m q = (m', Answer status body) -> status <> 200 -> m' = m.
Proof.
  intros of_lit print c m name q m' status body Hn Ha. unfold http_step. rewrite (route_delete q name Hn Ha). unfold delete_stream.
  destruct (expected_header q) as [ex|]; [|intros H _; injection H; auto].
  destruct (mem_step c m _) as [m1 x] eqn:E. intros H Hs. destruct x as [n bc|e| | | | |]; try discriminate.
  - assert (m1 = m') by (destruct e; injection H; auto). subst m1.
    eapply C12_inmemory_rejected_delete_changes_nothing; exact E.
  - injection H as _ H _. congruence.
Qed.
Print Assumptions C38_refused_delete_changes_nothing.

Definition two_things : mem := fst (run (mem_step toy) mem_init [OpSave None "thing!x" [thing "a"; thing "b"] None]).
Example C38_delete_inhabited :
  addressed (post "/delete-stream/thing!x" "2" None) "delete-stream" "thing!x"
  /\ snd (hmem two_things (post "/delete-stream/thing!x" "2" None)) = Answer 200 ("{" ++ ok_body "eventsDeleted" 2 ++ "}")
  /\ (exists t, snd (hmem two_things (post "/delete-stream/thing!x" "" None)) = Answer 409 t)
  /\ (exists t, snd (hmem two_things (post "/delete-stream/other" "2" None)) = Answer 404 t)
  /\ (exists t, snd (hmem two_things (post "/delete-stream/thing!x" "2x" None)) = Answer 400 t).
Proof.
  split; [apply unescape_spelled; reflexivity|]. split; [vm_compute; reflexivity|]. split; [eexists; vm_compute; reflexivity|].
  split; eexists; vm_compute; reflexivity.
Qed.

(** ** C73 *)

(** C73: reading requests change nothing, in front of a store whose reads change nothing. *)
Theorem C73_reading_paths_change_nothing_partial : forall of_lit print St (store : St -> op -> St * out) s q,
  (forall s o, reads_only o -> fst (store s o) = s) ->
  (forall n, ~ addressed q "save-events" n /\ ~ addressed q "delete-stream" n) ->
  fst (http_step of_lit print St store s q) = s.
Proof.
  intros of_lit print St store s q Hs Hr. unfold http_step.
  destruct (route_of (q_path q)) as [r|] eqn:E; [|reflexivity]. apply route_inv in E. destruct r; try reflexivity;
    try (destruct E as [_ E]; destruct (Hr stream); contradiction); unfold read_with;
    match goal with |- context [store s ?o] => specialize (Hs s o Logic.I); destruct (store s o); exact Hs end.
Qed.
Print Assumptions C73_reading_paths_change_nothing_partial.

Example C73_reads_inhabited : forall m o, (match o with OpSave _ _ _ _ | OpDelete _ _ _ => False | _ => True end) -> fst (mem_step toy m o) = m.
Proof.
  intros m o Ho. destruct o; try contradiction; cbn [mem_step].
  - now destruct (m_locked m).
  - destruct (_ && _); [reflexivity|]. now destruct (mem_by_types _ _ _ _).
  - now destruct (m_locked m).
  - destruct (done_at _ _); [reflexivity|]. now destruct (m_locked m).
Qed.

Example C73_path_inhabited : forall n, ~ addressed (post "/all-events.json" "" None) "save-events" n
  /\ ~ addressed (post "/all-events.json" "" None) "delete-stream" n.
Proof. intros n. split; intros K; apply spelled_unescape in K; discriminate K. Qed.

Definition with_method (meth : string) (q : request) : request :=
  mk_request meth (q_path q) (q_ctype q) (q_expected q) (q_body q) (q_stamp q) (q_cancel q).

(** C73 refuted: the method is never looked at - whatever POST does, GET does. *)
Theorem C73_method_ignored_refuted : forall of_lit print St (store : St -> op -> St * out) s q meth,
  http_step of_lit print St store s (with_method meth q) = http_step of_lit print St store s q.
Proof. reflexivity. Qed.
Print Assumptions C73_method_ignored_refuted.
Theorem C73_get_deletes_refuted : exists m' body,
  hmem two_things (mk_request "GET" "/delete-stream/thing!x" "" "2" None (fun _ => ("", 0)) None) = (m', Answer 200 body)
  /\ snd (mem_step toy two_things (OpTotal "thing!x" None)) = OutTotal 2
  /\ snd (mem_step toy m' (OpTotal "thing!x" None)) = OutTotal 0.
Proof. eexists _, _. split; [vm_compute; reflexivity|]. split; vm_compute; reflexivity. Qed.
Print Assumptions C73_get_deletes_refuted.

(** ** C74 *)

(** C74: streams whose name holds no slash, and aggregate types of letters and
    hyphens, can be read through HTTP; the answer is what the store delivers up to
    its first error. *)
Theorem C74_readable_partial : forall of_lit print St (store : St -> op -> St * out) s q ext,
  In ext ["json"; "ndjson"; "msgpack"] ->
  (forall name s' l, lacks "/" name = true -> name <> "" ->
     addressed q "events-by-stream" (name ++ "." ++ ext) -> store s (OpByStream 0 name) = (s', OutResults l) ->
     http_step of_lit print St store s q = (s', Records (before_error l))) /\
  (forall types s' l, types <> [] -> Forall only_letters types -> join "," types <> "" ->
     addressed q "events-by-aggregate-type" (join "," types ++ "." ++ ext) -> store s (OpByTypes 0 types) = (s', OutResults l) ->
     http_step of_lit print St store s q = (s', Records (before_error l))) /\
  (forall s' l, spelled (q_path q) ("/all-events." ++ ext)%string -> store s (OpEvents 0) = (s', OutResults l) ->
     http_step of_lit print St store s q = (s', Records (before_error l))).
Proof.
  intros of_lit print St store s q ext He.
  assert (Hx : extension ext = true) by (destruct He as [<-|[<-|[<-|[]]]]; reflexivity).
  split; [|split].
  - intros name s' l Hn H0 Ha E. unfold http_step. rewrite (route_stream q name ext Hn H0 Hx Ha). unfold read_with. rewrite E. now rewrite written_ok.
  - intros types s' l Ht Hf H0 Ha E. unfold http_step. rewrite (route_types q types ext Ht Hf H0 Hx Ha). unfold read_with. rewrite E. now rewrite written_ok.
  - intros s' l Ha E. apply spelled_unescape in Ha. unfold http_step, route_of. rewrite Ha.
    replace (route_path ("/all-events." ++ ext)) with (ToAll ext) by (destruct He as [<-|[<-|[<-|[]]]]; reflexivity).
    unfold read_with. rewrite E. now rewrite written_ok.
Qed.
Print Assumptions C74_readable_partial.

Example C74_readable_inhabited :
  addressed (post "/events-by-stream/thing%21x.y.json" "" None) "events-by-stream" ("thing!x.y" ++ "." ++ "json")
  /\ (exists r1 r2, snd (hmem two_things (post "/events-by-stream/thing%21x.json" "" None)) = Records [r1; r2])
  /\ (exists r1 r2, snd (hmem two_things (post "/events-by-aggregate-type/other,thing.ndjson" "" None)) = Records [r1; r2]).
Proof. split; [apply unescape_spelled; reflexivity|]. split; eexists _, _; vm_compute; reflexivity. Qed.

(** For each such name there is a path, one that a request line can hold. *)
Theorem C74_every_name_has_a_path_partial : forall action name, exists raw,
  (forall q, q_path q = raw -> addressed q action name)
  /\ lacks "?" raw = true /\ lacks "#" raw = true /\ lacks " " raw = true.
Proof.
  intros action name. destruct (every_path_spelled ("/" ++ action ++ "/" ++ name)%string) as (raw & H & K).
  exists raw. split; [|exact K]. intros q <-. exact H.
Qed.
Print Assumptions C74_every_name_has_a_path_partial.

(** How a path is spelled makes no difference, and one with a bad escape, and no other,
    is refused before anything is looked at. *)
Theorem C74_spelling : forall of_lit print St (store : St -> op -> St * out) s,
  (forall q raw' p, spelled (q_path q) p -> spelled raw' p ->
     http_step of_lit print St store s (with_path raw' q) = http_step of_lit print St store s q) /\
  (forall q, bad_escape (q_path q) -> exists body, http_step of_lit print St store s q = (s, Answer 400 body)) /\
  (forall q, ~ bad_escape (q_path q) -> exists p, spelled (q_path q) p /\ forall p', spelled (q_path q) p' -> p' = p).
Proof.
  intros of_lit print St store s. split; [|split].
  - intros q raw' p H H'. apply spelled_unescape in H, H'. unfold http_step, route_of.
    cbn [with_path q_path]. rewrite H, H'. destruct (route_path p); reflexivity.
  - intros q H. apply bad_escape_iff in H. unfold http_step, route_of. rewrite H. eauto.
  - intros q H. destruct (unescape false (q_path q)) as [p|] eqn:E.
    + exists p. split; [now apply unescape_spelled|]. intros p' H'. apply spelled_unescape in H'. congruence.
    + exfalso. apply H. now apply bad_escape_iff.
Qed.
Print Assumptions C74_spelling.
Example C74_spelling_inhabited :
  spelled "/all%2Devents.json" "/all-events.json" /\ spelled "/all-events.json" "/all-events.json"
  /\ bad_escape "/save-events/100%" /\ bad_escape "/save-events/%4:" /\ bad_escape "/save-events/%@0" /\ bad_escape "/%g0" /\ ~ bad_escape "/%9f%Fa".
Proof.
  repeat split; try (apply unescape_spelled; reflexivity); try (apply bad_escape_iff; reflexivity).
  intros H. apply bad_escape_iff in H. discriminate.
Qed.

(** And a request gets nothing but what its path asks for: how the store answers
    anything else makes no difference to it. *)
Theorem C74_nothing_else : forall of_lit print St (store store' : St -> op -> St * out) s q,
  (forall o, asks q o -> store' s o = store s o) ->
  http_step of_lit print St store' s q = http_step of_lit print St store s q.
Proof. intros of_lit print St store store' s q. apply only_asked. Qed.
Print Assumptions C74_nothing_else.
Example C74_nothing_else_inhabited : let q := post "/events-by-stream/thing%21x.json" "" None in
  asks q (OpByStream 0 "thing!x") /\ ~ asks q (OpByStream 0 "thing!y") /\ ~ asks q (OpDelete 0 "thing!x" None).
Proof.
  assert (S : spelled "/events-by-stream/thing%21x.json" "/events-by-stream/thing!x.json") by (apply unescape_spelled; reflexivity).
  split; [|split].
  - cbn. split; [reflexivity|]. split; [discriminate|]. split; [reflexivity|]. exists "json". split; [cbn; auto|exact S].
  - intros (_ & _ & _ & e & He & K). apply spelled_unescape in K. cbn in He. destruct He as [<-|[<-|[<-|[]]]]; discriminate K.
  - intros (_ & K). apply spelled_unescape in K. discriminate K.
Qed.

(** C74 refuted: no request whatever reads, fills or deletes a stream with a slash in
    its name, or reads an aggregate type with a digit, an underscore, a dot, ... *)
Theorem C74_unreachable_refuted : forall of_lit print St (store store' : St -> op -> St * out),
  (forall s o, plain_names o -> store' s o = store s o) ->
  forall s q, http_step of_lit print St store' s q = http_step of_lit print St store s q.
Proof.
  intros of_lit print St store store' H s q. apply only_asked. intros o A. apply H. destruct o; cbn in *; intuition.
  - destruct H0 as [K _]. exact K.
  - destruct H0 as [K _]. exact K.
Qed.
Print Assumptions C74_unreachable_refuted.

Example C74_unreachable_inhabited : lacks "/" "a/b" = false /\ ~ only_letters "order2"
  /\ route_of "/save-events/a%2Fb" = Some NotFound /\ route_of "/events-by-aggregate-type/order2.json" = Some NotFound
  /\ route_of "/save-events/.." = Some Redirect.
Proof.
  split; [reflexivity|]. split; [|repeat split].
  intros H. cbn in H. destruct H as (_ & _ & _ & _ & _ & H & _). unfold plain_letter in H. vm_compute in H. intuition (discriminate || congruence).
Qed.
