(** Properties of the EventStoreDB provider. *)
From Coq Require Import Sorted PeanoNat.
From Verif Require Import Base Locks LocksSpec Postgres PostgresSpec StoreSpec EventStore EventStoreSpec LocksProofs EventStoreProofs EventStoreMore EventStoreFacts.

(** A json library, events and runs for the examples. *)
Definition es_json : jlib := mk_jlib (fun e => Some (ev_data e)) (fun e => Some (ev_meta e)) (fun _ d => Some d).
Lemma es_json_ok : json_ok es_json.
Proof. intros e d E. injection E as <-. reflexivity. Qed.
Definition eev (ty d : string) : event := mk_event "t" "i" ty d "m" "u" 7.
Definition esave (ex : option N) (s : string) (l : list string) : op := OpSave ex s (map (eev "e") l) None.
Definition erun (recdel : bool) (ls : list xlabel) : esconf :=
  match xrun es_json (Some "v1-") recdel es_start ls with Some k => k | None => es_start end.
Definition do (i : nat) (n : nat) : list xlabel := repeat (XStep i []) n.

(** * C33 Optimistic concurrency *)

(** A save expecting [x >= 1] that succeeded put its events right behind exactly [x]
    events of the stream, whatever else happened before, meanwhile and afterwards. *)
Theorem C33_save_behind_expected_events_partial : forall j prefix recdel ls k i x s evs cn n b,
  xrun j prefix recdel es_start ls = Some k -> 0 < x ->
  In (Inv i (OpSave (Some x) s evs cn)) (x_hist k) -> In (Ret i (OutSaved n b)) (x_hist k) ->
  exists l1 mine l2, x_log k = l1 ++ mine ++ l2
    /\ N.of_nat (length (events_of (server_name prefix s) l1)) = x
    /\ Forall (fun e => en_stream e = server_name prefix s) mine /\ Forall2 (entry_for j s) evs mine
    /\ n = x + N.of_nat (length evs).
Proof.
  intros j prefix recdel ls k i x s evs cn n b H Hx Hi Hr. pose proof (good_run _ _ _ _ _ _ (good_start _ _) H) as G.
  destruct (answer_saved _ _ _ _ _ _ _ G Hi Hr) as (ex' & s' & evs' & cn' & [= <- <- <- <-] & l1 & mine & l2 & E & Hm & HF & -> & Hp & _).
  specialize (Hp x eq_refl Hx). exists l1, mine, l2. unfold revisions in *. rewrite Hp. auto.
Qed.
Print Assumptions C33_save_behind_expected_events_partial.

(** Of all saves expecting the same [x >= 1] at most one succeeds. *)
Theorem C33_one_winner_partial : forall j prefix recdel ls k i i' x s evs evs' cn cn' n n' b b',
  xrun j prefix recdel es_start ls = Some k -> 0 < x ->
  In (Inv i (OpSave (Some x) s evs cn)) (x_hist k) -> In (Ret i (OutSaved n b)) (x_hist k) ->
  In (Inv i' (OpSave (Some x) s evs' cn')) (x_hist k) -> In (Ret i' (OutSaved n' b')) (x_hist k) -> i = i'.
Proof.
  intros until b'. intros H. assert (W : winners es_start) by (intros ? ? ? ? ? ? ? ? ? ? ? ? ? []).
  exact (winners_run _ _ _ _ _ _ (good_start _ _) W H i i' x s evs evs' cn cn' n n' b b').
Qed.
Print Assumptions C33_one_winner_partial.

(** Two saves expecting 1 overlap: both pass the check, the server lets one through,
    and the other one is told that the stream has 0 events. *)
Definition contest : list xlabel :=
  [XInvoke (esave None "s" ["a"])] ++ do 0 2
  ++ [XInvoke (esave (Some 1) "s" ["b"; "c"]); XInvoke (esave (Some 1) "s" ["d"])] ++ do 1 1 ++ do 2 2 ++ do 1 1.
Example C33_contest : In (Ret 2 (OutSaved 2 [])) (x_hist (erun false contest))
  /\ In (Ret 1 (OutFailed (EUnexpectedSeq 1 0))) (x_hist (erun false contest))
  /\ map en_num (events_of "v1-s" (x_log (erun false contest))) = [0; 1].
Proof. split; [do 4 right; left; reflexivity|]. split; [vm_compute; auto 10|reflexivity]. Qed.

(** With expected number 0 both of two overlapping saves succeed. *)
Theorem C33_both_saves_at_zero_succeed_refuted : exists ls k,
  xrun es_json (Some "v1-") false es_start ls = Some k
  /\ In (Inv 0 (esave (Some 0) "s" ["a"])) (x_hist k) /\ In (Inv 1 (esave (Some 0) "s" ["b"])) (x_hist k)
  /\ In (Ret 0 (OutSaved 2 [])) (x_hist k) /\ In (Ret 1 (OutSaved 1 [])) (x_hist k).
Proof.
  exists ([XInvoke (esave (Some 0) "s" ["a"]); XInvoke (esave (Some 0) "s" ["b"])] ++ do 0 1 ++ do 1 2 ++ do 0 1). eexists.
  split; [vm_compute; reflexivity|]. split; [left; reflexivity|]. split; [right; left; reflexivity|].
  split; [do 3 right; left; reflexivity|do 2 right; left; reflexivity].
Qed.
Print Assumptions C33_both_saves_at_zero_succeed_refuted.

(** A save expecting 0 is accepted on a stream with any number of events if the read
    of the check fails. *)
Theorem C33_failed_check_admits_save_refuted : forall j prefix recdel k s e evs d m,
  memb (server_name prefix s) (x_tomb k) = false -> evs = [e] -> j_data j e = Some d -> j_meta j e = Some m ->
  exists k', xrun j prefix recdel k [XInvoke (OpSave (Some 0) s evs None); XFail (length (x_calls k)) 0; XStep (length (x_calls k)) []] = Some k'
    /\ In (Ret (length (x_calls k)) (OutSaved (N.of_nat (length (events_of (server_name prefix s) (x_log k))) + 1) [])) (x_hist k').
Proof.
  intros j prefix recdel k s e evs d m Ht -> Hd Hm. cbn [xrun xstep x_calls]. rewrite nth_error_app2, Nat.sub_diag by auto. cbn [nth_error es_op es_pc es_fail].
  unfold after_check. rewrite (N.eqb_refl 0). cbn [propose]. rewrite !String.eqb_refl. cbn [negb andb]. rewrite !andb_false_r, Hm, Hd. unfold set_xcall. cbn [x_calls].
  assert (Hn : nth_error (x_calls k ++ [mk_escall (OpSave (Some 0) s [e] None) XNew]) (length (x_calls k)) = Some (mk_escall (OpSave (Some 0) s [e] None) XNew))
    by (rewrite nth_error_app2, Nat.sub_diag; auto).
  rewrite (nth_upd_eq _ _ _ _ Hn). cbn [es_op es_pc es_step done_at x_tomb x_log]. rewrite Ht. cbn [append_accepted N.ltb N.compare].
  eexists. split; [reflexivity|]. cbn [xreply x_hist set_log length]. apply in_or_app. right. left. unfold revisions, one_based. do 2 f_equal. lia.
Qed.
Print Assumptions C33_failed_check_admits_save_refuted.

(** A delete expecting [x >= 1] that succeeded found exactly [x] events, and the
    stream will never have others. *)
Theorem C33_delete_of_exactly_expected_partial : forall j prefix recdel ls k i x s cn,
  xrun j prefix recdel es_start ls = Some k -> 0 < x ->
  In (Inv i (OpDelete x s cn)) (x_hist k) -> In (Ret i OutDeleted) (x_hist k) ->
  N.of_nat (length (events_of (server_name prefix s) (x_log k))) = x.
Proof.
  intros j prefix recdel ls k i x s cn H Hx Hi Hr. pose proof (good_run _ _ _ _ _ _ (good_start _ _) H) as G.
  destruct (deleted_tomb _ _ _ _ _ _ _ G Hi Hr) as [_ E]. unfold revisions in E. rewrite E. unfold zero_based. destruct (N.ltb_spec x 1); lia.
Qed.
Print Assumptions C33_delete_of_exactly_expected_partial.

(** Also when the answer of the server is lost: a stream is gone only if a caller
    asked for it, expecting as many events as it had then and still has. *)
Theorem C33_gone_only_as_expected_partial : forall j prefix recdel ls k s,
  xrun j prefix recdel es_start ls = Some k -> In (server_name prefix s) (x_tomb k) ->
  exists i x cn, In (Inv i (OpDelete x s cn)) (x_hist k)
    /\ (0 < x -> N.of_nat (length (events_of (server_name prefix s) (x_log k))) = x).
Proof.
  intros j prefix recdel ls k s H Hi.
  assert (B0 : buried prefix es_start) by (intros sn [=]).
  destruct (buried_run j prefix recdel ls _ _ (good_start _ _) B0 H (server_name prefix s)) as (i & x & s' & cn & Ho & Es & Er).
  { unfold memb. apply existsb_exists. exists (server_name prefix s). split; [exact Hi|apply String.eqb_refl]. }
  apply sname_inj in Es. subst s'. exists i, x, cn. split; [exact Ho|]. intros Hx. unfold revisions in Er. rewrite Er. unfold zero_based. destruct (N.ltb_spec x 1); lia.
Qed.
Print Assumptions C33_gone_only_as_expected_partial.

(** What the server holds is one chunk after the other, each written by another
    application ([None]) or by one call; no call has two.  The chunk of a call is the
    events of that Save, all of them, in order, in its stream, and behind as many events
    of the stream as the caller expected.  Every Save that was answered has its chunk;
    one that was not, or whose answer was lost, may have one. *)
Theorem C33_log_is_whole_saves_partial : forall j prefix recdel ls k,
  xrun j prefix recdel es_start ls = Some k ->
  exists cs : list (option nat * list entry), x_log k = concat (map snd cs)
    /\ NoDup (flat_map (fun c => match fst c with Some i => [i] | None => [] end) cs)
    /\ (forall c1 i mine c2, cs = c1 ++ (Some i, mine) :: c2 ->
          exists ex s evs cn, In (Inv i (OpSave ex s evs cn)) (x_hist k)
            /\ Forall (fun e => en_stream e = server_name prefix s) mine /\ Forall2 (entry_for j s) evs mine
            /\ (forall x, ex = Some x -> 0 < x -> N.of_nat (length (events_of (server_name prefix s) (concat (map snd c1)))) = x))
    /\ (forall i n b, In (Ret i (OutSaved n b)) (x_hist k) -> exists mine, In (Some i, mine) cs).
Proof.
  intros j prefix recdel ls k H. destruct (chunked_run j prefix recdel ls _ _ _ (good_start _ _) (chunked_start _ _) H) as (cs & El & Hn & _ & Hc & Hs).
  exists cs. split; [exact El|]. split; [exact Hn|]. split; [exact Hc|exact Hs].
Qed.
Print Assumptions C33_log_is_whole_saves_partial.

(** A save and a delete whose answers are lost: both took place. *)
Example C33_lost :
  let k := erun true ([XInvoke (esave (Some 0) "s" ["a"; "b"]); XStep 0 []; XLost 0 []; XInvoke (OpDelete 1 "s" None)] ++ do 1 2
                      ++ [XInvoke (OpDelete 2 "s" None); XLost 2 []]) in
  length (x_log k) = 2%nat /\ x_tomb k = ["v1-s"]
  /\ In (Ret 0 (OutFailed EDatabase)) (x_hist k) /\ In (Ret 1 (OutFailed (EUnexpectedSeq 1 2))) (x_hist k)
  /\ In (Ret 2 (OutFailed EDatabase)) (x_hist k).
Proof. vm_compute. repeat split; auto 10. Qed.

(** A delete expecting no event deletes a stream with one event. *)
Theorem C33_delete_at_zero_deletes_an_event_refuted : exists ls k,
  xrun es_json (Some "v1-") false es_start ls = Some k
  /\ In (Ret 0 (OutSaved 1 [])) (x_hist k) /\ In (Inv 1 (OpDelete 0 "s" None)) (x_hist k) /\ In (Ret 1 OutDeleted) (x_hist k)
  /\ asked es_json (Some "v1-") false k (OpByStream 0 "s") (OutResults [RErr EStreamNotFound]).
Proof.
  exists ([XInvoke (esave (Some 0) "s" ["a"])] ++ do 0 2 ++ [XInvoke (OpDelete 0 "s" None)] ++ do 1 1). eexists.
  split; [vm_compute; reflexivity|]. split; [right; left; reflexivity|]. split; [do 2 right; left; reflexivity|].
  split; [do 3 right; left; reflexivity|]. eexists. split; vm_compute; reflexivity.
Qed.
Print Assumptions C33_delete_at_zero_deletes_an_event_refuted.

Example C33_delete : In (Ret 1 (OutFailed (EUnexpectedSeq 1 2))) (x_hist (erun true
    ([XInvoke (esave None "s" ["a"; "b"])] ++ do 0 2 ++ [XInvoke (OpDelete 1 "s" None)] ++ do 1 2 ++ [XInvoke (OpDelete 2 "s" None)] ++ do 2 2)))
  /\ In (Ret 2 OutDeleted) (x_hist (erun true
    ([XInvoke (esave None "s" ["a"; "b"])] ++ do 0 2 ++ [XInvoke (OpDelete 1 "s" None)] ++ do 1 2 ++ [XInvoke (OpDelete 2 "s" None)] ++ do 2 2))).
Proof. split; [do 3 right; left; reflexivity|do 5 right; left; reflexivity]. Qed.

(** * C64 Order and numbering *)

(** On the server the events of every stream have the revisions 0, 1, 2, ... and the
    commit positions increase along the whole log. *)
Theorem C64_revisions_and_positions : forall j prefix recdel ls k,
  xrun j prefix recdel es_start ls = Some k ->
  (forall sn, map en_num (events_of sn (x_log k)) = numbers_from 0 (length (events_of sn (x_log k))))
  /\ StronglySorted N.lt (map en_commit (x_log k)).
Proof. intros j prefix recdel ls k H. pose proof (good_run _ _ _ _ _ _ (good_start _ _) H) as G. split; apply G. Qed.
Print Assumptions C64_revisions_and_positions.

(** Every answer to a read, complete or broken off, lists records in increasing order
    and only such as were asked for. *)
Theorem C64_reads_in_order : forall j prefix recdel ls k i o l,
  xrun j prefix recdel es_start ls = Some k ->
  In (Inv i o) (x_hist k) -> In (Ret i (OutResults l)) (x_hist k) ->
  match o with
  | OpEvents g => increasing r_gsn (recs_of l) /\ Forall (fun r => g <= r_gsn r) (recs_of l)
  | OpByTypes g ts => increasing r_gsn (recs_of l) /\ Forall (fun r => g <= r_gsn r /\ In (r_atype r) ts) (recs_of l)
  | OpByStream n s => increasing r_ssn (recs_of l) /\ Forall (fun r => n <= r_ssn r /\ r_stream r = s) (recs_of l)
  | _ => True
  end.
Proof.
  intros j prefix recdel ls k i o l H Hi Hr. pose proof (good_run _ _ _ _ _ _ (good_start _ _) H) as G.
  destruct (i_ret _ _ _ G _ _ Hr) as (c & Hc & Ha). rewrite (op_of_inv _ _ _ _ _ _ G Hc Hi) in Ha. exact Ha.
Qed.
Print Assumptions C64_reads_in_order.

Definition mixed : list xlabel :=
  [XInvoke (esave None "s" ["a"; "b"]); XInvoke (esave None "t" ["c"]); XStep 0 []; XStep 1 []; XForeign "$stats" "$stat" None 5; XStep 1 [3]; XStep 0 [0; 7];
   XInvoke (OpEvents 2); XStep 2 []; XInvoke (OpByStream 2 "s"); XStep 3 []].
Example C64_mixed : x_hist (erun false mixed) = x_hist (erun false (firstn 7 mixed)) ++
  [Inv 2 (OpEvents 2);
   Ret 2 (OutResults [RRec (mk_record "t" "t" "i" 10 1 7 "u" "e" "c" "m"); RRec (mk_record "s" "t" "i" 11 1 7 "u" "e" "a" "m"); RRec (mk_record "s" "t" "i" 19 2 7 "u" "e" "b" "m")]);
   Inv 3 (OpByStream 2 "s"); Ret 3 (OutResults [RRec (mk_record "s" "t" "i" 19 2 7 "u" "e" "b" "m")])].
Proof. vm_compute. reflexivity. Qed.

(** * C65 Deleted streams disappear from reads *)

(** Without RecordDeletedStreams the events of a deleted stream stay in Events. *)
Definition deleted_run : list xlabel :=
  [XInvoke (esave None "s" ["a"])] ++ do 0 2 ++ [XInvoke (OpDelete 1 "s" None)] ++ do 1 2.
Theorem C65_deleted_events_stay_refuted : exists ls k r,
  xrun es_json (Some "v1-") false es_start ls = Some k
  /\ In (Inv 1 (OpDelete 1 "s" None)) (x_hist k) /\ In (Ret 1 OutDeleted) (x_hist k)
  /\ asked es_json (Some "v1-") false k (OpEvents 0) (OutResults [RRec r]) /\ r_stream r = "s".
Proof.
  exists ([XInvoke (esave None "s" ["a"])] ++ do 0 2 ++ [XInvoke (OpDelete 1 "s" None)] ++ do 1 1). eexists _, _.
  split; [vm_compute; reflexivity|]. split; [do 2 right; left; reflexivity|]. split; [do 3 right; left; reflexivity|].
  split; [|shelve]. eexists. split; vm_compute; reflexivity. Unshelve. reflexivity.
Qed.
Print Assumptions C65_deleted_events_stay_refuted.

(** With it, they are back after a restart. *)
Theorem C65_deleted_events_return_refuted : exists ls k r,
  xrun es_json (Some "v1-") true es_start (ls ++ [XRestart]) = Some k
  /\ In (Inv 1 (OpDelete 1 "s" None)) (x_hist k) /\ In (Ret 1 OutDeleted) (x_hist k)
  /\ asked es_json (Some "v1-") true k (OpEvents 0) (OutResults [RRec r]) /\ r_stream r = "s".
Proof.
  exists deleted_run. eexists _, _.
  split; [vm_compute; reflexivity|]. split; [do 2 right; left; reflexivity|]. split; [do 3 right; left; reflexivity|].
  split; [|shelve]. eexists. split; vm_compute; reflexivity. Unshelve. reflexivity.
Qed.
Print Assumptions C65_deleted_events_return_refuted.

(** Until then Events and EventsByAggregateTypes show nothing of the stream;
    EventsByStream never finds it again in any case. *)
Theorem C65_deleted_events_hidden_partial : forall j prefix ls k i x s cn o l,
  json_ok j -> xrun j prefix true es_start ls = Some k -> no_restart ls -> Forall (harmless prefix) ls ->
  In (Inv i (OpDelete x s cn)) (x_hist k) -> In (Ret i OutDeleted) (x_hist k) ->
  asked j prefix true k o (OutResults l) -> forall r, In (RRec r) l -> r_stream r <> s.
Proof.
  intros j prefix ls k i x s cn o l J H Hn Hh Hi Hr Ha r Hin Es. pose proof (good_run _ _ _ _ _ _ (good_start _ _) H) as G.
  pose proof (ours_run _ _ _ _ _ _ (good_start _ _) Hh (ours_start j prefix) H) as O.
  assert (N0 : noted prefix es_start) by (intros ? []).
  pose proof (noted_run j prefix true ls _ _ eq_refl Hn N0 H) as Nt. destruct (Nt i Hr) as (c & ex' & s' & cn' & Hc & Ho & Hd).
  rewrite (op_of_inv _ _ _ _ _ _ G Hc Hi) in Ho. injection Ho as <- <- <-.
  pose proof (asked_read _ _ _ _ _ _ Ha) as Hx. destruct o as [ | |g|g ts|n s0|s0 cn0].
  - destruct (asked_results _ _ _ _ _ _ Ha).
  - destruct (asked_results _ _ _ _ _ _ Ha).
  - injection Hx as ->. unfold read_all in Hin. rewrite (all_ours j prefix true) in Hin; auto.
    2:{ intros e He. apply filter_In in He as [He _]. auto. }
    apply in_map_iff in Hin as (r' & [= ->] & Hin). apply in_seen in Hin as (e & He & Hsk & Er). apply filter_In in He as [He Hd']. apply filter_In in He as [He _].
    destruct (O e He) as [X|Oe]; [congruence|]. rewrite (our_stream _ _ _ _ J Oe Er), Es, Hd in Hd'. discriminate.
  - injection Hx as ->. unfold read_types in Hin. apply types_loop_in' in Hin as (e & He & Er & Hsk & Hd'). apply filter_In in He as [He _].
    destruct (O e He) as [X|Oe]; [congruence|]. rewrite (our_stream _ _ _ _ J Oe Er), Es, Hd in Hd'. discriminate (Hd' eq_refl).
  - injection Hx as ->. destruct (deleted_tomb _ _ _ _ _ _ _ G Hi Hr) as [Ht _]. unfold read_stream in Hin. destruct (String.eqb_spec s0 s) as [->|Ns].
    + rewrite Ht in Hin. destruct Hin as [Hin|[]]; discriminate.
    + destruct (memb (server_name prefix s0) (x_tomb k)); [destruct Hin as [Hin|[]]; discriminate|].
      destruct (events_of _ _) in Hin; [destruct Hin as [Hin|[]]; discriminate|]. apply stream_loop_in in Hin as [? _]. congruence.
  - destruct (done_at cn0 0); discriminate.
Qed.
Print Assumptions C65_deleted_events_hidden_partial.

Example C65_hidden : In (Ret 1 OutDeleted) (x_hist (erun true deleted_run)) /\ asked es_json (Some "v1-") true (erun true deleted_run) (OpEvents 0) (OutResults [])
  /\ no_restart deleted_run /\ Forall (harmless (Some "v1-")) deleted_run.
Proof.
  split; [do 3 right; left; reflexivity|]. split; [eexists; split; vm_compute; reflexivity|].
  split; [|vm_compute; repeat (constructor; [exact Logic.I|]); constructor]. unfold no_restart, deleted_run. cbn. intuition discriminate.
Qed.

(** * C66 Acknowledged events can be read back *)

(** An event whose type begins with a dollar sign is saved and never shown. *)
Theorem C66_dollar_types_invisible_refuted : exists ls k,
  xrun es_json (Some "v1-") false es_start ls = Some k
  /\ In (Inv 0 (OpSave None "s" [eev "$paid" "a"] None)) (x_hist k) /\ In (Ret 0 (OutSaved 1 [])) (x_hist k)
  /\ asked es_json (Some "v1-") false k (OpByStream 0 "s") (OutResults [RErr EStreamNotFound])
  /\ asked es_json (Some "v1-") false k (OpEvents 0) (OutResults []).
Proof.
  exists ([XInvoke (OpSave None "s" [eev "$paid" "a"] None)] ++ do 0 2). eexists.
  split; [vm_compute; reflexivity|]. split; [left; reflexivity|]. split; [right; left; reflexivity|].
  split; (eexists; split; vm_compute; reflexivity).
Qed.
Print Assumptions C66_dollar_types_invisible_refuted.

(** Otherwise the events of an acknowledged save are read back from then on, as
    saved, in order and under the numbers up to the one returned, until the stream is
    deleted. *)
Theorem C66_saved_events_read_back_partial : forall j prefix recdel ls k i ex s evs cn n b m x,
  json_ok j -> xrun j prefix recdel es_start ls = Some k -> Forall (harmless prefix) ls ->
  In (Inv i (OpSave ex s evs cn)) (x_hist k) -> In (Ret i (OutSaved n b)) (x_hist k) ->
  Forall user_type evs -> ~ In (server_name prefix s) (x_tomb k) -> m + N.of_nat (length evs) <= n + 1 ->
  asked j prefix recdel k (OpByStream m s) x ->
  exists before mine after, x = OutResults (map RRec (before ++ mine ++ after))
    /\ Forall2 (record_back j s) evs mine /\ map r_ssn mine = numbers_from (n + 1 - N.of_nat (length evs)) (length evs).
Proof.
  intros j prefix recdel ls k i ex s evs cn n b m x J H Hh Hi Hr Hu Ht Hm Ha. pose proof (good_run _ _ _ _ _ _ (good_start _ _) H) as G.
  pose proof (ours_run _ _ _ _ _ _ (good_start _ _) Hh (ours_start j prefix) H) as O. apply asked_read in Ha as ->.
  destruct (read_back j prefix k i ex s evs cn n b m) as (p & q & t & E & R); auto.
  - destruct (memb (server_name prefix s) (x_tomb k)) eqn:E; auto. apply memb_In in E. contradiction.
  - exists p, q, t. rewrite E. auto.
Qed.
Print Assumptions C66_saved_events_read_back_partial.
Example C66_read : Forall (harmless (Some "v1-")) (firstn 7 mixed) /\ In (Ret 0 (OutSaved 2 [])) (x_hist (erun false (firstn 7 mixed)))
  /\ Forall user_type (map (eev "e") ["a"; "b"]) /\ x_tomb (erun false (firstn 7 mixed)) = [].
Proof.
  split; [repeat (constructor; [first [exact Logic.I|left; reflexivity]|]); constructor|]. split; [do 3 right; left; reflexivity|].
  split; [repeat constructor|reflexivity].
Qed.

(** All reads agree: there is one list of records of which Events shows those from a
    number on, EventsByAggregateTypes those of the types asked for, and EventsByStream,
    for a stream that was not deleted, exactly those of the stream.  With the theorem
    above: an acknowledged event is found by each of them. *)
Theorem C66_views_agree_partial : forall j prefix recdel ls k,
  json_ok j -> xrun j prefix recdel es_start ls = Some k -> Forall (harmless prefix) ls ->
  exists all, increasing r_gsn all
    /\ (forall g x, asked j prefix recdel k (OpEvents g) x -> x = OutResults (map RRec (filter (fun r => g <=? r_gsn r) all)))
    /\ (forall g ts x, asked j prefix recdel k (OpByTypes g ts) x ->
          x = OutResults (map RRec (filter (fun r => memb (r_atype r) ts && (g <=? r_gsn r)) all)))
    /\ (forall n s x, ~ In (server_name prefix s) (x_tomb k) -> ~ In (server_name prefix s) (x_del k) -> asked j prefix recdel k (OpByStream n s) x ->
          x = OutResults (match filter (fun r => String.eqb (r_stream r) s && (n <=? r_ssn r)) all with [] => [RErr EStreamNotFound] | rs => map RRec rs end)).
Proof.
  intros j prefix recdel ls k J H Hh. pose proof (good_run _ _ _ _ _ _ (good_start _ _) H) as G.
  pose proof (ours_run _ _ _ _ _ _ (good_start _ _) Hh (ours_start j prefix) H) as O. exists (all_seen j prefix recdel k).
  assert (N : forall a l, ~ In a l -> memb a l = false) by (intros a l X; destruct (memb a l) eqn:E; auto; apply memb_In in E; contradiction).
  split; [|split; [|split]].
  - pose proof (good_all j prefix recdel (x_log k) (x_del k) 0 (i_com _ _ _ G)) as [I _].
    rewrite (read_all_seen j prefix recdel k 0 J O) in I.
    assert (E : filter (fun r => 0 <=? r_gsn r) (all_seen j prefix recdel k) = all_seen j prefix recdel k).
    { generalize (all_seen j prefix recdel k). intros l. induction l as [|a l IH]; [reflexivity|]. cbn [filter]. rewrite IH. destruct (N.leb_spec 0 (r_gsn a)); [reflexivity|lia]. }
    rewrite E in I. clear E. replace (recs_of (map RRec (all_seen j prefix recdel k))) with (all_seen j prefix recdel k) in I; [exact I|].
    generalize (all_seen j prefix recdel k). intros l. induction l as [|a l IH]; [reflexivity|]. cbn. now rewrite <- IH.
  - intros g x Ha. apply asked_read in Ha. rewrite (read_all_seen j prefix recdel k g J O) in Ha. exact Ha.
  - intros g ts x Ha. apply asked_read in Ha. rewrite (read_types_seen j prefix recdel k g ts J O) in Ha. exact Ha.
  - intros n s x T D Ha. apply asked_read in Ha. rewrite (read_stream_seen j prefix recdel k s n J O (N _ _ T) (fun _ => N _ _ D)) in Ha. exact Ha.
Qed.
Print Assumptions C66_views_agree_partial.
Example C66_views :
  let c := mk_record "t" "t" "i" 10 1 7 "u" "e" "c" "m" in let a := mk_record "s" "t" "i" 11 1 7 "u" "e" "a" "m" in
  let b := mk_record "s" "t" "i" 19 2 7 "u" "e" "b" "m" in
  asked es_json (Some "v1-") false (erun false (firstn 7 mixed)) (OpEvents 11) (OutResults [RRec a; RRec b])
  /\ asked es_json (Some "v1-") false (erun false (firstn 7 mixed)) (OpByTypes 10 ["t"]) (OutResults [RRec c; RRec a; RRec b])
  /\ asked es_json (Some "v1-") false (erun false (firstn 7 mixed)) (OpByTypes 19 ["x"; "t"]) (OutResults [RRec b])
  /\ asked es_json (Some "v1-") false (erun false (firstn 7 mixed)) (OpByStream 2 "s") (OutResults [RRec b]).
Proof. cbv zeta. split; [|split; [|split]]; (eexists; split; vm_compute; reflexivity). Qed.

(** * C67 The subscription *)

(** After a restart of the process everything ever saved is announced to live
    subscribers again. *)
Theorem C67_restart_announces_old_records_refuted : exists ls k r,
  xrun es_json (Some "v1-") false es_start (ls ++ [XRestart; XDeliver]) = Some k
  /\ In (Ret 0 (OutSaved 1 [])) (x_hist k) /\ x_bcast (erun false ls) = [r] /\ x_bcast k = [r].
Proof.
  exists ([XInvoke (esave None "s" ["a"])] ++ do 0 2 ++ [XDeliver]). eexists _, _.
  split; [vm_compute; reflexivity|]. split; [right; left; reflexivity|]. split; vm_compute; reflexivity.
Qed.
Print Assumptions C67_restart_announces_old_records_refuted.

(** Once the subscription has stopped, because it was dropped or met an event it
    cannot decode, nothing is announced for the rest of the life of the process. *)
Theorem C67_stopped_subscription_is_silent_refuted : forall j prefix recdel ls k k',
  x_sub k = None -> no_restart ls -> xrun j prefix recdel k ls = Some k' -> x_bcast k' = x_bcast k.
Proof. intros j prefix recdel ls k k' H1 H2 H3. exact (silent_run j prefix recdel ls k k' H2 H1 H3). Qed.
Print Assumptions C67_stopped_subscription_is_silent_refuted.
Example C67_silent : x_sub (erun false [XDropped]) = None
  /\ exists k, xrun es_json (Some "v1-") false (erun false [XDropped]) ([XInvoke (esave None "s" ["a"])] ++ do 0 2) = Some k
     /\ In (Ret 0 (OutSaved 1 [])) (x_hist k) /\ x_bcast k = [].
Proof. split; [reflexivity|]. eexists. split; [vm_compute; reflexivity|]. split; [right; left; reflexivity|reflexivity]. Qed.

(** What one process announces is in order, each record at most once; and when it has
    caught up, it is all that Events shows. *)
Theorem C67_announced_in_order_partial : forall j prefix ls k x,
  json_ok j -> xrun j prefix false es_start ls = Some k -> Forall (harmless prefix) ls ->
  increasing r_gsn (x_bcast k)
  /\ (x_sub k = Some (length (x_log k)) -> asked j prefix false k (OpEvents 0) x -> x = OutResults (map RRec (x_bcast k))).
Proof.
  intros j prefix ls k x J H Hh. pose proof (good_run _ _ _ _ _ _ (good_start _ _) H) as G.
  pose proof (ours_run _ _ _ _ _ _ (good_start _ _) Hh (ours_start j prefix) H) as O.
  destruct (relayed_start j prefix) as [A B]. destruct (relayed_run j prefix false ls _ _ A B H) as [R (p & Hp & Ep)]. split.
  - rewrite Ep. apply seen_sorted. apply sorted_map, sorted_firstn, sorted_map. apply G.
  - intros Hs Ha. apply asked_read in Ha as ->. destruct (R _ Hs) as [_ ->]. rewrite firstn_all. unfold read_all. rewrite (all_ours j prefix false); auto.
    2:{ intros e He. apply filter_In in He as [He _]. auto. }
    f_equal. f_equal. rewrite !filter_all; auto. intros e _. apply N.leb_le. lia.
Qed.
Print Assumptions C67_announced_in_order_partial.
Example C67_caught_up : exists k, xrun es_json (Some "v1-") false es_start (firstn 7 mixed ++ repeat XDeliver 4) = Some k
  /\ x_sub k = Some (length (x_log k)) /\ map r_data (x_bcast k) = ["c"; "a"; "b"].
Proof. eexists. split; [vm_compute; reflexivity|]. split; vm_compute; reflexivity. Qed.

(** * C68 TotalEventsInStream *)

(** A read that breaks off is reported as a smaller total. *)
Theorem C68_broken_read_counts_less_refuted : exists ls k,
  xrun es_json (Some "v1-") false es_start ls = Some k
  /\ In (Ret 0 (OutSaved 2 [])) (x_hist k) /\ In (Inv 1 (OpTotal "s" None)) (x_hist k) /\ In (Ret 1 (OutTotal 1)) (x_hist k).
Proof.
  exists ([XInvoke (esave None "s" ["a"; "b"])] ++ do 0 2 ++ [XInvoke (OpTotal "s" None); XFail 1 1]). eexists.
  split; [vm_compute; reflexivity|]. split; [right; left; reflexivity|]. split; [do 2 right; left; reflexivity|do 3 right; left; reflexivity].
Qed.
Print Assumptions C68_broken_read_counts_less_refuted.

(** If the read is complete, the total is the number of events of the stream. *)
Theorem C68_total_of_complete_read_partial : forall j prefix recdel ls k s x,
  json_ok j -> xrun j prefix recdel es_start ls = Some k -> Forall (harmless prefix) ls ->
  (forall e, In e (events_of (server_name prefix s) (x_log k)) -> String.prefix "$" (en_type e) = false) ->
  ~ In (server_name prefix s) (x_tomb k) -> asked j prefix recdel k (OpTotal s None) x ->
  x = OutTotal (N.of_nat (length (events_of (server_name prefix s) (x_log k)))).
Proof.
  intros j prefix recdel ls k s x J H Hh Hu Ht Ha. pose proof (good_run _ _ _ _ _ _ (good_start _ _) H) as G.
  pose proof (ours_run _ _ _ _ _ _ (good_start _ _) Hh (ours_start j prefix) H) as O. apply asked_read in Ha as ->. cbn [done_at]. f_equal.
  unfold read_stream. destruct (memb (server_name prefix s) (x_tomb k)) eqn:E; [apply memb_In in E; contradiction|].
  destruct (events_of (server_name prefix s) (x_log k)) as [|e0 es0] eqn:Ee; [reflexivity|]. rewrite <- Ee in *.
  rewrite filter_all by (intros e _; apply N.leb_le; cbn; lia). rewrite loop_ours; auto.
  2:{ intros e He. apply filter_In in He as [He _]. auto. }
  2:{ intros e He. apply filter_In in He as [_ He]. now apply String.eqb_eq. }
  rewrite filter_all by (intros r _; apply N.leb_le; lia).
  assert (L : length (flat_map (seen j prefix) (events_of (server_name prefix s) (x_log k))) = length (events_of (server_name prefix s) (x_log k))).
  { assert (K : forall es, (forall e, In e es -> In e (events_of (server_name prefix s) (x_log k))) -> length (flat_map (seen j prefix) es) = length es).
    { induction es as [|e es IH]; intros Hi; [reflexivity|]. cbn [flat_map length]. rewrite app_length, IH by (intros; apply Hi; now right).
      assert (He := Hi e (or_introl eq_refl)). pose proof (Hu e He) as Hue. apply filter_In in He as [He Hse]. apply String.eqb_eq in Hse.
      assert (Hsk : skipped prefix e = false) by (unfold skipped, internal; now rewrite Hue, (sname_current _ _ _ Hse)).
      destruct (O e He) as [X|Oe]; [congruence|]. destruct (our_seen j prefix e J Oe Hsk) as (r & ev & _ & -> & _). reflexivity. }
    apply K. auto. }
  destruct (flat_map _ _) as [|r l] eqn:Ef.
  - rewrite Ee in L. discriminate.
  - rewrite app_nil_r, total_map, L. reflexivity.
Qed.
Print Assumptions C68_total_of_complete_read_partial.
Example C68_total : asked es_json (Some "v1-") false (erun false (firstn 7 mixed)) (OpTotal "s" None) (OutTotal 2).
Proof. eexists. split; vm_compute; reflexivity. Qed.

(** * C69 Starting a deleted stream anew *)

(** After a delete of a stream was confirmed no save to it is ever confirmed again,
    by any process. *)
Theorem C69_deleted_stream_is_closed_refuted : forall j prefix recdel ls k i i' x s cn ex evs cn' n b,
  xrun j prefix recdel es_start ls = Some k ->
  In (Inv i (OpDelete x s cn)) (x_hist k) -> In (Inv i' (OpSave ex s evs cn')) (x_hist k) ->
  ~ (exists h1 h2 h3, x_hist k = h1 ++ Ret i OutDeleted :: h2 ++ Ret i' (OutSaved n b) :: h3).
Proof.
  intros j prefix recdel ls k i i' x s cn ex evs cn' n b H. assert (W : closed es_start) by (intros ? ? ? ? ? ? ? ? ? ? []).
  exact (closed_run _ _ _ _ _ _ (good_start _ _) W H i i' x s cn ex evs cn' n b).
Qed.
Print Assumptions C69_deleted_stream_is_closed_refuted.
Example C69_closed : In (Ret 2 (OutFailed EDatabase)) (x_hist (erun true (deleted_run ++ [XInvoke (esave None "s" ["b"])] ++ do 2 2))).
Proof. do 5 right. left. reflexivity. Qed.
