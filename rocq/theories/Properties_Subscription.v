(** Property theorems about subscriptions and the broadcaster (C20-C26). *)
From Coq Require Import PeanoNat.
From Verif Require Import Base LogSpec Core CoreSpec CoreProofs LogProofs Properties_Core Broadcaster BroadcasterSpec
  BroadcasterProofs Subscription SubscriptionSpec SubscriptionProofs SubscriptionCover SubscriptionRun.

(** * C20 *)

(** In every schedule of any store, any number of subscribers and any failures, the
    records handed to a subscriber have strictly increasing numbers, and none is
    below its StartFrom argument.  Hypotheses: it does not name an aggregate type
    twice, and uint64 numbers are not exhausted. *)
Theorem C20_in_order_without_duplicates : forall m subs ls y i qs cap u,
  yrun m (sys_init subs) ls = Some y ->
  nth_error subs i = Some (qs, cap) -> asks_for qs -> NoDup qs ->
  l_last (y_log y) < max64 -> (forall g, In (YStartFrom i g) ls -> g < max64) ->
  nth_error (y_subs y) i = Some u ->
  gsn_increasing (u_got u)
  /\ (forall g, In (YStartFrom i g) ls -> forall r, In r (u_got u) -> g <= r_gsn r).
Proof. exact run_ordered. Qed.
Print Assumptions C20_in_order_without_duplicates.

Definition all_sub : list query * nat := ([None], 10%nat).
Definition ab_sub : list query * nat := ([Some "A"; Some "B"], 10%nat).

(** Catch-up of 1-3, live delivery of 4, with 3 arriving twice. *)
Definition ex_catch_up : list label :=
  [YCommit [ex_rec 1 "A"; ex_rec 2 "B"]; YAccept 0; YAccept 0; YTake; YTake;
   YStartFrom 0 2; YFetch 0 None; YFetch 0 None; YDeliver 0 true; YSubscribe 0;
   YCommit [ex_rec 3 "A"]; YAccept 0; YTake; YSend (TAll 0);
   YSubscribe 0; YFetch 0 None; YFetch 0 None; YDeliver 0 true;
   YWork 0 true; YCommit [ex_rec 4 "B"]; YAccept 0; YTake; YSend (TAll 0); YWork 0 true].
Definition subs_of (y : option sys) : list sub := match y with Some y' => y_subs y' | None => [] end.
Example C20_witness :
  map (fun u => record_numbers (u_got u)) (subs_of (yrun leveldb_mode (sys_init [all_sub]) ex_catch_up)) = [[2; 3; 4]].
Proof. reflexivity. Qed.

(** The full statement is false: naming a type twice delivers the catch-up twice. *)
Theorem C20_repeated_type_refuted : exists ls y u,
  yrun leveldb_mode (sys_init [([Some "A"; Some "A"], 10%nat)]) ls = Some y
  /\ nth_error (y_subs y) 0 = Some u /\ ~ NoDup (record_numbers (u_got u)).
Proof.
  set (ls := [YCommit [ex_rec 1 "A"]; YAccept 0; YTake; YStartFrom 0 0; YFetch 0 None; YFetch 0 None; YFetch 0 None;
    YDeliver 0 true; YDeliver 0 true]).
  destruct (yrun leveldb_mode (sys_init [([Some "A"; Some "A"], 10%nat)]) ls) as [y|] eqn:E; [|discriminate E].
  destruct (nth_error (y_subs y) 0) as [u|] eqn:Eu.
  - exists ls, y, u. split; [exact E|]. split; [exact Eu|].
    vm_compute in E. injection E as <-. vm_compute in Eu. injection Eu as <-. cbn.
    intros N. inversion N as [|? ? H _]; subst. apply H. now left.
  - vm_compute in E. injection E as <-. discriminate Eu.
Qed.
Print Assumptions C20_repeated_type_refuted.

(** Nor at the end of the number range: StartFrom(2^64-1) starts over from 0. *)
Theorem C20_last_number_refuted : exists ls y u,
  yrun leveldb_mode (sys_init [all_sub]) ls = Some y /\ In (YStartFrom 0 max64) ls
  /\ nth_error (y_subs y) 0 = Some u /\ exists r, In r (u_got u) /\ r_gsn r < max64.
Proof.
  set (ls := [YCommit [ex_rec 1 "A"]; YAccept 0; YTake; YStartFrom 0 max64; YFetch 0 None; YFetch 0 None;
    YSubscribe 0; YSubscribe 0; YFetch 0 None; YFetch 0 None; YDeliver 0 true]).
  destruct (yrun leveldb_mode (sys_init [all_sub]) ls) as [y|] eqn:E; [|discriminate E].
  destruct (nth_error (y_subs y) 0) as [u|] eqn:Eu.
  - exists ls, y, u. split; [exact E|]. split; [cbn; tauto|]. split; [exact Eu|].
    vm_compute in E. injection E as <-. vm_compute in Eu. injection Eu as <-.
    exists (ex_rec 1 "A"). split; [now left|reflexivity].
  - vm_compute in E. injection E as <-. discriminate Eu.
Qed.
Print Assumptions C20_last_number_refuted.

(** * C21 *)

(** For every schedule in which saves do not overlap — which is every schedule of
    the LevelDB store — or hand over their records in the order of their commits, a subscriber to all events, or to one aggregate type, that
    was started with StartFrom(g) and was not disturbed (no read failed, it was not
    dropped for being slow) has, once it is live and nothing is on its way to it,
    received every record of the log with number above g, and record g if it was
    there when it started.  By C20 each once. *)
Theorem C21_start_from_misses_nothing : forall m subs ls1 ls2 i q cap g y1 y u,
  yrun m (sys_init subs) ls1 = Some y1 ->
  yrun m (sys_init subs) (ls1 ++ YStartFrom i g :: ls2) = Some y ->
  m_locked m = true \/ in_turn (ls1 ++ YStartFrom i g :: ls2) ->
  undisturbed i (ls1 ++ YStartFrom i g :: ls2) ->
  nth_error subs i = Some ([q], cap) -> g < max64 -> l_last (y_log y) < max64 ->
  nth_error (y_subs y) i = Some u -> u_phase u = PLive -> quiet y u ->
  forall r, In r (l_recs (y_log y)) -> q_match q r = true ->
    g < r_gsn r \/ In r (l_recs (y_log y1)) /\ r_gsn r = g -> In r (u_got u).
Proof. exact run_complete. Qed.
Print Assumptions C21_start_from_misses_nothing.

Corollary C21_leveldb : forall subs ls1 ls2 i q cap g y1 y u,
  yrun leveldb_mode (sys_init subs) ls1 = Some y1 ->
  yrun leveldb_mode (sys_init subs) (ls1 ++ YStartFrom i g :: ls2) = Some y ->
  undisturbed i (ls1 ++ YStartFrom i g :: ls2) ->
  nth_error subs i = Some ([q], cap) -> g < max64 -> l_last (y_log y) < max64 ->
  nth_error (y_subs y) i = Some u -> u_phase u = PLive -> quiet y u ->
  forall r, In r (l_recs (y_log y)) -> q_match q r = true ->
    g < r_gsn r \/ In r (l_recs (y_log y1)) /\ r_gsn r = g -> In r (u_got u).
Proof. intros subs ls1 ls2 i q cap g y1 y u H1 H2 H3. apply (run_complete leveldb_mode subs ls1 ls2 i q cap g y1 y u H1 H2 (or_introl eq_refl) H3). Qed.
Print Assumptions C21_leveldb.

(** [ex_catch_up] meets the hypotheses. *)
Example C21_witness : exists y1 y u,
  yrun leveldb_mode (sys_init [all_sub]) (firstn 5 ex_catch_up) = Some y1
  /\ yrun leveldb_mode (sys_init [all_sub]) (firstn 5 ex_catch_up ++ YStartFrom 0 2 :: skipn 6 ex_catch_up) = Some y
  /\ undisturbed 0 (firstn 5 ex_catch_up ++ YStartFrom 0 2 :: skipn 6 ex_catch_up)
  /\ nth_error (y_subs y) 0 = Some u /\ u_phase u = PLive /\ quiet y u
  /\ record_numbers (l_recs (y_log y)) = [1; 2; 3; 4].
Proof.
  eexists. eexists. eexists. split; [vm_compute; reflexivity|]. split; [vm_compute; reflexivity|]. split.
  - intros l Hl. repeat (destruct Hl as [<-|Hl]; [exact I|]). destruct Hl.
  - split; [reflexivity|]. split; [reflexivity|]. split; [repeat split|reflexivity].
Qed.

(** With several aggregate types the statement is false, also for LevelDB: the
    types are read one after the other, and a record of the first type committed
    in between, together with a higher one of the second type, is lost. *)
Theorem C21_several_types_refuted : exists ls1 ls2 y1 y u r,
  yrun leveldb_mode (sys_init [ab_sub]) ls1 = Some y1
  /\ yrun leveldb_mode (sys_init [ab_sub]) (ls1 ++ YStartFrom 0 0 :: ls2) = Some y
  /\ undisturbed 0 (ls1 ++ YStartFrom 0 0 :: ls2)
  /\ nth_error (y_subs y) 0 = Some u /\ u_phase u = PLive /\ quiet y u
  /\ In r (l_recs (y_log y)) /\ asked [Some "A"; Some "B"] r /\ 0 < r_gsn r /\ ~ In r (u_got u).
Proof.
  exists [], [YFetch 0 None; YCommit [ex_rec 1 "A"]; YAccept 0; YTake; YCommit [ex_rec 2 "B"]; YAccept 0; YTake;
    YFetch 0 None; YFetch 0 None; YDeliver 0 true; YSubscribe 0; YSubscribe 0; YSubscribe 0;
    YFetch 0 None; YFetch 0 None; YFetch 0 None].
  eexists. eexists. eexists. exists (ex_rec 1 "A").
  split; [vm_compute; reflexivity|]. split; [vm_compute; reflexivity|]. split.
  - intros l Hl. repeat (destruct Hl as [<-|Hl]; [exact I|]). destruct Hl.
  - split; [reflexivity|]. split; [reflexivity|]. split; [repeat split|]. split; [now left|].
    split; [right; now left|]. split; [reflexivity|]. cbn. intros [H|[]]. discriminate H.
Qed.
Print Assumptions C21_several_types_refuted.

(** * C22 *)

(** With overlapping saves to the in-memory store a live subscriber loses a record. *)
Theorem C22_overlapping_saves_refuted : exists ls1 ls2 y1 u1 y u r,
  yrun inmemory_mode (sys_init [all_sub]) ls1 = Some y1
  /\ nth_error (y_subs y1) 0 = Some u1 /\ u_phase u1 = PLive
  /\ yrun inmemory_mode y1 ls2 = Some y /\ undisturbed 0 (ls1 ++ ls2)
  /\ nth_error (y_subs y) 0 = Some u /\ u_phase u = PLive /\ quiet y u
  /\ In r (l_recs (y_log y)) /\ l_last (y_log y1) < r_gsn r /\ u_last u1 < r_gsn r /\ ~ In r (u_got u).
Proof.
  exists [YStart 0; YSubscribe 0; YSubscribe 0],
    [YCommit [ex_rec 1 "A"]; YCommit [ex_rec 2 "B"]; YAccept 1; YAccept 0; YTake; YSend (TAll 0); YWork 0 true;
     YTake; YSend (TAll 0); YWork 0 true].
  eexists. eexists. eexists. eexists. exists (ex_rec 1 "A").
  split; [vm_compute; reflexivity|]. split; [vm_compute; reflexivity|]. split; [vm_compute; reflexivity|]. split; [vm_compute; reflexivity|]. split.
  - intros l Hl. repeat (destruct Hl as [<-|Hl]; [exact I|]). destruct Hl.
  - split; [reflexivity|]. split; [reflexivity|]. split; [repeat split|]. split; [now left|].
    split; [reflexivity|]. split; [reflexivity|]. cbn. intros [H|[]]. discriminate H.
Qed.
Print Assumptions C22_overlapping_saves_refuted.

(** Guarded: if saves do not overlap (always so for LevelDB), or hand over their
    records in the order of their commits, every record saved
    while a subscription — to all events or to any set of types, started with Start
    or StartFrom — is live and undisturbed has been delivered once nothing is on its
    way to it any more. *)
Theorem C22_live_misses_nothing_partial : forall m subs ls1 ls2 i qs cap y1 u1 y u,
  yrun m (sys_init subs) ls1 = Some y1 ->
  yrun m y1 ls2 = Some y ->
  m_locked m = true \/ in_turn (ls1 ++ ls2) -> undisturbed i (ls1 ++ ls2) ->
  nth_error subs i = Some (qs, cap) -> asks_for qs -> l_last (y_log y) < max64 ->
  nth_error (y_subs y1) i = Some u1 -> u_phase u1 = PLive ->
  nth_error (y_subs y) i = Some u -> u_phase u = PLive -> quiet y u ->
  forall r, In r (l_recs (y_log y)) -> asked qs r ->
    l_last (y_log y1) < r_gsn r -> u_last u1 < r_gsn r -> In r (u_got u).
Proof. exact run_live_complete. Qed.
Print Assumptions C22_live_misses_nothing_partial.

Definition ex_start_ab : list label := [YStart 0; YSubscribe 0; YSubscribe 0; YSubscribe 0].
Definition ex_live_ab : list label :=
  [YCommit [ex_rec 1 "A"; ex_rec 2 "C"]; YCommit [ex_rec 5 "B"]; YAccept 0; YAccept 0; YTake; YSend (TType 0); YTake;
   YWork 0 true; YAccept 0; YTake; YSend (TType 0); YWork 0 true].
Example C22_witness : exists y1 u1 y u,
  yrun inmemory_mode (sys_init [ab_sub; all_sub]) ex_start_ab = Some y1
  /\ nth_error (y_subs y1) 0 = Some u1 /\ u_phase u1 = PLive
  /\ yrun inmemory_mode y1 ex_live_ab = Some y
  /\ in_turn (ex_start_ab ++ ex_live_ab)
  /\ undisturbed 0 (ex_start_ab ++ ex_live_ab)
  /\ nth_error (y_subs y) 0 = Some u /\ u_phase u = PLive /\ quiet y u /\ record_numbers (u_got u) = [1; 5].
Proof.
  eexists. eexists. eexists. eexists. split; [vm_compute; reflexivity|]. split; [vm_compute; reflexivity|].
  split; [reflexivity|]. split; [vm_compute; reflexivity|]. split.
  { intros k Hk. repeat (destruct Hk as [Hk|Hk]; [discriminate Hk || (now injection Hk)|]). destruct Hk. }
  split. { intros l Hl. repeat (destruct Hl as [<-|Hl]; [exact I|]). destruct Hl. }
  split; [vm_compute; reflexivity|]. split; [reflexivity|]. split; [repeat split|reflexivity].
Qed.

(** * C23 *)

(** StartFrom(g) when record g does not exist yet: g is skipped when it is saved. *)
Theorem C23_future_g_refuted : exists ls y u r,
  yrun leveldb_mode (sys_init [all_sub]) (YStartFrom 0 1 :: ls) = Some y
  /\ undisturbed 0 (YStartFrom 0 1 :: ls)
  /\ nth_error (y_subs y) 0 = Some u /\ u_phase u = PLive /\ quiet y u
  /\ In r (l_recs (y_log y)) /\ 1 <= r_gsn r /\ ~ In r (u_got u).
Proof.
  exists [YFetch 0 None; YFetch 0 None; YSubscribe 0; YSubscribe 0; YFetch 0 None; YFetch 0 None;
     YCommit [ex_rec 1 "A"]; YAccept 0; YTake; YSend (TAll 0); YWork 0 true].
  eexists. eexists. exists (ex_rec 1 "A"). split; [vm_compute; reflexivity|]. split.
  - intros l Hl. repeat (destruct Hl as [<-|Hl]; [exact I|]). destruct Hl.
  - split; [reflexivity|]. split; [reflexivity|]. split; [repeat split|]. split; [now left|].
    split; [cbn; lia|]. cbn. intros [].
Qed.
Print Assumptions C23_future_g_refuted.

(** Worse: this happens for every g in every schedule. If no record above or at g
    exists and the subscriber is live, a new record numbered g is never handed over. *)
Theorem C23_future_g_never_delivered : forall m y i u g r, nth_error (y_subs y) i = Some u ->
  u_last u = g -> r_gsn r = g -> ~ In r (u_got u) -> u_phase u = PLive ->
  forall ls y' u', yrun m y ls = Some y' -> nth_error (y_subs y') i = Some u' -> ~ In r (u_got u').
Proof.
  intros m y i u g r Hi L R N P ls.
  assert (K : u_last u >= r_gsn r /\ ~ In r (u_got u)
    /\ match u_phase u with PLive | PLeave _ _ | PDone | PGone => True | _ => False end).
  { rewrite P. split; [lia|auto]. }
  clear L N P. revert y u Hi K. induction ls as [|l ls IH]; cbn; intros y u Hi (A & B & C) y' u' H Hi'.
  - injection H as <-. congruence.
  - destruct (ystep m y l) as [y1|] eqn:E; [|discriminate].
    destruct (ystep_sub _ _ _ _ _ _ E Hi) as (u1 & Hi1 & Ch).
    eapply (IH y1 u1); eauto. clear -Ch A B C R. destruct Ch; cbn; auto; try (rewrite H in C; contradiction).
    + destruct (N.leb_spec (r_gsn r0) (u_last u)); cbn; [rewrite H; auto|].
      assert (~ In r (u_got u ++ [r0])). { rewrite in_app_iff. intros [?|[->|[]]]; auto. }
      destruct ok; cbn; rewrite ?H; split; auto; lia.
    + destruct fin; auto.
Qed.
Print Assumptions C23_future_g_never_delivered.

(** Guarded: with [g] one lower nothing is skipped; the records above [g] are those
    from [g + 1] on. *)
Theorem C23_from_next_partial : forall m subs ls1 ls2 i q cap g y1 y u,
  yrun m (sys_init subs) ls1 = Some y1 ->
  yrun m (sys_init subs) (ls1 ++ YStartFrom i g :: ls2) = Some y ->
  m_locked m = true \/ in_turn (ls1 ++ YStartFrom i g :: ls2) ->
  undisturbed i (ls1 ++ YStartFrom i g :: ls2) ->
  nth_error subs i = Some ([q], cap) -> g < max64 -> l_last (y_log y) < max64 ->
  nth_error (y_subs y) i = Some u -> u_phase u = PLive -> quiet y u ->
  forall r, In r (l_recs (y_log y)) -> q_match q r = true -> g + 1 <= r_gsn r -> In r (u_got u).
Proof.
  intros m subs ls1 ls2 i q cap g y1 y u H1 H2 H3 H4 H5 H6 H7 H8 H9 H10 r Hr M G.
  apply (run_complete m subs ls1 ls2 i q cap g y1 y u); auto. left. lia.
Qed.
Print Assumptions C23_from_next_partial.

(** A start above every number there is: what gets a number above it later arrives. *)
Definition ex_future : list label :=
  [YFetch 0 None; YFetch 0 None; YSubscribe 0; YSubscribe 0; YFetch 0 None; YFetch 0 None;
   YCommit [ex_rec 3 "A"; ex_rec 4 "B"]; YAccept 0; YAccept 0; YTake; YSend (TAll 0); YTake; YSend (TAll 0); YWork 0 true; YWork 0 true].
Example C23_witness : exists y u,
  yrun leveldb_mode (sys_init [all_sub]) (firstn 5 ex_catch_up ++ YStartFrom 0 3 :: ex_future) = Some y
  /\ m_locked leveldb_mode = true /\ undisturbed 0 (firstn 5 ex_catch_up ++ YStartFrom 0 3 :: ex_future)
  /\ l_last (y_log y) = 4
  /\ nth_error (y_subs y) 0 = Some u /\ u_phase u = PLive /\ quiet y u /\ record_numbers (u_got u) = [4].
Proof.
  eexists. eexists. split; [vm_compute; reflexivity|]. split; [reflexivity|]. split.
  { intros l Hl. repeat (destruct Hl as [<-|Hl]; [exact I|]). destruct Hl. }
  split; [reflexivity|]. split; [vm_compute; reflexivity|]. split; [reflexivity|]. split; [repeat split|reflexivity].
Qed.

(** * C24 *)

(** The records handed to a consumer that may refuse one. *)
Fixpoint until_refused (accepts : record -> bool) (l : list record) : list record :=
  match l with
  | [] => []
  | r :: rest => if accepts r then r :: until_refused accepts rest else [r]
  end.

(** The catch-up loop, for every channel content and every consumer: the error of
    the iterator is never returned. *)
Theorem C24_catch_up_exact : forall l accepts,
  write_records (S (length l)) (new_iter l) accepts
  = Some (until_refused accepts (before_error l),
          if forallb accepts (before_error l) then WOk else WConsumerErr).
Proof.
  intros l accepts. unfold new_iter. generalize (@None record) as r0.
  induction l as [|x l IH]; intros r0; [reflexivity|]. destruct x as [r|e]; [|reflexivity].
  cbn [length]. cbn. destruct (accepts r); [|reflexivity].
  specialize (IH (Some r)). cbn in IH. rewrite IH. reflexivity.
Qed.
Print Assumptions C24_catch_up_exact.

Corollary C24_read_error_reported_refuted :
  (exists l e, first_error l = Some e /\ write_records (S (length l)) (new_iter l) (fun _ => true) = Some (before_error l, WOk))
  /\ forall l accepts rs w, write_records (S (length l)) (new_iter l) accepts = Some (rs, w) -> forall e, w <> WIterErr e.
Proof.
  split.
  - exists [RRec (ex_rec 1 "A"); RErr EDeserialize], EDeserialize. split; reflexivity.
  - intros l accepts rs w H e. rewrite C24_catch_up_exact in H. injection H as _ <-.
    destruct (forallb _ _); discriminate.
Qed.
Print Assumptions C24_read_error_reported_refuted.

(** Seen by the user: the subscription is live, no error was returned, a record is
    missing. *)
Theorem C24_live_with_gap_refuted : exists ls y u r,
  yrun leveldb_mode (sys_init [all_sub]) ls = Some y
  /\ nth_error (y_subs y) 0 = Some u /\ u_phase u = PLive /\ quiet y u
  /\ In r (l_recs (y_log y)) /\ In (YStartFrom 0 0) ls /\ ~ In r (u_got u).
Proof.
  exists [YCommit [ex_rec 1 "A"; ex_rec 2 "B"]; YAccept 0; YAccept 0; YTake; YTake; YStartFrom 0 0;
    YFetch 0 (Some 1%nat); YFetch 0 None; YDeliver 0 true; YSubscribe 0; YSubscribe 0; YFetch 0 (Some 0%nat); YFetch 0 None].
  eexists. eexists. exists (ex_rec 2 "B"). split; [vm_compute; reflexivity|].
  split; [reflexivity|]. split; [reflexivity|]. split; [repeat split|]. split; [right; now left|].
  split; [cbn; tauto|]. cbn. intros [H|[]]. discriminate H.
Qed.
Print Assumptions C24_live_with_gap_refuted.

(** Guarded: without a read error the loop returns nil exactly if the consumer took
    every record, and then all of them were handed over in order. *)
Theorem C24_no_read_error_partial : forall rs accepts,
  write_records (S (length (map RRec rs))) (new_iter (map RRec rs)) accepts = Some (rs, WOk)
  <-> forallb accepts rs = true.
Proof.
  intros rs accepts. rewrite C24_catch_up_exact, before_error_map. split.
  - intros H. destruct (forallb accepts rs); [reflexivity|discriminate].
  - intros H. rewrite H. f_equal. f_equal. induction rs as [|r rs IH]; cbn in *; auto.
    apply andb_true_iff in H as [H1 H2]. rewrite H1. f_equal. auto.
Qed.
Print Assumptions C24_no_read_error_partial.

Example C24_witness :
  write_records 4 (new_iter (map RRec [ex_rec 1 "A"; ex_rec 2 "B"; ex_rec 3 "A"])) (fun _ => true) = Some ([ex_rec 1 "A"; ex_rec 2 "B"; ex_rec 3 "A"], WOk)
  /\ write_records 4 (new_iter (map RRec [ex_rec 1 "A"; ex_rec 2 "B"; ex_rec 3 "A"])) (fun r => r_gsn r <? 2) <> Some ([ex_rec 1 "A"; ex_rec 2 "B"; ex_rec 3 "A"], WOk)
  /\ forallb (fun r => r_gsn r <? 2) [ex_rec 1 "A"; ex_rec 2 "B"; ex_rec 3 "A"] = false.
Proof. split; [reflexivity|]. split; [discriminate|reflexivity]. Qed.

(** * C25 *)

(** For every sequence of messages and every pattern of slowness the records found
    in a subscriber's channel, and the number of times it was told to stop, are the
    ones due by the history alone. *)
Theorem C25_delivered_as_due : forall ms i,
  n_got (brun net_init ms) i = due i [] ms /\ n_stops (brun net_init ms) i = stops_due i [] ms.
Proof. intros ms i. exact (brun_due ms net_init [] i matches_init). Qed.
Print Assumptions C25_delivered_as_due.

Lemma due_app i : forall a past b, due i past (a ++ b) = due i past a ++ due i (past ++ a) b.
Proof.
  induction a as [|m a IH]; intros past b; cbn.
  - now rewrite app_nil_r.
  - rewrite IH, <- !app_assoc. reflexivity.
Qed.

(** One broadcast, after any history: a copy for each list the subscriber is on,
    unless it is too slow for it. *)
Theorem C25_one_broadcast : forall ms r s1 s2 i,
  n_got (brun net_init (ms ++ [BRecord r s1 s2])) i
  = n_got (brun net_init ms) i
    ++ (if on_all i ms && negb (s1 i) then [r] else [])
    ++ (if on_type (r_atype r) i ms && negb (s2 i) then [r] else []).
Proof.
  intros. destruct (C25_delivered_as_due (ms ++ [BRecord r s1 s2]) i) as [A _].
  destruct (C25_delivered_as_due ms i) as [B _]. rewrite A, B, due_app. cbn. now rewrite app_nil_r.
Qed.
Print Assumptions C25_one_broadcast.

(** A subscriber on neither list, and not subscribing again, gets nothing more. *)
Theorem C25_off_the_lists_gets_nothing : forall ms ms' i,
  on_all i ms = false -> (forall t, on_type t i ms = false) ->
  Forall (fun m => match m with BSubAll j | BSubType _ j => j <> i | _ => True end) ms' ->
  n_got (brun net_init (ms ++ ms')) i = n_got (brun net_init ms) i.
Proof.
  intros ms ms' i A T F. destruct (C25_delivered_as_due (ms ++ ms') i) as [X _].
  destruct (C25_delivered_as_due ms i) as [B _]. rewrite X, B, due_app. cbn.
  rewrite (due_never_on i ms' ms); auto. apply app_nil_r.
Qed.
Print Assumptions C25_off_the_lists_gets_nothing.

(** A subscriber to all events that was too slow: stopped, and nothing more. *)
Theorem C25_slow_is_stopped : forall ms r s1 s2 ms' i,
  on_all i ms = true -> (forall t, on_type t i ms = false) -> s1 i = true ->
  Forall (fun m => match m with BSubAll j | BSubType _ j => j <> i | _ => True end) ms' ->
  n_got (brun net_init (ms ++ BRecord r s1 s2 :: ms')) i = n_got (brun net_init ms) i
  /\ (n_stops (brun net_init (ms ++ [BRecord r s1 s2])) i = S (n_stops (brun net_init ms) i)).
Proof.
  intros ms r s1 s2 ms' i A T S F. split.
  - replace (ms ++ BRecord r s1 s2 :: ms') with ((ms ++ [BRecord r s1 s2]) ++ ms') by now rewrite <- app_assoc.
    rewrite C25_off_the_lists_gets_nothing; auto.
    + rewrite C25_one_broadcast, A, T, S. cbn. now rewrite app_nil_r.
    + rewrite on_all_snoc, A, S. reflexivity.
    + intros t. rewrite on_type_snoc, T. reflexivity.
  - destruct (brun_due [BRecord r s1 s2] (brun net_init ms) ms i (brun_matches ms net_init [] matches_init)) as [_ X].
    unfold brun in *. rewrite fold_left_app. rewrite X. cbn. rewrite A, S, T. cbn. lia.
Qed.
Print Assumptions C25_slow_is_stopped.

(** No subscriber is affected by what others do or how slow they are. *)
Theorem C25_others_do_not_matter : forall ms ms' i, Forall2 (same_for i) ms ms' ->
  n_got (brun net_init ms) i = n_got (brun net_init ms') i.
Proof.
  intros ms ms' i F. destruct (C25_delivered_as_due ms i) as [A _]. destruct (C25_delivered_as_due ms' i) as [B _].
  rewrite A, B. now apply due_same.
Qed.
Print Assumptions C25_others_do_not_matter.

Lemma stops_fold l : forall n, n_got (fold_left stop_one l n) = n_got n
  /\ forall i, n_stops (fold_left stop_one l n) i = (n_stops n i + length (filter (Nat.eqb i) l))%nat.
Proof.
  induction l as [|j l IH]; intros n; cbn [fold_left filter]; [split; [reflexivity|intros i; cbn; lia]|].
  destruct (IH (stop_one n j)) as [A B]. split; [rewrite A; reflexivity|]. intros i. rewrite B. cbn [stop_one n_stops]. unfold put.
  rewrite (Nat.eqb_sym j i). destruct (Nat.eqb_spec i j) as [<-|]; cbn [length]; lia.
Qed.
Lemma count_once i l : NoDup l -> length (filter (Nat.eqb i) l) = if existsb (Nat.eqb i) l then 1%nat else 0%nat.
Proof.
  induction 1 as [|j l Hj Hl IH]; cbn; [reflexivity|]. destruct (Nat.eqb_spec i j) as [<-|]; cbn; [|exact IH].
  rewrite IH. destruct (existsb (Nat.eqb i) l) eqn:E; [|reflexivity].
  apply existsb_exists in E as (y & Hy & Ey). apply Nat.eqb_eq in Ey. subst y. contradiction.
Qed.
(** Closing the broadcaster calls Stop once for each list a subscriber is on, of all
    subscribers and of no others, and delivers nothing. *)
Theorem C25_close_stops_the_listed : forall ms i,
  n_got (close_all (brun net_init ms)) i = n_got (brun net_init ms) i
  /\ exists ts, NoDup ts /\ (forall t, In t ts <-> on_type t i ms = true)
     /\ n_stops (close_all (brun net_init ms)) i
        = (n_stops (brun net_init ms) i + (if on_all i ms then 1 else 0) + length ts)%nat.
Proof.
  intros ms i. destruct (brun_matches ms net_init [] matches_init) as ((Na & Nt) & A & T). cbn [app] in A, T.
  set (n := brun net_init ms) in *. unfold close_all.
  destruct (stops_fold (map snd (b_types (n_b n))) (fold_left stop_one (b_all (n_b n)) n)) as [G2 S2].
  destruct (stops_fold (b_all (n_b n)) n) as [G1 S1]. split; [now rewrite G2, G1|].
  exists (map fst (filter (fun p => Nat.eqb i (snd p)) (b_types (n_b n)))). split; [|split].
  - clear - Nt. induction Nt as [|[t k] l Hp Hl IH]; cbn; [constructor|]. destruct (Nat.eqb_spec i k) as [<-|]; [|exact IH].
    cbn. constructor; [|exact IH]. intros H. apply in_map_iff in H as ([t' k'] & E & H). cbn in E. subst t'.
    apply filter_In in H as [H E]. cbn in E. apply Nat.eqb_eq in E. subst k'. contradiction.
  - intros t. rewrite <- T. unfold in_type. rewrite existsb_exists. split.
    + intros H. apply in_map_iff in H as ([t' k'] & E & H). cbn in E. subst t'. apply filter_In in H as [H E]. cbn in E.
      apply Nat.eqb_eq in E. subst k'. exists (t, i). split; [exact H|]. unfold same_sub. cbn. now rewrite String.eqb_refl, Nat.eqb_refl.
    + intros ([t' k'] & H & E). unfold same_sub in E. cbn in E. apply andb_true_iff in E as [E1 E2]. apply String.eqb_eq in E1.
      apply in_map_iff. exists (t', k'). cbn. split; [congruence|]. apply filter_In. split; [exact H|exact E2].
  - rewrite S2, S1, (count_once i _ Na). fold (in_all i (n_b n)). rewrite A. f_equal.
    clear. induction (b_types (n_b n)) as [|p l IH]; cbn; [reflexivity|]. destruct (Nat.eqb i (snd p)); cbn; congruence.
Qed.
Print Assumptions C25_close_stops_the_listed.

Definition nobody : nat -> bool := fun _ => false.
Definition ex_msgs : list bmsg :=
  [BSubAll 1; BSubType "A" 2; BRecord (ex_rec 1 "A") nobody nobody; BRecord (ex_rec 2 "B") (Nat.eqb 1) nobody;
   BRecord (ex_rec 3 "A") nobody nobody; BUnsubType "A" 2; BRecord (ex_rec 4 "A") nobody nobody].
Example C25_witness :
  record_numbers (n_got (brun net_init ex_msgs) 1) = [1] /\ n_stops (brun net_init ex_msgs) 1%nat = 1%nat
  /\ record_numbers (n_got (brun net_init ex_msgs) 2) = [1; 3].
Proof. repeat split. Qed.
Example C25_close_witness :
  let ms := [BSubAll 1; BSubType "A" 2; BSubType "B" 2; BSubType "A" 3; BUnsubType "A" 3] in
  map (n_stops (close_all (brun net_init ms))) [0; 1; 2; 3]%nat = [0; 1; 2; 0]%nat
  /\ on_all 1 ms = true /\ on_type "A" 2 ms = true /\ on_type "B" 2 ms = true.
Proof. repeat split. Qed.

(** "Exactly once per subscriber" is false for a subscriber on both lists; and being
    too slow on one list leaves it on the other. *)
Theorem C25_once_per_subscriber_refuted : exists ms i r,
  n_got (brun net_init ms) i = [r; r].
Proof.
  exists [BSubAll 1; BSubType "A" 1; BRecord (ex_rec 1 "A") nobody nobody], 1%nat, (ex_rec 1 "A"). reflexivity.
Qed.
Print Assumptions C25_once_per_subscriber_refuted.

Theorem C25_stopped_but_served_refuted : exists ms i,
  n_stops (brun net_init ms) i = 1%nat /\ forall r, r_atype r = "A" ->
  n_got (brun net_init (ms ++ [BRecord r nobody nobody])) i = n_got (brun net_init ms) i ++ [r].
Proof.
  exists [BSubAll 1; BSubType "A" 1; BRecord (ex_rec 1 "A") (Nat.eqb 1) nobody], 1%nat. split; [reflexivity|].
  intros r E. rewrite C25_one_broadcast, E. reflexivity.
Qed.
Print Assumptions C25_stopped_but_served_refuted.

(** * C26 *)

(** Closing the broadcaster tells everyone on its lists to stop... *)
Theorem C26_close_stops_everyone : forall m subs ls y y' i qs cap u u',
  yrun m (sys_init subs) ls = Some y -> undisturbed i ls ->
  nth_error subs i = Some (qs, cap) -> qs <> [] ->
  nth_error (y_subs y) i = Some u -> u_phase u = PLive ->
  ystep m y YShutdown = Some y' -> nth_error (y_subs y') i = Some u' -> u_stop u' = true.
Proof.
  intros m subs ls y y' i qs cap u u' R UD Hs NE Hi P St Hi'.
  destruct (good_init i qs cap subs Hs) as [H0 G0].
  destruct (run_reg m i qs ls _ _ _ R UD H0 eq_refl (proj2 (proj2 G0))) as (u0 & Hi0 & _ & RG).
  assert (u0 = u) by congruence. subst u0. unfold reg_ok in RG. rewrite P in RG.
  cbn [ystep] in St. destruct (_ && _)%bool; [|discriminate]. injection St as <-.
  destruct (stop_listed_stops (b_all (y_b y) ++ map snd (b_types (y_b y)))
    (mk_sys (y_log y) (y_pend y) (y_queue y) (y_now y) (y_b y) false true (y_subs y)) i u Hi) as (v & Hv & Sv).
  - apply in_app_iff. destruct qs as [|q qs]; [congruence|]. specialize (RG q (or_introl eq_refl)).
    destruct q as [t|]; cbn in RG; [right|left; auto]. apply in_map_iff. exists (t, i). auto.
  - cbn [y_subs] in Hv. congruence.
Qed.
Print Assumptions C26_close_stops_everyone.

(** ... but their Done channels never close: from the moment the broadcaster has
    shut down, in every continuation, no subscription that was not already over
    gets there. *)
Theorem C26_done_never_closes_refuted : forall m subs ls y y1 ls' y' i qs cap u u',
  yrun m (sys_init subs) ls = Some y -> nth_error subs i = Some (qs, cap) -> qs <> [] ->
  nth_error (y_subs y) i = Some u -> u_phase u = PLive ->
  ystep m y YShutdown = Some y1 -> yrun m y1 ls' = Some y' ->
  nth_error (y_subs y') i = Some u' -> u_phase u' <> PDone.
Proof.
  intros m subs ls y y1 ls' y' i qs cap u u' R Hs NE Hi P St R' Hi'.
  destruct (good_init i qs cap subs Hs) as [H0 _].
  destruct (yrun_keeps _ _ _ _ _ _ R H0) as (u0 & Hi0 & Q). assert (u0 = u) by congruence. subst u0.
  assert (O : y_open y1 = false).
  { cbn [ystep] in St. destruct (_ && _)%bool; [|discriminate]. injection St as <-.
    destruct (stop_listed_rest (b_all (y_b y) ++ map snd (b_types (y_b y)))
      (mk_sys (y_log y) (y_pend y) (y_queue y) (y_now y) (y_b y) false true (y_subs y))) as (_ & _ & _ & _ & _ & K & _).
    exact K. }
  destruct (ystep_sub _ _ _ _ _ _ St Hi) as (u1 & Hi1 & C).
  assert (N : never_finishes u1).
  { inversion C; subst; try (match goal with K : _ \/ _ |- _ => destruct K as [K|[K|(t & K & _)]]; discriminate end);
      unfold never_finishes; cbn; rewrite P; rewrite Q; cbn; (split; [exact NE|split; discriminate]). }
  apply (run_never _ _ _ _ _ _ _ R' O Hi1 Hi' N).
Qed.
Print Assumptions C26_done_never_closes_refuted.

Example C26_witness : exists y u y1,
  yrun leveldb_mode (sys_init [all_sub]) [YStart 0; YSubscribe 0; YSubscribe 0; YClose] = Some y
  /\ nth_error (y_subs y) 0 = Some u /\ u_phase u = PLive /\ ystep leveldb_mode y YShutdown = Some y1.
Proof.
  eexists. eexists. eexists. split; [vm_compute; reflexivity|]. split; [vm_compute; reflexivity|].
  split; [reflexivity|vm_compute; reflexivity].
Qed.

(** Guarded: while the broadcaster runs, a live subscription that was stopped can
    always leave: its Done channel closes after its own remaining steps. *)
Theorem C26_stop_finishes_partial : forall m y i u,
  nth_error (y_subs y) i = Some u -> u_phase u = PLive -> u_stop u = true -> idle y = true ->
  exists y' u', yrun m y (YQuit i :: repeat (YUnsubscribe i) (S (length (u_queries u)))) = Some y'
    /\ nth_error (y_subs y') i = Some u' /\ u_phase u' = PDone.
Proof.
  intros m y i u Hi P S I. cbn [yrun ystep]. rewrite Hi, P, S.
  apply (leave_all m (u_queries u) _ i (with_phase (PLeave (u_queries u) true) u) true); auto.
  cbn. now rewrite (nth_set_same _ _ _ _ Hi).
Qed.
Print Assumptions C26_stop_finishes_partial.

(** After Close the store itself wedges: once the broadcaster's channel is full no
    save can hand its record over, and a LevelDB save holds the store's lock while it
    waits, so nothing is ever committed again. *)
Theorem C26_saves_block_after_close : forall m ls y y', m_locked m = true -> yrun m y ls = Some y' ->
  y_open y = false -> (m_qcap m <= length (y_queue y))%nat -> y_pend y <> [] ->
  y_log y' = y_log y /\ forall rs, ~ In (YCommit rs) ls.
Proof.
  induction ls as [|l ls IH]; cbn; intros y y' M R O F PN.
  - injection R as <-. auto.
  - destruct (ystep m y l) as [y1|] eqn:E; [|discriminate].
    pose proof (step_closed _ _ _ _ E O) as O1.
    assert (K : y_log y1 = y_log y /\ y_pend y1 = y_pend y /\ y_queue y1 = y_queue y /\ forall rs, l <> YCommit rs).
    { pose proof (ystep_env _ _ _ _ E) as En. inversion En; subst; repeat (split; [auto; fail|]); try (intros; discriminate);
        try (split; [assumption|]); try (split; [assumption|]); try (split; [assumption|]); try (intros; discriminate).
      - intros rs ->. contradiction.
      - exfalso. cbn [ystep] in E. rewrite M in E. cbn in E. destruct (y_pend y); [congruence|].
        cbn in E. rewrite !andb_false_r in E. discriminate.
      - exfalso. cbn [ystep] in E. rewrite M in E. cbn in E. destruct (y_pend y); [congruence|].
        cbn in E. rewrite !andb_false_r in E. discriminate.
      - exfalso. cbn [ystep] in E. rewrite H in E. destruct (Nat.ltb_spec (length (y_queue y)) (m_qcap m)); [lia|discriminate].
      - exfalso. cbn [ystep] in E. unfold idle in E. rewrite O in E. cbn in E. destruct (y_queue y); discriminate. }
    destruct K as (K1 & K2 & K3 & K4).
    destruct (IH y1 y' M R O1) as [A B]; [now rewrite K3|now rewrite K2|].
    split; [congruence|]. intros rs [Hl|Hl]; [now apply (K4 rs)|now apply (B rs)].
Qed.
Print Assumptions C26_saves_block_after_close.
