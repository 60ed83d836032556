(** Property theorems about a client that resumes after a lost connection (C89). *)
From Coq Require Import PeanoNat.
From Verif Require Import Base LogSpec Core CoreSpec CoreProofs LogProofs Properties_Core Broadcaster BroadcasterSpec
  BroadcasterProofs Subscription SubscriptionSpec Follow FollowSpec FollowProofs.

(** * C89 *)

(** In every schedule of saves, deletions, other subscribers, losses of the connection
    and reconnections, what the client has printed at any moment has no gap: if it has
    printed a record, it has printed every earlier matching one that is in the store.
    One query (all events, or one aggregate type). *)
Theorem C89_no_gap_partial : forall m subs q ls y f,
  frun m (sys_init subs, follower_new) ls = Some (y, f) -> asking subs [q] ls ->
  m_locked m = true \/ saves_in_turn ls -> reads_fine ls -> l_last (y_log y) < max64 ->
  forall r r', In r' (f_printed f) -> In r (l_recs (y_log y)) -> asked [q] r -> r_gsn r <= r_gsn r' -> In r (f_printed f).
Proof.
  intros m subs q ls y f R A O RF LM r r' Hr' Hr Ha Le.
  pose proof (w_max _ _ _ _ _ _ (following_run m subs [q] (single_asks q) (single_nodup q) ls y f R A LM) r' Hr').
  apply (covered_run m subs q ls y f R A LM O RF r Hr Ha). lia.
Qed.
Print Assumptions C89_no_gap_partial.

(** When its call is live and nothing is on the way, it has printed everything. *)
Theorem C89_caught_up_partial : forall m subs q ls y f i u,
  frun m (sys_init subs, follower_new) ls = Some (y, f) -> asking subs [q] ls ->
  m_locked m = true \/ saves_in_turn ls -> reads_fine ls -> not_slow i ls -> l_last (y_log y) < max64 ->
  f_cur f = Some (i, length (u_got u)) -> nth_error (y_subs y) i = Some u -> u_phase u = PLive -> quiet y u ->
  forall r, In r (l_recs (y_log y)) -> asked [q] r -> In r (f_printed f).
Proof. intros m subs q ls y f i u R A O RF NS LM Hc Hi P Q. exact (caught_up m subs q ls y f i u R A LM O RF NS Hc Hi P Q). Qed.
Print Assumptions C89_caught_up_partial.

(** It prints only records that were saved and that it asked for, in the order of their
    numbers, and it repeats a record only at a reconnection, at most once each.  Any
    query: all events, or any number of types. *)
Theorem C89_in_order_partial : forall m subs qs ls y f, asks_for qs -> NoDup qs ->
  frun m (sys_init subs, follower_new) ls = Some (y, f) -> asking subs qs ls -> l_last (y_log y) < max64 ->
  (forall r, In r (f_printed f) -> In r (commits ls) /\ asked qs r)
  /\ gsn_increasing (once (f_printed f))
  /\ (length (f_printed f) <= length (once (f_printed f)) + (connects ls - 1))%nat.
Proof.
  intros m subs qs ls y f AF ND R A LM. destruct (following_run m subs qs AF ND ls y f R A LM) as [W1 W2 W3 W4 W5 W6 W7 W8 W9].
  split; [auto|]. split; [auto|]. destruct W8 as [->|W8]; cbn; lia.
Qed.
Print Assumptions C89_in_order_partial.

(** A follower of type A: two records saved, the first call is lost after printing one
    of them; a third is saved; the second call catches up and goes live, a fourth comes. *)
Definition follow_subs : list (list query * nat) := [([Some "A"], 10%nat); ([Some "A"], 10%nat)].
Definition fs := map FSys.
Definition ex_first_call : list flabel :=
  fs [YCommit [ex_rec 1 "A"; ex_rec 2 "B"; ex_rec 3 "A"]; YAccept 0; YAccept 0; YAccept 0; YTake; YTake; YTake]
  ++ FConnect 0 :: fs [YFetch 0 None; YFetch 0 None; YDeliver 0 true; YDeliver 0 true] ++ [FRecv; FLost]
  ++ fs [YStop 0].
Definition ex_second_call : list flabel :=
  FConnect 1 :: fs [YFetch 1 None; YFetch 1 None; YDeliver 1 true] ++ FRecv :: fs [YDeliver 1 true;
    YSubscribe 1; YSubscribe 1; YFetch 1 None; YFetch 1 None;
    YCommit [ex_rec 4 "A"]; YAccept 0; YTake; YSend (TType 1); YWork 1 true] ++ [FRecv; FRecv].

Example C89_witness : exists y f u,
  frun leveldb_mode (sys_init follow_subs, follower_new) (ex_first_call ++ ex_second_call) = Some (y, f)
  /\ asking follow_subs [Some "A"] (ex_first_call ++ ex_second_call) /\ reads_fine (ex_first_call ++ ex_second_call)
  /\ not_slow 1 (ex_first_call ++ ex_second_call)
  /\ nth_error (y_subs y) 1 = Some u /\ f_cur f = Some (1%nat, length (u_got u)) /\ u_phase u = PLive /\ quiet y u
  /\ record_numbers (f_printed f) = [1; 1; 3; 4] /\ record_numbers (once (f_printed f)) = [1; 3; 4]
  /\ record_numbers (l_recs (y_log y)) = [1; 2; 3; 4].
Proof.
  eexists. eexists. eexists. split; [vm_compute; reflexivity|].
  split. { intros i H. repeat (destruct H as [H|H]; [try discriminate H; injection H as <-; exists 10%nat; reflexivity|]). destruct H. }
  split. { intros i k _ H. repeat (destruct H as [H|H]; [discriminate H|]). destruct H. }
  split. { intros t H. repeat (destruct H as [H|H]; [discriminate H|]). destruct H. }
  split; [vm_compute; reflexivity|]. split; [vm_compute; reflexivity|]. split; [reflexivity|]. split; [repeat split|].
  split; [reflexivity|]. split; reflexivity.
Qed.

(** Not exactly once: it asks from the last number it saw, not from the next.  So
    whenever it had printed something and the last printed record is still in the store,
    the first record it receives on the new call is that one again. *)
Theorem C89_exactly_once_refuted : forall m subs q ls i la y f y2 f2 l r,
  frun m (sys_init subs, follower_new) ls = Some (y, f) -> f_printed f = l ++ [r] -> In r (l_recs (y_log y)) ->
  frun m (y, f) (FConnect i :: la ++ [FRecv]) = Some (y2, f2) -> (forall x, In x la -> exists a, x = FSys a) ->
  asking subs [q] (ls ++ FConnect i :: la) -> l_last (y_log y2) < max64 ->
  m_locked m = true \/ saves_in_turn (ls ++ FConnect i :: la) -> reads_fine (ls ++ FConnect i :: la) ->
  In r (l_recs (y_log y2)) -> f_printed f2 = f_printed f ++ [r].
Proof. intros m subs q ls i la y f y2 f2 l r. exact (first_again m subs q ls i la y f y2 f2 l r). Qed.
Print Assumptions C89_exactly_once_refuted.

Definition ex_between : list flabel := fs [YFetch 1 None; YFetch 1 None; YDeliver 1 true].
Example C89_witness_again : exists y f y2 f2,
  frun leveldb_mode (sys_init follow_subs, follower_new) ex_first_call = Some (y, f)
  /\ f_printed f = [] ++ [ex_rec 1 "A"] /\ In (ex_rec 1 "A") (l_recs (y_log y))
  /\ frun leveldb_mode (y, f) (FConnect 1 :: ex_between ++ [FRecv]) = Some (y2, f2)
  /\ (forall x, In x ex_between -> exists a, x = FSys a)
  /\ asking follow_subs [Some "A"] (ex_first_call ++ FConnect 1 :: ex_between)
  /\ reads_fine (ex_first_call ++ FConnect 1 :: ex_between)
  /\ In (ex_rec 1 "A") (l_recs (y_log y2)) /\ f_printed f2 = [ex_rec 1 "A"; ex_rec 1 "A"].
Proof.
  eexists. eexists. eexists. eexists. split; [vm_compute; reflexivity|]. split; [reflexivity|]. split; [now left|].
  split; [vm_compute; reflexivity|].
  split. { intros x H. repeat (destruct H as [<-|H]; [eexists; reflexivity|]). destruct H. }
  split. { intros i H. repeat (destruct H as [H|H]; [try discriminate H; injection H as <-; exists 10%nat; reflexivity|]). destruct H. }
  split. { intros i k _ H. repeat (destruct H as [H|H]; [discriminate H|]). destruct H. }
  split; [now left|reflexivity].
Qed.

(** With several types a record can be missed for good: too slow for a record of one
    type, the client goes on with the other type, and its next call starts behind. *)
Theorem C89_several_types_refuted : exists subs ls y f i u r,
  frun leveldb_mode (sys_init subs, follower_new) ls = Some (y, f) /\ asking subs [Some "A"; Some "B"] ls /\ reads_fine ls
  /\ not_slow i ls /\ nth_error (y_subs y) i = Some u /\ f_cur f = Some (i, length (u_got u)) /\ u_phase u = PLive /\ quiet y u
  /\ In r (l_recs (y_log y)) /\ asked [Some "A"; Some "B"] r /\ ~ In r (f_printed f).
Proof.
  exists [([Some "A"; Some "B"], 1%nat); ([Some "A"; Some "B"], 1%nat)].
  exists (FConnect 0 :: fs [YFetch 0 None; YFetch 0 None; YFetch 0 None; YSubscribe 0; YSubscribe 0; YSubscribe 0; YFetch 0 None;
      YFetch 0 None; YFetch 0 None; YCommit [ex_rec 1 "A"; ex_rec 2 "A"; ex_rec 3 "B"]; YAccept 0; YAccept 0; YAccept 0; YTake;
      YSend (TType 0); YTake; YTimeout (TType 0); YWork 0 true; YTake; YSend (TType 0); YWork 0 true]
    ++ [FRecv; FRecv; FLost; FConnect 1] ++ fs [YFetch 1 None; YFetch 1 None; YFetch 1 None; YDeliver 1 true;
      YSubscribe 1; YSubscribe 1; YSubscribe 1; YFetch 1 None; YFetch 1 None; YFetch 1 None] ++ [FRecv]).
  eexists. eexists. exists 1%nat. eexists. exists (ex_rec 2 "A").
  split; [vm_compute; reflexivity|].
  split. { intros i H. repeat (destruct H as [H|H]; [try discriminate H; injection H as <-; exists 1%nat; reflexivity|]). destruct H. }
  split. { intros i k _ H. repeat (destruct H as [H|H]; [discriminate H|]). destruct H. }
  split. { intros t H. repeat (destruct H as [H|H]; [try discriminate H; injection H as <-; discriminate|]). destruct H. }
  split; [vm_compute; reflexivity|]. split; [vm_compute; reflexivity|]. split; [reflexivity|]. split; [repeat split|].
  split; [right; now left|]. split; [right; now left|]. cbn. intros [H|[H|[H|[]]]]; discriminate H.
Qed.
Print Assumptions C89_several_types_refuted.

(** Nor if reads of the server fail: the call is not ended, goes on with a gap, and the
    next one starts behind it. *)
Theorem C89_failing_read_refuted : exists subs ls y f i u r,
  frun leveldb_mode (sys_init subs, follower_new) ls = Some (y, f) /\ asking subs [None] ls
  /\ not_slow i ls /\ nth_error (y_subs y) i = Some u /\ f_cur f = Some (i, length (u_got u)) /\ u_phase u = PLive /\ quiet y u
  /\ In r (l_recs (y_log y)) /\ ~ In r (f_printed f).
Proof.
  exists [([None], 10%nat); ([None], 10%nat)].
  exists (fs [YCommit [ex_rec 1 "A"; ex_rec 2 "A"]; YAccept 0; YAccept 0; YTake; YTake]
    ++ FConnect 0 :: fs [YFetch 0 (Some 1%nat); YFetch 0 None; YDeliver 0 true; YSubscribe 0; YSubscribe 0; YFetch 0 (Some 0%nat); YFetch 0 None;
      YCommit [ex_rec 3 "A"]; YAccept 0; YTake; YSend (TAll 0); YWork 0 true]
    ++ [FRecv; FRecv; FLost; FConnect 1] ++ fs [YFetch 1 None; YFetch 1 None; YDeliver 1 true; YSubscribe 1; YSubscribe 1; YFetch 1 None; YFetch 1 None]
    ++ [FRecv]).
  eexists. eexists. exists 1%nat. eexists. exists (ex_rec 2 "A").
  split; [vm_compute; reflexivity|].
  split. { intros i H. repeat (destruct H as [H|H]; [try discriminate H; injection H as <-; exists 10%nat; reflexivity|]). destruct H. }
  split. { intros t H. repeat (destruct H as [H|H]; [discriminate H|]). destruct H. }
  split; [vm_compute; reflexivity|]. split; [vm_compute; reflexivity|]. split; [reflexivity|]. split; [repeat split|].
  split; [right; now left|]. cbn. intros [H|[H|[H|[]]]]; discriminate H.
Qed.
Print Assumptions C89_failing_read_refuted.
