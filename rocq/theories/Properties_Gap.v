(** Property theorems about what a subscriber has been handed at any moment (C84). *)
From Coq Require Import PeanoNat.
From Verif Require Import Base LogSpec Core CoreSpec CoreProofs LogProofs Properties_Core Broadcaster BroadcasterSpec
  BroadcasterProofs Subscription SubscriptionSpec SubscriptionProofs SubscriptionCover SubscriptionRun
  Properties_Subscription SubscriptionGap.

(** * C84 *)

(** In every schedule, at every moment — catching up, live, dropped by the broadcaster
    for being slow, stopped, refused by its consumer, or after a shutdown — the records
    that a subscriber to all events or to one aggregate type has been handed have no
    gap: if a later matching record was handed over, so was every earlier one that is
    in the store.  [g] is the number it was started from, [y1] the moment it was.
    Hypotheses: its own reads do not fail; saves do not overlap (always so for LevelDB)
    or hand over in the order of their commits; uint64 numbers are not exhausted. *)
Theorem C84_never_a_gap : forall m subs ls1 ls2 i q cap g y1 y u,
  yrun m (sys_init subs) ls1 = Some y1 ->
  yrun m (sys_init subs) (ls1 ++ YStartFrom i g :: ls2) = Some y ->
  m_locked m = true \/ in_turn (ls1 ++ YStartFrom i g :: ls2) ->
  (forall k, ~ In (YFetch i (Some k)) ls2) ->
  nth_error subs i = Some ([q], cap) -> g < max64 -> l_last (y_log y) < max64 ->
  nth_error (y_subs y) i = Some u ->
  forall r r', In r' (u_got u) -> In r (l_recs (y_log y)) -> asked [q] r ->
    g < r_gsn r \/ In r (l_recs (y_log y1)) /\ r_gsn r = g ->
    r_gsn r <= r_gsn r' -> In r (u_got u).
Proof.
  intros m subs ls1 ls2 i q cap g y1 y u R1 R O RF Hs GM LM Hi r r' Hr' Hr A W Le.
  apply (run_gapless m subs ls1 ls2 i q cap g y1 y u) with (r' := r'); auto.
  destruct A as [[->|[]]|[->|[]]]; cbn; auto; apply String.eqb_refl.
Qed.
Print Assumptions C84_never_a_gap.

(** Two types before the start, catch-up, then three saves; the third one finds the
    buffer (of one) full, and the subscriber is dropped; it still handles what it has. *)
Definition one_sub : list query * nat := ([None], 1%nat).
Definition ex_slow_before : list label := [YCommit [ex_rec 1 "A"; ex_rec 2 "B"]; YAccept 0; YAccept 0; YTake; YTake].
Definition ex_slow_after : list label :=
  [YFetch 0 None; YFetch 0 None; YDeliver 0 true; YSubscribe 0; YSubscribe 0; YFetch 0 None; YFetch 0 None;
   YCommit [ex_rec 3 "A"; ex_rec 4 "B"; ex_rec 5 "A"]; YAccept 0; YAccept 0; YAccept 0; YTake; YSend (TAll 0); YTake;
   YTimeout (TAll 0); YTake; YWork 0 true].
Example C84_witness : exists y1 y u,
  yrun leveldb_mode (sys_init [one_sub]) ex_slow_before = Some y1
  /\ yrun leveldb_mode (sys_init [one_sub]) (ex_slow_before ++ YStartFrom 0 2 :: ex_slow_after) = Some y
  /\ (forall k, ~ In (YFetch 0 (Some k)) ex_slow_after)
  /\ nth_error (y_subs y) 0 = Some u /\ record_numbers (u_got u) = [2; 3] /\ record_numbers (l_recs (y_log y)) = [1; 2; 3; 4; 5]
  /\ u_stop u = true.
Proof.
  eexists. eexists. eexists. split; [vm_compute; reflexivity|]. split; [vm_compute; reflexivity|]. split.
  { intros k Hk. repeat (destruct Hk as [Hk|Hk]; [discriminate Hk|]). destruct Hk. }
  split; [vm_compute; reflexivity|]. split; [reflexivity|]. split; reflexivity.
Qed.

(** The same for a subscription started with Start (or StartFrom) from when it is
    live on, whatever happens to it afterwards. *)
Theorem C84_never_a_gap_once_live : forall m subs ls1 ls2 i q cap y1 u1 y u,
  yrun m (sys_init subs) ls1 = Some y1 ->
  yrun m y1 ls2 = Some y ->
  m_locked m = true \/ in_turn (ls1 ++ ls2) -> undisturbed i ls1 ->
  nth_error subs i = Some ([q], cap) -> (forall g, In (YStartFrom i g) ls1 -> g < max64) -> l_last (y_log y) < max64 ->
  nth_error (y_subs y1) i = Some u1 -> u_phase u1 = PLive ->
  nth_error (y_subs y) i = Some u ->
  forall r r', In r' (u_got u) -> In r (l_recs (y_log y)) -> asked [q] r ->
    l_last (y_log y1) < r_gsn r -> u_last u1 < r_gsn r -> r_gsn r <= r_gsn r' -> In r (u_got u).
Proof.
  intros m subs ls1 ls2 i q cap y1 u1 y u R1 R O UD Hs GS LM Hi1 P1 Hi r r' Hr' Hr A W1 W2 Le.
  apply (run_gapless_live m subs ls1 ls2 i q cap y1 u1 y u) with (r' := r'); auto.
  destruct A as [[->|[]]|[->|[]]]; cbn; auto; apply String.eqb_refl.
Qed.
Print Assumptions C84_never_a_gap_once_live.

Definition ex_live_start : list label := [YCommit [ex_rec 1 "A"]; YAccept 0; YTake; YStart 0; YSubscribe 0; YSubscribe 0].
Definition ex_live_slow : list label :=
  [YCommit [ex_rec 2 "A"; ex_rec 3 "B"; ex_rec 4 "A"]; YAccept 0; YAccept 0; YAccept 0; YTake; YSend (TAll 0); YWork 0 true;
   YTake; YSend (TAll 0); YTake; YTimeout (TAll 0); YWork 0 true].
Example C84_witness_live : exists y1 u1 y u,
  yrun leveldb_mode (sys_init [one_sub]) ex_live_start = Some y1
  /\ nth_error (y_subs y1) 0 = Some u1 /\ u_phase u1 = PLive /\ undisturbed 0 ex_live_start
  /\ yrun leveldb_mode y1 ex_live_slow = Some y
  /\ nth_error (y_subs y) 0 = Some u /\ record_numbers (u_got u) = [2; 3] /\ u_stop u = true.
Proof.
  eexists. eexists. eexists. eexists. split; [vm_compute; reflexivity|]. split; [vm_compute; reflexivity|].
  split; [reflexivity|]. split. { intros l Hl. repeat (destruct Hl as [<-|Hl]; [exact I|]). destruct Hl. }
  split; [vm_compute; reflexivity|]. split; [vm_compute; reflexivity|]. split; reflexivity.
Qed.

(** Not so for several types: too slow for a record of one type, a subscriber is taken
    off the list of that type only, and is handed later records of the other. *)
Theorem C84_several_types_refuted : exists ls y u r r',
  yrun leveldb_mode (sys_init [([Some "A"; Some "B"], 1%nat)]) (YStartFrom 0 0 :: ls) = Some y
  /\ nth_error (y_subs y) 0 = Some u
  /\ (forall k, ~ In (YFetch 0 (Some k)) ls)
  /\ In r' (u_got u) /\ In r (l_recs (y_log y)) /\ asked [Some "A"; Some "B"] r
  /\ r_gsn r <= r_gsn r' /\ ~ In r (u_got u).
Proof.
  exists [YFetch 0 None; YFetch 0 None; YFetch 0 None; YSubscribe 0; YSubscribe 0; YSubscribe 0; YFetch 0 None; YFetch 0 None;
    YFetch 0 None; YCommit [ex_rec 1 "A"; ex_rec 2 "A"; ex_rec 3 "B"]; YAccept 0; YAccept 0; YAccept 0; YTake; YSend (TType 0);
    YTake; YTimeout (TType 0); YWork 0 true; YTake; YSend (TType 0); YWork 0 true].
  eexists. eexists. exists (ex_rec 2 "A"), (ex_rec 3 "B").
  split; [vm_compute; reflexivity|]. split; [vm_compute; reflexivity|]. split.
  { intros k Hk. repeat (destruct Hk as [Hk|Hk]; [discriminate Hk|]). destruct Hk. }
  split; [right; now left|]. split; [right; now left|]. split; [right; now left|]. split; [vm_compute; discriminate|].
  cbn. intros [H|[H|[]]]; discriminate H.
Qed.
Print Assumptions C84_several_types_refuted.
