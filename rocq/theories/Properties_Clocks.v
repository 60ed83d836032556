(** Property theorems about the times and IDs of records (C109). *)
From Coq Require Import Sorting.Sorted Arith.
From Verif Require Import Base LogSpec StoreSpec ToyCodec InMemory LevelDB LevelDBSpec Properties_LevelDB Clocks ClocksSpec ClocksProofs.

(** What the callers of the in-memory store, of a LevelDB store, got: records saved and
    read.  [h]: calls, some of them cut short by a crash. *)
Definition mem_shows (c : codec) (ops : list op) (r : record) : Prop :=
  exists x, In x (snd (run (mem_step c) mem_init ops)) /\ In r (shown x).
Definition ldb_shows (c : codec) (h : list (op * option nat)) (r : record) : Prop :=
  exists x, In (Some x) (snd (lives c ldb_init h)) /\ In r (shown x).

(** C109, times: if the clock never goes back, neither do the timestamps along the global
    sequence numbers, in whichever answers the records were seen; for every history, with
    failing, cancelled and mixed batches and deletions. *)
Theorem C109_times_in_memory : forall c ops r r', codec_ok c -> clock_never_back ops ->
  mem_shows c ops r -> mem_shows c ops r' -> r_gsn r < r_gsn r' -> r_ts r <= r_ts r'.
Proof.
  intros c ops r r' Hc Hk (x & Hx & Hr) (y & Hy & Hr'). destruct (mem_book c Hc ops) as (B & H1 & H2 & H3).
  apply (book_times B (passed ops)); eauto.
Qed.
Print Assumptions C109_times_in_memory.
Theorem C109_times_leveldb_partial : forall c h r r', codec_ok c -> Forall clean_call (map fst h) -> events_in (map fst h) < two64 ->
  clock_never_back (map fst h) ->
  ldb_shows c h r -> ldb_shows c h r' -> r_gsn r < r_gsn r' -> r_ts r <= r_ts r'.
Proof.
  intros c h r r' Hc Hcl Hsm Hk (x & Hx & Hr) (y & Hy & Hr'). destruct (ldb_book c Hc h Hcl Hsm) as (B & H1 & H2 & H3).
  apply (book_times B (passed (map fst h))); eauto.
Qed.
Print Assumptions C109_times_leveldb_partial.

(** C109, IDs: if the generator gives no ID twice, an event ID names one record for good:
    whoever sees it again, whenever and in whichever read, sees the same record. *)
Theorem C109_ids_in_memory : forall c ops r r', codec_ok c -> fresh_ids ops ->
  mem_shows c ops r -> mem_shows c ops r' -> r_eid r = r_eid r' -> r = r'.
Proof.
  intros c ops r r' Hc Hk (x & Hx & Hr) (y & Hy & Hr'). destruct (mem_book c Hc ops) as (B & H1 & H2 & H3).
  apply (book_ids B (passed ops)); eauto.
Qed.
Print Assumptions C109_ids_in_memory.
Theorem C109_ids_leveldb_partial : forall c h r r', codec_ok c -> Forall clean_call (map fst h) -> events_in (map fst h) < two64 ->
  fresh_ids (map fst h) ->
  ldb_shows c h r -> ldb_shows c h r' -> r_eid r = r_eid r' -> r = r'.
Proof.
  intros c h r r' Hc Hcl Hsm Hk (x & Hx & Hr) (y & Hy & Hr'). destruct (ldb_book c Hc h Hcl Hsm) as (B & H1 & H2 & H3).
  apply (book_ids B (passed (map fst h))); eauto.
Qed.
Print Assumptions C109_ids_leveldb_partial.

(** C109, numbers: the same of global sequence numbers, whatever clock and generator do. *)
Theorem C109_numbers_in_memory : forall c ops r r', codec_ok c ->
  mem_shows c ops r -> mem_shows c ops r' -> r_gsn r = r_gsn r' -> r = r'.
Proof.
  intros c ops r r' Hc (x & Hx & Hr) (y & Hy & Hr'). destruct (mem_book c Hc ops) as (B & H1 & H2 & H3).
  apply (rising_same B); eauto.
Qed.
Print Assumptions C109_numbers_in_memory.
Theorem C109_numbers_leveldb_partial : forall c h r r', codec_ok c -> Forall clean_call (map fst h) -> events_in (map fst h) < two64 ->
  ldb_shows c h r -> ldb_shows c h r' -> r_gsn r = r_gsn r' -> r = r'.
Proof.
  intros c h r r' Hc Hcl Hsm (x & Hx & Hr) (y & Hy & Hr'). destruct (ldb_book c Hc h Hcl Hsm) as (B & H1 & H2 & H3).
  apply (rising_same B); eauto.
Qed.
Print Assumptions C109_numbers_leveldb_partial.

(** The clocks: the sequential clock counts 0, 1, 2, ... and never goes back; the seeded
    clock gives its times over and over. *)
Theorem C109_sequential_clock : forall n,
  ticks sequential_now sequential n = map N.of_nat (seq 0 n)
  /\ StronglySorted N.lt (ticks sequential_now sequential n).
Proof.
  assert (H : forall n k, ticks sequential_now (N.of_nat k) n = map N.of_nat (seq k n)).
  { induction n as [|n IH]; intros k; cbn [ticks sequential_now seq map]; [reflexivity|].
    f_equal. replace (N.of_nat k + 1) with (N.of_nat (S k)) by lia. apply IH. }
  assert (G : forall n k, StronglySorted N.lt (map N.of_nat (seq k n))).
  { induction n as [|n IH]; intros k; cbn; constructor; auto. apply Forall_forall. intros y Hy. apply in_map_iff in Hy.
    destruct Hy as (z & <- & Hz). apply in_seq in Hz. lia. }
  intros n. change sequential with (N.of_nat 0). rewrite H. auto.
Qed.
Print Assumptions C109_sequential_clock.
Theorem C109_seeded_clock : forall ts n i, ts <> [] -> (i < n)%nat ->
  nth_error (ticks seeded_now (seeded_new ts) n) i = nth_error ts (i mod length ts).
Proof.
  assert (H : forall ts, ts <> [] -> forall n i k, (k <= length ts)%nat -> (i < n)%nat ->
    nth_error (ticks seeded_now (mk_seeded ts k) n) i = nth_error ts ((k + i) mod length ts)).
  { intros ts Hts. assert (Hl : (length ts <> 0)%nat) by (destruct ts; cbn; congruence).
    induction n as [|n IH]; intros i k Hk Hi; [lia|]. cbn [ticks]. unfold seeded_now. cbn [times index].
    destruct (Nat.leb_spec (length ts) k) as [Hle|Hlt].
    - assert (k = length ts) by lia. subst k. destruct i as [|i].
      + cbn [nth_error]. rewrite Nat.add_0_r, Nat.mod_same by lia. destruct ts; [congruence|reflexivity].
      + cbn [nth_error]. rewrite IH by lia. f_equal.
        replace (length ts + S i)%nat with (1 + i + 1 * length ts)%nat by lia. now rewrite Nat.mod_add by lia.
    - destruct i as [|i].
      + cbn [nth_error]. rewrite Nat.add_0_r, Nat.mod_small by lia. symmetry. now apply nth_error_nth'.
      + cbn [nth_error]. rewrite IH by lia. f_equal. f_equal. lia. }
  intros ts n i Hts Hi. destruct ts as [|t ts]; [congruence|]. unfold seeded_new. rewrite H; auto. lia.
Qed.
Print Assumptions C109_seeded_clock.

(** A clock that goes back shows: with the seeded clock the condition on clocks fails, and
    so does the claim. *)
Definition timed (u : string) (t : N) : event := mk_event "thing" "x" "E" u "" u t.
Theorem C109_seeded_clock_refuted : exists ops r r',
  map ev_now (passed ops) = ticks seeded_now (seeded_new [5; 3]) 2
  /\ mem_shows toy ops r /\ mem_shows toy ops r' /\ r_gsn r < r_gsn r' /\ r_ts r' < r_ts r.
Proof.
  exists [OpSave None "thing!x" [timed "a" 5; timed "b" 3] None],
    (mk_record "thing!x" "thing" "x" 1 1 5 "a" "E" "a" ""), (mk_record "thing!x" "thing" "x" 2 2 3 "b" "E" "b" "").
  split; [reflexivity|]. split; [eexists; split; [vm_compute; left; reflexivity|vm_compute; auto]|].
  split; [eexists; split; [vm_compute; left; reflexivity|vm_compute; auto]|]. split; reflexivity.
Qed.
Print Assumptions C109_seeded_clock_refuted.

(** Six calls on the sequential clock: a mixed batch that fails and leaves its beginning
    behind, a deletion, further saves; on LevelDB one of them is cut short by a crash. *)
Definition timeline : list op :=
  [ OpSave None "thing!x" [timed "a" 0; timed "b" 1] None;
    OpSave None "thing!x" [timed "c" 2; mk_event "other" "y" "E" "d" "" "d" 3] None;
    OpEvents 0;
    OpDelete 3 "thing!x" None;
    OpSave None "thing!x" [timed "e" 4] None;
    OpEvents 0 ].
Example C109_inhabited :
  clock_never_back timeline /\ fresh_ids timeline
  /\ map ev_now (passed timeline) = ticks sequential_now sequential 5
  /\ map (fun x => map (fun r => (r_gsn r, r_ts r)) (shown x)) (snd (run (mem_step toy) mem_init timeline))
     = [[(1, 0); (2, 1)]; []; [(1, 0); (2, 1); (3, 2)]; []; [(4, 4)]; [(4, 4)]]
  /\ Forall clean_call timeline
  /\ map (option_map (fun x => map (fun r => (r_gsn r, r_ts r)) (shown x)))
       (snd (lives toy ldb_init (map (fun o => (o, match o with OpDelete _ _ _ => Some 1%nat | _ => None end)) timeline)))
     = [Some [(1, 0); (2, 1)]; Some []; Some [(1, 0); (2, 1)]; None; Some [(3, 4)]; Some [(1, 0); (2, 1); (3, 4)]].
Proof.
  split; [repeat constructor; vm_compute; discriminate|].
  split; [repeat constructor; cbn; intuition discriminate|].
  split; [reflexivity|]. split; [vm_compute; reflexivity|]. split; [|vm_compute; reflexivity].
  assert (A : clean "thing!x") by (apply (clean_by_check _ 7); vm_compute; auto).
  assert (B : clean "thing") by (apply (clean_by_check _ 5); vm_compute; auto).
  assert (E : clean "other") by (apply (clean_by_check _ 5); vm_compute; auto).
  repeat apply Forall_cons; try apply Forall_nil; cbn; repeat split; auto;
    try (repeat apply Forall_cons; auto; fail); try discriminate.
Qed.
