(** Property theorems about the PostgreSQL store (C28-C32, C59-C63). *)
From Coq Require Import Sorted PeanoNat.
From Verif Require Import Base LogSpec StoreSpec Locks LocksSpec LocksProofs DecText
  Postgres PostgresSpec PostgresProofs PostgresStream PostgresAck PostgresMore PostgresSeq PostgresFacts PostgresInsert.

(** A JSON library for the examples: texts are themselves, nil metadata is "null". *)
Definition toy_json : jlib :=
  mk_jlib (fun e => Some (ev_data e)) (fun e => Some (if String.eqb (ev_meta e) "" then "null" else ev_meta e)) (fun _ d => Some d).
Lemma toy_json_ok : json_ok toy_json.
Proof. intros e d E. injection E as <-. reflexivity. Qed.
Definition pev (d : string) : event := mk_event "t" "i" "e" d "" "u" 7.
Definition pevm (d m : string) : event := mk_event "t" "i" "e" d m "u" 7.
Definition steps (i : nat) (n : nat) : list plabel := repeat (GStep i) n.
Definition save (ex : option N) (s : string) (l : list string) : op := OpSave ex s (map pev l) None.
Definition the_run (ls : list plabel) : pgconf :=
  match grun toy_json fnv32a 10 pg_start ls with Some k => k | None => pg_start end.

(** * C28 *)

(** However saves of any number of writers interleave, whatever statements fail and
    whenever the server restarts: the committed records of a stream nobody deletes are
    numbered 1..n, in the order of their global numbers. *)
Theorem C28_concurrent_saves_numbered : forall j key limit s ls k,
  grun j key limit pg_start ls = Some k -> never_deleted s (g_hist k) ->
  map r_ssn (rows_of s (g_rows k)) = numbers_from 1 (length (rows_of s (g_rows k)))
  /\ StronglySorted gsn_lt (rows_of s (g_rows k)).
Proof.
  intros j key limit s ls k E Hd. pose proof (kept_run j key limit s ls _ _ (kept_start j key s) E Hd) as [_ _ HS _]. split; apply HS.
Qed.
Print Assumptions C28_concurrent_saves_numbered.

(** Of several optimistic saves expecting the same number at most one succeeds. *)
Theorem C28_one_winner : forall j key limit s ls k x i1 evs1 cn1 n1 bc1 i2 evs2 cn2 n2 bc2,
  grun j key limit pg_start ls = Some k -> never_deleted s (g_hist k) ->
  In (Inv i1 (OpSave (Some x) s evs1 cn1)) (g_hist k) -> In (Ret i1 (OutSaved n1 bc1)) (g_hist k) ->
  In (Inv i2 (OpSave (Some x) s evs2 cn2)) (g_hist k) -> In (Ret i2 (OutSaved n2 bc2)) (g_hist k) -> i1 = i2.
Proof.
  intros. eapply winners; eauto. eapply kept_run; eauto. apply kept_start.
Qed.
Print Assumptions C28_one_winner.

(** An acknowledged save stands in the stream as one piece, directly behind the
    records it expected, and was announced to subscribers as its events. *)
Theorem C28_acknowledged_saves_stand : forall j key limit s ls k i ex evs cn n bc,
  json_ok j -> grun j key limit pg_start ls = Some k -> never_deleted s (g_hist k) ->
  In (Inv i (OpSave ex s evs cn)) (g_hist k) -> In (Ret i (OutSaved n bc)) (g_hist k) ->
  exists pre block post, rows_of s (g_rows k) = pre ++ block ++ post
    /\ (forall x, ex = Some x -> x = N.of_nat (length pre)) /\ n = N.of_nat (length pre) + N.of_nat (length evs)
    /\ Forall2 (row_for j s) evs block
    /\ Forall2 (record_for s) evs bc /\ map r_gsn bc = map r_gsn block /\ map r_ssn bc = map r_ssn block.
Proof.
  intros j key limit s ls k i ex evs cn n bc Hj E Hd HI HR.
  destruct (acknowledged j key s k i ex evs cn n bc) as (pre & bl & post & H1 & H2 & H3 & H4 & H5); auto.
  { eapply kept_run; eauto. apply kept_start. }
  exists pre, bl, post. repeat (split; [assumption|]). split; [eapply decoded_events; eauto|].
  clear -H5. induction H5 as [|r x l l' Hd H IH]; cbn; auto. apply decode_gsn in Hd as (-> & -> & _). destruct IH as [-> ->]. auto.
Qed.
Print Assumptions C28_acknowledged_saves_stand.

(** Deletes may happen too, as long as none is past its check together with another
    delete or save of the stream. *)
Theorem C28_numbered_with_exclusive_deletes_partial : forall j key limit s ls k,
  grun j key limit pg_start ls = Some k -> always j key limit (apart s) pg_start ls ->
  map r_ssn (rows_of s (g_rows k)) = numbers_from 1 (length (rows_of s (g_rows k)))
  /\ StronglySorted gsn_lt (rows_of s (g_rows k)).
Proof.
  intros j key limit s ls k E HA. pose proof (kept0_run j key limit s ls _ _ (kept0_start j key s) HA E) as [_ HS _]. split; apply HS.
Qed.
Print Assumptions C28_numbered_with_exclusive_deletes_partial.

(** Two writers racing for position 1, and a third behind them. *)
Definition race : list plabel :=
  [GInvoke (save (Some 0) "s" ["a"; "b"]); GInvoke (save (Some 0) "s" ["c"]); GInvoke (save None "s" ["d"]); GInvoke (save None "other" ["e"])]
  ++ steps 0 1 ++ steps 1 1 ++ steps 2 1 ++ steps 3 1 ++ steps 0 2 ++ steps 3 3 ++ steps 0 3 ++ steps 1 2 ++ steps 2 5 ++ steps 3 2 ++ steps 0 1.
Example C28_race : grun toy_json fnv32a 10 pg_start race <> None /\ never_deleted "s" (g_hist (the_run race))
  /\ map (fun r => (r_ssn r, r_gsn r, r_data r)) (rows_of "s" (g_rows (the_run race))) = [(1, 2, "a"); (2, 3, "b"); (3, 4, "d")]
  /\ In (Ret 1 (OutFailed (EUnexpectedSeq 0 2))) (g_hist (the_run race)).
Proof.
  split; [vm_compute; discriminate|]. split; [|split; [vm_compute; reflexivity|vm_compute; tauto]].
  intros ex cn H. vm_compute in H. intuition discriminate.
Qed.

(** With a delete in between the numbering breaks: a save that has read the greatest
    number 2 commits its third record although a delete has just taken the first two,
    both are acknowledged, and the stream is left with record 3 alone. *)
Definition holed : list plabel :=
  [GInvoke (save None "s" ["a"; "b"])] ++ steps 0 7
  ++ [GInvoke (save (Some 2) "s" ["c"])] ++ steps 1 3
  ++ [GInvoke (OpDelete 2 "s" None)] ++ steps 2 3
  ++ steps 1 3 ++ steps 2 3.
Theorem C28_numbering_with_delete_refuted : exists ls k bc,
  grun toy_json fnv32a 10 pg_start ls = Some k
  /\ In (Inv 1 (save (Some 2) "s" ["c"])) (g_hist k) /\ In (Ret 1 (OutSaved 3 bc)) (g_hist k)
  /\ In (Inv 2 (OpDelete 2 "s" None)) (g_hist k) /\ In (Ret 2 OutDeleted) (g_hist k)
  /\ map r_ssn (rows_of "s" (g_rows k)) = [3].
Proof.
  exists holed, (the_run holed). eexists. split; [vm_compute; reflexivity|].
  split; [vm_compute; tauto|]. split; [vm_compute; do 4 right; left; reflexivity|]. split; [vm_compute; tauto|]. split; [vm_compute; tauto|vm_compute; reflexivity].
Qed.
Print Assumptions C28_numbering_with_delete_refuted.

(** A run with a delete that is kept apart from the saves. *)
Definition tidy : list plabel :=
  [GInvoke (save None "s" ["a"; "b"])] ++ steps 0 7
  ++ [GInvoke (OpDelete 2 "s" None)] ++ steps 1 6
  ++ [GInvoke (save (Some 0) "s" ["c"])] ++ steps 2 6.
Example C28_tidy : grun toy_json fnv32a 10 pg_start tidy <> None /\ always toy_json fnv32a 10 (apart "s") pg_start tidy
  /\ In (Ret 1 OutDeleted) (g_hist (the_run tidy))
  /\ map (fun r => (r_ssn r, r_gsn r)) (rows_of "s" (g_rows (the_run tidy))) = [(1, 3)].
Proof.
  split; [vm_compute; discriminate|]. split; [apply (alwaysb_ok _ _ _ _ (apartb "s") _ (apartb_ok "s")); vm_compute; reflexivity|].
  split; [vm_compute; tauto|vm_compute; reflexivity].
Qed.

(** * C29 *)

(** A delete expecting two events removes a third one, whose save was acknowledged
    in between. *)
Definition lost : list plabel :=
  [GInvoke (save None "s" ["a"; "b"])] ++ steps 0 7
  ++ [GInvoke (OpDelete 2 "s" None)] ++ steps 1 2
  ++ [GInvoke (save (Some 2) "s" ["c"])] ++ steps 2 6
  ++ steps 1 5.
Theorem C29_delete_loses_acknowledged_save_refuted : exists ls k bc,
  grun toy_json fnv32a 10 pg_start ls = Some k
  /\ In (Inv 1 (OpDelete 2 "s" None)) (g_hist k) /\ In (Inv 2 (save (Some 2) "s" ["c"])) (g_hist k)
  /\ before (Ret 2 (OutSaved 3 bc)) (Ret 1 OutDeleted) (g_hist k)
  /\ rows_of "s" (g_rows k) = [].
Proof.
  exists lost, (the_run lost). eexists. split; [vm_compute; reflexivity|].
  split; [vm_compute; tauto|]. split; [vm_compute; tauto|]. split; [|vm_compute; reflexivity].
  exists (firstn 4 (g_hist (the_run lost))), [], []. vm_compute. reflexivity.
Qed.
Print Assumptions C29_delete_loses_acknowledged_save_refuted.

(** Two deletes expecting the same two events both succeed. *)
Definition twice : list plabel :=
  [GInvoke (save None "s" ["a"; "b"])] ++ steps 0 7
  ++ [GInvoke (OpDelete 2 "s" None); GInvoke (OpDelete 2 "s" None)] ++ steps 1 2 ++ steps 2 2
  ++ steps 1 4 ++ steps 2 2.
Theorem C29_both_deletes_succeed_refuted : exists ls k,
  grun toy_json fnv32a 10 pg_start ls = Some k
  /\ In (Inv 1 (OpDelete 2 "s" None)) (g_hist k) /\ In (Inv 2 (OpDelete 2 "s" None)) (g_hist k)
  /\ In (Ret 1 OutDeleted) (g_hist k) /\ In (Ret 2 OutDeleted) (g_hist k).
Proof.
  exists twice, (the_run twice). split; [vm_compute; reflexivity|].
  assert (E : exists l, g_hist (the_run twice)
              = [Inv 0 (save None "s" ["a"; "b"]); Ret 0 (OutSaved 2 l); Inv 1 (OpDelete 2 "s" None);
                 Inv 2 (OpDelete 2 "s" None); Ret 1 OutDeleted; Ret 2 OutDeleted]) by (eexists; vm_compute; reflexivity).
  destruct E as (l & ->). split; [do 2 right; left; reflexivity|]. split; [do 3 right; left; reflexivity|].
  split; [do 4 right; left; reflexivity|do 5 right; left; reflexivity].
Qed.
Print Assumptions C29_both_deletes_succeed_refuted.

(** If no delete of the stream is past its check together with another delete or save
    of it: the delete that is acknowledged found exactly the number of records it
    expected, removed all of them and nothing else. *)
Theorem C29_exclusive_delete_removes_exactly_partial : forall j key limit s ls k lb k' i ex cn,
  grun j key limit pg_start ls = Some k -> always j key limit (apart s) pg_start ls ->
  gstep j key limit k lb = Some k' -> In (Inv i (OpDelete ex s cn)) (g_hist k) ->
  ~ In (Ret i OutDeleted) (g_hist k) -> In (Ret i OutDeleted) (g_hist k') ->
  N.of_nat (length (rows_of s (g_rows k))) = ex
  /\ rows_of s (g_rows k') = []
  /\ (forall s', s' <> s -> rows_of s' (g_rows k') = rows_of s' (g_rows k)).
Proof.
  intros j key limit s ls k lb k' i ex cn E HA Es HI HN HR.
  pose proof (kept0_run j key limit s ls _ _ (kept0_start j key s) HA E) as K.
  destruct (deleted_exactly j key s k lb k' i ex cn K (step_cases _ _ _ _ _ _ Es) HI HR HN) as [H1 ->]. split; auto.
  unfold rows_of. split; [|intros s' Hs]; rewrite filter_comm; [apply filter_false|apply filter_true]; intros r Hr; apply filter_In in Hr as [_ Hr]; apply String.eqb_eq in Hr;
    rewrite Hr; [now rewrite String.eqb_refl|]. destruct (String.eqb_spec s' s); [contradiction|reflexivity].
Qed.
Print Assumptions C29_exclusive_delete_removes_exactly_partial.

Example C29_exclusive : let k := the_run (firstn 14 tidy) in grun toy_json fnv32a 10 pg_start (firstn 14 tidy) <> None
  /\ always toy_json fnv32a 10 (apart "s") pg_start (firstn 14 tidy) /\ ~ In (Ret 1 OutDeleted) (g_hist k)
  /\ match gstep toy_json fnv32a 10 k (GStep 1) with Some k' => In (Ret 1 OutDeleted) (g_hist k') | None => False end.
Proof.
  split; [vm_compute; discriminate|]. split; [apply (alwaysb_ok _ _ _ _ (apartb "s") _ (apartb_ok "s")); vm_compute; reflexivity|].
  split; [vm_compute; intuition discriminate|vm_compute; tauto].
Qed.

(** In every run whatsoever a committed record disappears only by a delete of its own
    stream that is answered at that moment: with success, or with a database error
    because the confirmation of the commit got lost. *)
Theorem C29_records_vanish_only_by_delete : forall j key limit ls k lb k' r,
  grun j key limit pg_start ls = Some k -> gstep j key limit k lb = Some k' ->
  In r (g_rows k) -> ~ In r (g_rows k') ->
  exists i ex cn, In (Inv i (OpDelete ex (r_stream r) cn)) (g_hist k)
    /\ (In (Ret i OutDeleted) (g_hist k') \/ In (Ret i (OutFailed EDatabase)) (g_hist k')).
Proof.
  intros j key limit ls k lb k' r E Es H1 H2. eapply row_gone; eauto; [| |eapply step_cases; eauto].
  - apply (gd_h _ _ _ (good_run j key limit ls _ _ (good_start j key) E)).
  - eapply (run_inv j key limit Told); eauto; [|apply told_start]. intros. eapply told_step; eauto.
Qed.
Print Assumptions C29_records_vanish_only_by_delete.

(** * C30 *)

(** A reader sees number 2 and goes on from 3; number 1 commits afterwards and is
    never seen: no read from 3 on will ever contain it, whatever happens. *)
Definition overtaken : list plabel :=
  [GInvoke (save None "a" ["x"]); GInvoke (save None "b" ["y"])] ++ steps 0 4 ++ steps 1 6.
Theorem C30_resumed_reader_misses_refuted : exists ls k, grun toy_json fnv32a 10 pg_start ls = Some k
  /\ (exists y, select toy_json (OpEvents 0) (g_rows k) = OutResults [RRec y] /\ r_gsn y = 2)
  /\ exists ls' k' x, grun toy_json fnv32a 10 k ls' = Some k' /\ In (Ret 0 (OutSaved 1 [x])) (g_hist k')
     /\ forall ls'' k'' l, grun toy_json fnv32a 10 k' ls'' = Some k'' ->
        select toy_json (OpEvents 3) (g_rows k'') = OutResults l -> ~ In (RRec x) l.
Proof.
  exists overtaken, (the_run overtaken). split; [vm_compute; reflexivity|]. split; [eexists; vm_compute; split; reflexivity|].
  exists (steps 0 2), (the_run (overtaken ++ steps 0 2)), (mk_record "a" "t" "i" 1 1 7 "u" "e" "x" "").
  split; [vm_compute; reflexivity|]. split; [vm_compute; tauto|]. intros ls'' k'' l _ E Hin. cbn [select] in E. injection E as <-.
  set (rows := filter (fun r => 3 <=? r_gsn r) (g_rows k'')) in *.
  assert (H : forall rs, (forall r, In r rs -> 3 <= r_gsn r) -> ~ In (RRec (mk_record "a" "t" "i" 1 1 7 "u" "e" "x" "")) (read_rows toy_json rs)).
  { induction rs as [|r rs IH]; cbn [read_rows]; intros H; [tauto|]. destruct (decode_row toy_json r) as [z|] eqn:Ez.
    - intros [Hz|Hz]; [|apply IH in Hz; auto; intros; apply H; now right]. injection Hz as ->. apply decode_gsn in Ez as (Ez & _). cbn in Ez. specialize (H r (or_introl eq_refl)). lia.
    - intros [Hz|[]]. discriminate. }
  revert Hin. apply H. intros r Hr. apply (Permutation.Permutation_in _ (order_perm rows)) in Hr. apply filter_In in Hr as [_ Hr]. now apply N.leb_le.
Qed.
Print Assumptions C30_resumed_reader_misses_refuted.

(** If at every moment at most one save has numbered rows that are not committed, then
    nothing ever appears behind a number that has been seen. *)
Theorem C30_nothing_appears_behind_partial : forall j key limit ls k ls' k' r r0,
  grun j key limit pg_start ls = Some k -> always j key limit one_inserter pg_start ls ->
  grun j key limit k ls' = Some k' -> always j key limit one_inserter k ls' ->
  In r0 (g_rows k) -> In r (g_rows k') -> r_gsn r <= r_gsn r0 -> In r (g_rows k).
Proof.
  intros j key limit ls k ls' k' r r0 E HA E' HA' H0 Hr Hle.
  pose proof (ordered_run j key limit ls _ _ (ordered_start j key) HA E) as HO.
  eapply (behind_nothing j key limit ls' k k' (r_gsn r0)); eauto.
  - intros p Hp. eapply or_pending; eauto.
  - destruct (or_good _ _ _ HO) as [[_ [_ Hb] _] _]. rewrite Forall_forall in Hb. apply Hb. apply in_app_iff. auto.
Qed.
Print Assumptions C30_nothing_appears_behind_partial.

(** ... so, if moreover nothing is deleted, a reader that has seen everything up to
    number [g] and reads on from [g + 1] gets exactly what was committed since, in
    the order of the commits. *)
Theorem C30_resumed_reader_sees_all_partial : forall j key limit ls k ls' k' g,
  grun j key limit pg_start ls = Some k -> always j key limit one_inserter pg_start ls ->
  grun j key limit k ls' = Some k' -> always j key limit one_inserter k ls' ->
  (forall s, never_deleted s (g_hist k')) ->
  (forall r, In r (g_rows k) -> r_gsn r <= g) -> (exists r, In r (g_rows k) /\ r_gsn r = g) ->
  exists new, g_rows k' = g_rows k ++ new
    /\ select j (OpEvents (g + 1)) (g_rows k') = OutResults (read_rows j new).
Proof.
  intros j key limit ls k ls' k' g E HA E' HA' Hd Hle (r0 & Hr0 & Eg).
  pose proof (ordered_run j key limit ls _ _ (ordered_start j key) HA E) as HO.
  assert (HO' : Ordered j key k') by (eapply ordered_run; eauto).
  destruct (rows_grow j key limit ls' k k') as (new & En); auto.
  { destruct (or_good _ _ _ HO) as [[H _ _] _]. exact H. }
  { eapply (run_inv j key limit Told); eauto; [|apply told_start]. intros. eapply told_step; eauto. }
  exists new. split; auto. cbn [select]. do 2 f_equal. pose proof (or_rows _ _ _ HO') as Hs. rewrite En in *.
  rewrite filter_app, filter_false, filter_true; cbn [app].
  - apply order_id. clear -Hs. induction (g_rows k) as [|a l IH]; auto. apply IH. now inversion Hs.
  - intros r Hr. apply N.leb_le. assert (r_gsn r0 < r_gsn r); [|lia]. clear -Hs Hr0 Hr. induction (g_rows k) as [|a l IH]; [destruct Hr0|].
    inversion Hs; subst. destruct Hr0 as [->|Hr0]; [|auto]. rewrite Forall_forall in H2. apply (H2 r). apply in_app_iff. auto.
  - intros r Hr. apply N.leb_gt. specialize (Hle r Hr). lia.
Qed.
Print Assumptions C30_resumed_reader_sees_all_partial.

Definition in_turn : list plabel :=
  [GInvoke (save None "a" ["x"]); GInvoke (save None "b" ["y"; "z"])] ++ steps 1 3 ++ steps 0 6 ++ steps 1 4.
Example C30_in_turn : grun toy_json fnv32a 10 pg_start in_turn <> None /\ always toy_json fnv32a 10 one_inserter pg_start in_turn
  /\ map r_data (g_rows (the_run (firstn 11 in_turn))) = ["x"] /\ map r_data (g_rows (the_run in_turn)) = ["x"; "y"; "z"].
Proof.
  split; [vm_compute; discriminate|]. split; [apply (alwaysb_ok _ _ _ _ oneb _ oneb_ok); vm_compute; reflexivity|]. split; vm_compute; reflexivity.
Qed.

(** * C31 *)

(** In the statement made for any batch there are as many placeholder groups as
    records, and the [c]-th placeholder of the [k]-th group stands for the field of
    the [k]-th record named by the [c]-th column. *)
Theorem C31_insert_binds_each_field : forall rows,
  map (map (argument (value_args rows))) (groups (values_text rows)) = map (fun r => map (fun column => field column r) columns) rows.
Proof. exact insert_binds. Qed.
Print Assumptions C31_insert_binds_each_field.

Example C31_two : groups (values_text [mk_record "s" "t" "i" 0 1 7 "u" "e" "d" "m"; mk_record "s" "t" "i" 0 2 7 "u" "e" "d" "m"])
  = [[1; 2; 3; 4; 5; 6; 7; 8; 9]; [10; 11; 12; 13; 14; 15; 16; 17; 18]]
  /\ values_text [mk_record "s" "t" "i" 0 1 7 "u" "e" "d" "m"; mk_record "s" "t" "i" 0 2 7 "u" "e" "d" "m"]
  = "($1, $2, $3, $4, $5, $6, $7, $8, $9),($10, $11, $12, $13, $14, $15, $16, $17, $18)".
Proof. split; vm_compute; reflexivity. Qed.

(** * C32 *)

(** No save carrying metadata is ever acknowledged, in any run: all events of an
    acknowledged save have the metadata text "null". *)
Theorem C32_metadata_never_acknowledged_refuted : forall j key limit ls k i ex s evs cn n bc e,
  grun j key limit pg_start ls = Some k ->
  In (Inv i (OpSave ex s evs cn)) (g_hist k) -> In (Ret i (OutSaved n bc)) (g_hist k) ->
  In e evs -> j_meta j e = Some "null".
Proof.
  intros j key limit ls k i ex s evs cn n bc e E HI HR He.
  assert (HA : Acked j k) by (eapply (run_inv j key limit (Acked j)); eauto; [|apply acked_start]; intros; eapply acked_step; eauto).
  destruct (ak_ret _ _ HA _ _ _ HR) as (ex' & s' & evs' & cn' & mine & HI' & F & Hno).
  destruct (t_inv _ (ak_told _ _ HA) _ _ HI) as (p & Hp). destruct (t_inv _ (ak_told _ _ HA) _ _ HI') as (p' & Hp'). rewrite Hp in Hp'. injection Hp' as <- <- <- <- _.
  apply notify_true in Hno. clear -F Hno He. revert bc Hno. induction F as [|e0 r evs mine Hr F IH]; intros bc Hno; [destruct He|]. inversion Hno; subst.
  destruct He as [->|He]; [|eapply IH; eauto]. destruct Hr as (_ & _ & _ & _ & _ & _ & _ & Hm). rewrite Hm. f_equal.
  unfold decode_row in H1. destruct (j_decode _ _ _); [|discriminate]. destruct (String.eqb_spec (r_meta r) "null"); [auto|discriminate].
Qed.
Print Assumptions C32_metadata_never_acknowledged_refuted.

(** ... although the events are stored: here the save is answered with an error and
    its record is committed. *)
Definition with_meta : list plabel := [GInvoke (OpSave None "s" [pevm "a" "m"] None)] ++ steps 0 6.
Theorem C32_metadata_save_refused_but_stored_refuted : exists ls k, grun toy_json fnv32a 10 pg_start ls = Some k
  /\ g_hist k = [Inv 0 (OpSave None "s" [pevm "a" "m"] None); Ret 0 (OutFailed EDeserialize)]
  /\ map (fun r => (r_ssn r, r_data r, r_meta r)) (g_rows k) = [(1, "a", "m")].
Proof. exists with_meta, (the_run with_meta). split; [vm_compute; reflexivity|]. split; vm_compute; reflexivity. Qed.
Print Assumptions C32_metadata_save_refused_but_stored_refuted.

(** ... and it can never be read: every read of all events, or of its stream, that
    reaches it ends with an error, showing nothing beyond it. *)
Theorem C32_metadata_hides_records_refuted : forall j rows r, In r rows -> r_meta r <> "null" ->
  (forall g, g <= r_gsn r -> exists l, select j (OpEvents g) rows = OutResults (map RRec l ++ [RErr EDeserialize])
     /\ forall x, In x l -> r_gsn x <= r_gsn r)
  /\ (forall n, n <= r_ssn r -> exists l, select j (OpByStream n (r_stream r)) rows = OutResults (map RRec l ++ [RErr EDeserialize])
     /\ forall x, In x l -> r_gsn x <= r_gsn r)
  /\ (forall g ts, g <= r_gsn r -> memb (r_atype r) ts = true -> exists l, select j (OpByTypes g ts) rows = OutResults (map RRec l ++ [RErr EDeserialize])
     /\ forall x, In x l -> r_gsn x <= r_gsn r).
Proof.
  intros j rows r Hr Hm. repeat split.
  - intros g Hg. destruct (bad_hides j (filter (fun r => g <=? r_gsn r) rows) r) as (l & E & H); auto; [apply filter_In; split; auto; now apply N.leb_le|].
    exists l. cbn [select]. rewrite E. split; auto. intros x Hx. now apply H.
  - intros n Hn. destruct (bad_hides j (filter (fun x => String.eqb (r_stream x) (r_stream r) && (n <=? r_ssn x)) rows) r) as (l & E & H); auto.
    { apply filter_In. split; auto. rewrite String.eqb_refl. now apply N.leb_le. }
    exists l. cbn [select]. rewrite E. split; [|intros x Hx; now apply H]. destruct l; reflexivity.
  - intros g ts Hg Ht. destruct (bad_hides j (filter (fun x => memb (r_atype x) ts && (g <=? r_gsn x)) rows) r) as (l & E & H); auto.
    { apply filter_In. split; auto. rewrite Ht. now apply N.leb_le. }
    exists l. cbn [select]. rewrite E. split; auto. intros x Hx. now apply H.
Qed.
Print Assumptions C32_metadata_hides_records_refuted.

(** * C59 *)

(** After as many refused deletes as the server has connections (with a context that
    never ends), every call ever made is answered with a database error and nothing
    can be stored. *)
Theorem C59_refused_deletes_exhaust_connections_refuted : forall j key limit, exists ls k,
  grun j key limit pg_start ls = Some k /\ length (g_calls k) = limit
  /\ (forall i o, In (Inv i o) (g_hist k) -> o = OpDelete 1 "x" None /\ In (Ret i (OutFailed EStreamNotFound)) (g_hist k))
  /\ forall ls' k', Forall holds_on ls' -> grun j key limit k ls' = Some k' ->
       g_rows k' = [] /\ forall i o x, (limit <= i)%nat -> In (Inv i o) (g_hist k') -> In (Ret i x) (g_hist k') -> x = db_error o.
Proof.
  intros j key limit. exists (refusals limit), (refused_state limit). split; [now apply refusals_run|]. split; [apply repeat_length|]. split.
  - intros i o H. cbn in *. apply in_flat_map in H as (a & Ha & [H|[H|[]]]); [|discriminate]. injection H as -> <-. split; auto. apply in_flat_map. exists i. split; auto. right. now left.
  - intros ls' k' HF E. pose proof (starved_run j key limit limit [] ls' _ _ (refused_starved j key limit) HF E) as S. split; [apply S|]. intros i o x Hi HI HR. eapply sv_ret; eauto.
Qed.
Print Assumptions C59_refused_deletes_exhaust_connections_refuted.

(** Only deletes that failed keep their connection. *)
Theorem C59_only_failed_deletes_keep_connections_partial : forall j key limit ls k i o p,
  grun j key limit pg_start ls = Some k -> nth_error (g_calls k) i = Some (mk_pgcall o p) ->
  (exists x, In (Ret i x) (g_hist k)) -> uses_connection (mk_pgcall o p) = true ->
  exists ex s cn e, o = OpDelete ex s cn /\ In (Ret i (OutFailed e)) (g_hist k).
Proof.
  intros j key limit ls k i o p E Hi (x & Hx) Hu.
  assert (HL : Leaky j k).
  { assert (G : forall ls k k', Leaky j k -> grun j key limit k ls = Some k' -> Leaky j k').
    { clear. induction ls as [|lb ls IH]; intros k k' H E; cbn in E; [now injection E as <-|]. destruct (gstep j key limit k lb) as [k1|] eqn:E1; [|discriminate].
      apply (IH k1); auto. eapply leaky_step; eauto. }
    eapply G; eauto. split; [intros a c H; destruct a; discriminate|apply told_start|intros a o' H; destruct a; discriminate]. }
  destruct (t_ret _ (lk_told _ _ HL) _ _ Hx) as (o' & b & Hb). rewrite Hi in Hb. injection Hb as <- ->. destruct b; [|discriminate]. eapply lk_del; eauto.
Qed.
Print Assumptions C59_only_failed_deletes_keep_connections_partial.

Example C59_leak : let k := the_run [GInvoke (OpDelete 1 "x" None); GStep 0; GStep 0] in
  nth_error (g_calls k) 0 = Some (mk_pgcall (OpDelete 1 "x" None) (PDone true)) /\ in_use k = 1%nat.
Proof. split; vm_compute; reflexivity. Qed.

(** * C60 *)

(** Used by one client at a time, without metadata, the store answers as the log
    specification does, except that a stream read from beyond its end is reported as
    missing. *)
Theorem C60_sequential_use_is_the_log_partial : forall j key limit ops,
  json_ok j -> Forall (without_metadata j) ops -> (length ops <= limit)%nat ->
  exists xs k, one_by_one j key limit pg_start ops xs k
    /\ all_pg_agree ops (snd (run (log_exec (json_codec j)) empty_log ops)) xs.
Proof.
  intros j key limit ops Hj HF Hl. destruct (serve_all j key limit Hj ops pg_start empty_log (same_start j) HF) as (xs & k & H1 & H2 & _); [exact Hl|]. eauto.
Qed.
Print Assumptions C60_sequential_use_is_the_log_partial.

Example C60_use : Forall (without_metadata toy_json)
  [save None "s" ["a"; "b"]; save (Some 2) "s" ["c"]; OpEvents 2; OpByStream 9 "s"; OpDelete 2 "s" None; OpDelete 3 "s" None; OpTotal "s" None].
Proof.
  apply Forall_forall. cbn. intros o H. repeat destruct H as [<-|H]; cbn; auto; try contradiction; split; auto; intros e H; repeat destruct H as [<-|H]; auto; contradiction.
Qed.

(** The difference: a stream that exists is reported as not found when read from
    beyond its end. *)
Theorem C60_read_beyond_end_refuted : exists n k,
  one_by_one toy_json fnv32a 10 pg_start [save None "s" ["a"]; OpByStream 2 "s"] [n; OutResults [RErr EStreamNotFound]] k
  /\ snd (run (log_exec (json_codec toy_json)) empty_log [save None "s" ["a"]; OpByStream 2 "s"]) = [n; OutResults []].
Proof.
  eexists. exists (the_run ([GInvoke (save None "s" ["a"])] ++ steps 0 6 ++ [GInvoke (OpByStream 2 "s")] ++ steps 1 1)). split.
  - apply (ob_cons _ _ _ _ _ 6 (the_run ([GInvoke (save None "s" ["a"])] ++ steps 0 6))); [vm_compute; reflexivity|vm_compute; reflexivity|].
    eapply (ob_cons _ _ _ _ _ 1); [vm_compute; reflexivity|vm_compute; reflexivity|].
    match goal with |- one_by_one _ _ _ ?a [] [] ?b => replace b with a by (vm_compute; reflexivity) end. constructor.
  - vm_compute. reflexivity.
Qed.
Print Assumptions C60_read_beyond_end_refuted.

(** * C61 *)

(** In every run the records of a stream nobody deletes are the batches of saves made,
    one after the other, each save at most once and whole; every acknowledged save is
    among them, and of the saves that failed only such as were answered with a
    database error or a decoding error. *)
Theorem C61_failed_saves_leave_nothing_partial : forall j key limit s ls k,
  grun j key limit pg_start ls = Some k -> never_deleted s (g_hist k) ->
  exists batches : list (nat * list record),
    rows_of s (g_rows k) = concat (map snd batches) /\ NoDup (map fst batches)
    /\ (forall i b, In (i, b) batches -> exists ex evs cn, In (Inv i (OpSave ex s evs cn)) (g_hist k) /\ Forall2 (row_for j s) evs b
          /\ (forall e, In (Ret i (OutFailed e)) (g_hist k) -> e = EDatabase \/ e = EDeserialize))
    /\ (forall i ex evs cn n bc, In (Inv i (OpSave ex s evs cn)) (g_hist k) -> In (Ret i (OutSaved n bc)) (g_hist k) -> exists b, In (i, b) batches).
Proof.
  intros j key limit s ls k E Hd. pose proof (kept_run j key limit s ls _ _ (kept_start j key s) E Hd) as [_ HT _ (bl & HB)].
  exists bl. split; [apply HB|]. split; [apply HB|]. split.
  - intros i b Hi. pose proof Hi as Hi'. apply in_split in Hi as (l & l' & El). destruct (b_call _ _ _ _ HB _ _ _ _ El) as (ex & evs & cn & p & Hc & _ & F & _).
    exists ex, evs, cn. split; [eapply t_call; eauto|]. split; auto. intros e He. eapply b_fail; eauto.
  - intros i ex evs cn n bc HI HR. destruct (b_ret _ _ _ _ HB _ _ _ _ _ _ HI HR) as (m & H & _). eauto.
Qed.
Print Assumptions C61_failed_saves_leave_nothing_partial.

(** The exceptions exist: a decoding error ([C32_metadata_save_refused_but_stored_refuted]),
    and a commit whose confirmation gets lost. *)
Definition unconfirmed : list plabel := [GInvoke (save (Some 0) "s" ["a"])] ++ steps 0 4 ++ [GLost 0].
Theorem C61_unconfirmed_commit_refuted : exists ls k, grun toy_json fnv32a 10 pg_start ls = Some k
  /\ g_hist k = [Inv 0 (save (Some 0) "s" ["a"]); Ret 0 (OutFailed EDatabase)]
  /\ map r_data (rows_of "s" (g_rows k)) = ["a"].
Proof. exists unconfirmed, (the_run unconfirmed). split; [vm_compute; reflexivity|]. split; vm_compute; reflexivity. Qed.
Print Assumptions C61_unconfirmed_commit_refuted.

Definition mixed : list plabel :=
  [GInvoke (save None "s" ["a"; "b"]); GInvoke (save (Some 7) "s" ["c"]); GInvoke (save None "s" ["d"])]
  ++ steps 0 4 ++ [GFail 0] ++ steps 1 3 ++ steps 2 6.
Example C61_mixed : grun toy_json fnv32a 10 pg_start mixed <> None /\ never_deleted "s" (g_hist (the_run mixed))
  /\ map r_data (rows_of "s" (g_rows (the_run mixed))) = ["d"]
  /\ In (Ret 0 (OutFailed EDatabase)) (g_hist (the_run mixed)) /\ In (Ret 1 (OutFailed (EUnexpectedSeq 7 0))) (g_hist (the_run mixed)).
Proof.
  split; [vm_compute; discriminate|]. split; [intros ex cn H; vm_compute in H; intuition discriminate|]. split; [vm_compute; reflexivity|]. split; vm_compute; tauto.
Qed.

(** * C62 *)

(** If a save was acknowledged before another one was made, all its records have
    smaller global numbers than those of the other, whatever streams they are in and
    whatever else goes on. *)
Theorem C62_acknowledged_order : forall j key limit ls k a na bca b ob nb bcb x y,
  grun j key limit pg_start ls = Some k ->
  before (Ret a (OutSaved na bca)) (Inv b ob) (g_hist k) -> In (Ret b (OutSaved nb bcb)) (g_hist k) ->
  In x bca -> In y bcb -> r_gsn x < r_gsn y.
Proof.
  intros j key limit ls k a na bca b ob nb bcb x y E HB HR Hx Hy.
  assert (T : Timely k) by (eapply (run_inv j key limit Timely); eauto; [|apply timely_start]; intros; eapply timely_step; eauto).
  eapply ti_done; eauto.
Qed.
Print Assumptions C62_acknowledged_order.

Example C62_order : let k := the_run (overtaken ++ [GInvoke (save None "a" ["z"])] ++ steps 0 2 ++ steps 2 6) in
  exists ba bb, before (Ret 1 (OutSaved 1 ba)) (Inv 2 (save None "a" ["z"])) (g_hist k) /\ In (Ret 2 (OutSaved 2 bb)) (g_hist k)
  /\ map r_gsn ba = [2] /\ map r_gsn bb = [3].
Proof.
  eexists _, _. split; [eexists (firstn 2 (g_hist (the_run overtaken))), [], _; vm_compute; reflexivity|].
  split; [vm_compute; do 5 right; left; reflexivity|split; reflexivity].
Qed.

(** * C63 *)

(** With the notification listener: once one record that cannot be decoded was
    inserted, subscribers never hear of anything again. *)
Theorem C63_listener_stops_refuted : forall j before_ bad after, r_meta bad <> "null" ->
  listen j (before_ ++ bad :: after) = listen j before_.
Proof.
  intros j l bad after Hm. induction l as [|r l IH]; cbn [app listen]; [now rewrite (decode_meta j bad Hm)|]. destruct (decode_row j r); [|reflexivity]. now rewrite IH.
Qed.
Print Assumptions C63_listener_stops_refuted.

(** If all records can be decoded, all are announced, once and in order. *)
Theorem C63_listener_announces_all_partial : forall j rows, (forall r, In r rows -> decode_row j r <> None) ->
  Forall2 (fun r x => decode_row j r = Some x) rows (listen j rows).
Proof.
  intros j rows. induction rows as [|r rows IH]; intros H; cbn [listen]; [constructor|].
  destruct (decode_row j r) as [x|] eqn:E; [|exfalso; eapply H; [left; reflexivity|auto]]. constructor; auto. apply IH. intros; apply H; now right.
Qed.
Print Assumptions C63_listener_announces_all_partial.

Example C63_both : let good := mk_record "s" "t" "i" 1 1 7 "u" "e" "d" "null" in let bad := mk_record "s" "t" "i" 2 2 7 "u" "e" "d" "{}" in
  length (listen toy_json [good; good]) = 2%nat /\ length (listen toy_json [good; bad; good; good]) = 1%nat.
Proof. split; vm_compute; reflexivity. Qed.
