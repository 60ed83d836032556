(** Property theorems about the LevelDB store (C14-C19 and the LevelDB halves of
    C09-C13). *)
From Verif Require Import Base Core CoreSpec CoreProofs LogSpec LogProofs StoreSpec ToyCodec
  InMemory InMemoryProofs Properties_InMemory LevelDB LevelDBSpec LevelDBBytes LevelDBProofs LevelDBRun.
From Coq Require Import Arith Sorting.Sorted.

(** The store after a history, and the answers it gave. *)
Definition ldb_after (c : codec) (ops : list op) : ldb := fst (run (ldb_step c) ldb_init ops).
Definition ldb_outs (c : codec) (ops : list op) : list out := snd (run (ldb_step c) ldb_init ops).

(** No delete was answered with an error other than cancellation. *)
Fixpoint no_refused_delete (ops : list op) (xs : list out) : Prop :=
  match ops, xs with
  | o :: ops', x :: xs' => ~ refused_delete o x /\ no_refused_delete ops' xs'
  | _, _ => True
  end.

(** C14 *)
Theorem C14_suffix_decodes : forall p n, n < two64 ->
  exists suffix, key_with_number p n = (p ++ suffix)%string /\ String.length suffix = 8%nat /\ bytes_to_uint64 suffix = n.
Proof. intros p n H. exists (uint64_to_bytes n). split; [reflexivity|]. split; [apply u64_length|now apply u64_roundtrip]. Qed.
Print Assumptions C14_suffix_decodes.

Theorem C14_keys_sort_as_numbers : forall p m n, m < two64 -> n < two64 ->
  (blt (key_with_number p m) (key_with_number p n) = true <-> m < n)
  /\ (key_with_number p m = key_with_number p n <-> m = n).
Proof.
  intros p m n Hm Hn. rewrite key_order by auto. split; [apply N.ltb_lt|].
  split; [|congruence]. intros E. now apply key_inj in E.
Qed.
Print Assumptions C14_keys_sort_as_numbers.

(** Iterating over a prefix visits the numbers upwards, in any database. *)
Theorem C14_iteration_in_number_order : forall p d, sorted d ->
  (forall kv, In kv (scan p d) -> exists n, n < two64 /\ fst kv = key_with_number p n) ->
  exists ns, map fst (scan p d) = map (key_with_number p) ns /\ StronglySorted N.lt ns.
Proof.
  intros p d Hs H. pose proof (scan_sorted p d Hs) as Hs'.
  enough (exists ns, map fst (scan p d) = map (key_with_number p) ns /\ StronglySorted N.lt ns /\ Forall (fun n => n < two64) ns) as (ns & A & B & _) by eauto.
  revert Hs' H. generalize (scan p d). clear.
  induction d as [|kv d IH]; intros Hs H; [exists []; repeat split; constructor|].
  destruct (sorted_inv _ _ Hs) as [Hs1 Hl]. destruct IH as (ns & E & Hss & Hb); auto.
  { intros q Hq. apply H. now right. }
  destruct (H kv (or_introl eq_refl)) as (n & Hn & En). exists (n :: ns).
  split; [cbn; congruence|]. split; [|constructor; auto].
  constructor; auto. rewrite Forall_forall in Hb |- *. intros m Hm.
  assert (Hk : In (key_with_number p m) (map fst d)) by (rewrite E; now apply in_map).
  apply in_map_iff in Hk. destruct Hk as (q & Eq & Hq).
  apply Hl in Hq. unfold key_lt in Hq. rewrite En, Eq in Hq. rewrite key_order in Hq by auto. now apply N.ltb_lt in Hq.
Qed.
Print Assumptions C14_iteration_in_number_order.

(** The boundary where byte carries happen. *)
Example C14_witness :
  blt (key_with_number (stream_prefix "a") 255) (key_with_number (stream_prefix "a") 256) = true
  /\ blt (key_with_number (stream_prefix "a") (two64 - 1)) (key_with_number (stream_prefix "a") 0) = false
  /\ bytes_to_uint64 (uint64_to_bytes (two64 - 1)) = two64 - 1
  /\ bytes_to_uint64 (uint64_to_bytes two64) = 0.
Proof. repeat split; vm_compute; reflexivity. Qed.

(** * States reached by clean histories *)

Lemma after_D c ops : codec_ok c -> Forall clean_call ops -> events_in ops < two64 ->
  exists L, D c (h_db (s_h (ldb_after c ops))) L /\ l_last L <= events_in ops.
Proof.
  intros Hc Hcl Hsm. destruct (run_any c Hc ops ldb_init empty_log (D_init c) Hcl Hsm) as [_ HD].
  eexists. split; [exact HD|]. clear HD. unfold ldb_init.
  set (xs := snd (run (ldb_step c) _ ops)). clearbody xs. clear Hcl Hsm.
  assert (G : forall ops xs L, l_last (fst (run (log_exec c) L (map fst (returned ops xs)))) <= l_last L + events_in ops).
  { clear. induction ops as [|o ops IH]; intros [|x xs] L; cbn [returned map run fst events_in fold_right]; try lia.
    fold (events_in ops). assert (Hb : l_last (fst (run (log_exec c) L (map fst (returned ops xs)))) <= l_last L + (added o + events_in ops)).
    { specialize (IH xs L). lia. }
    destruct x; auto; cbn [map fst run]; pose proof (log_exec_last c L o) as Hle; destruct (log_exec c L o) as [L1 y]; cbn [fst] in Hle;
      specialize (IH xs L1); destruct (run (log_exec c) L1 (map fst (returned ops xs))); cbn [fst] in *; lia. }
  specialize (G ops xs empty_log). cbn in *. lia.
Qed.

Lemma after_quiet c ops : no_refused_delete ops (ldb_outs c ops) -> is_quiet (ldb_after c ops).
Proof.
  unfold ldb_outs, ldb_after. assert (Hq : is_quiet ldb_init) by (split; reflexivity). revert Hq. generalize ldb_init.
  induction ops as [|o ops IH]; intros st Hq; cbn [run]; [auto|].
  destruct (step_quiet c st o Hq) as [_ H]. destruct (ldb_step c st o) as [st1 x]. cbn [fst snd] in H.
  specialize (IH st1). destruct (run (ldb_step c) st1 ops) as [st2 xs]. cbn [fst snd no_refused_delete] in *.
  intros [Hn Hr]. destruct H as [H|H]; [tauto|]. auto.
Qed.

(** C15: reads of one stream only ever return records of that stream, whatever the
    others are called. *)
Theorem C15_reads_stay_in_their_stream : forall c ops k s l r, codec_ok c -> Forall clean_call ops ->
  events_in ops < two64 -> clean s ->
  snd (ldb_step c (ldb_after c ops) (OpByStream k s)) = OutResults l -> In (RRec r) l -> r_stream r = s.
Proof.
  intros c ops k s l r Hc Hcl Hsm Hs E Hin. destruct (after_D c ops Hc Hcl Hsm) as (L & HD & Hl).
  destruct (step_any c Hc _ L (OpByStream k s) HD Hs) as [[E1 _]|[E1 _]].
  - cbn. lia.
  - congruence.
  - rewrite E1 in E. cbn in E. injection E as <-. destruct (stream_length s L =? 0).
    + destruct Hin as [H|[]]. discriminate.
    + apply in_map_iff in Hin. destruct Hin as (r' & Er & Hr). injection Er as <-.
      apply filter_In in Hr. destruct Hr as [Hr _]. apply filter_In in Hr. destruct Hr as [_ Hr]. now apply String.eqb_eq.
Qed.
Print Assumptions C15_reads_stay_in_their_stream.

(** C15: a save to, or delete of, one stream does not change what any other stream
    shows, nor its total; and aggregate types likewise. *)
Theorem C15_calls_do_not_touch_others : forall c ops o s, codec_ok c -> Forall clean_call (ops ++ [o]) ->
  events_in (ops ++ [o]) < two64 -> no_refused_delete (ops ++ [o]) (ldb_outs c (ops ++ [o])) -> clean s ->
  (match o with OpSave _ s' _ _ | OpDelete _ s' _ => s' <> s | _ => True end) ->
  let before := ldb_after c ops in let after := fst (ldb_step c before o) in
  (forall k, snd (ldb_step c after (OpByStream k s)) = snd (ldb_step c before (OpByStream k s)))
  /\ snd (ldb_step c after (OpTotal s None)) = snd (ldb_step c before (OpTotal s None)).
Proof.
  intros c ops o s Hc Hcl Hsm Hr Hs Ho before after.
  apply Forall_app in Hcl. destruct Hcl as [Hcl Hco]. inversion Hco; subst. clear Hco.
  assert (Hev : events_in ops + added o < two64).
  { assert (G : forall ops, events_in (ops ++ [o]) = events_in ops + added o).
    { clear. induction ops as [|x ops IH]; cbn [app events_in fold_right]; [lia|]. fold (events_in (ops ++ [o])) (events_in ops). lia. }
    now rewrite <- G. }
  destruct (after_D c ops Hc Hcl ltac:(lia)) as (L & HD & Hl). fold before in HD.
  assert (Hrun : run (ldb_step c) ldb_init (ops ++ [o]) = (after, ldb_outs c ops ++ [snd (ldb_step c before o)])).
  { unfold after, before, ldb_after, ldb_outs. clear. generalize ldb_init. induction ops as [|x ops IH]; intros st; cbn [app run].
    - cbn [fst snd app]. destruct (ldb_step c st o); reflexivity.
    - destruct (ldb_step c st x) as [st1 y]. rewrite IH. destruct (run (ldb_step c) st1 ops). reflexivity. }
  assert (Hq : is_quiet after). { pose proof (after_quiet c (ops ++ [o]) Hr) as H. unfold ldb_after in H. now rewrite Hrun in H. }
  assert (Hq0 : is_quiet before).
  { apply after_quiet. unfold ldb_outs in Hr |- *. rewrite Hrun in Hr. clear - Hr. cbn [snd] in Hr. unfold ldb_outs in Hr.
    set (ys := [snd (ldb_step c before o)]) in Hr. clearbody ys. revert Hr. generalize ldb_init as st.
    induction ops as [|x ops IH]; intros st; cbn [app run]; [cbn; tauto|].
    destruct (ldb_step c st x) as [st1 y]. specialize (IH st1). destruct (run (ldb_step c) st1 ops) as [st2 xs]. cbn in *. tauto. }
  assert (HD' : exists L', D c (h_db (s_h after)) L' /\ of_stream s L' = of_stream s L).
  { destruct (step_any c Hc before L o HD H1) as [[_ E]|[_ HD']]; [lia| |].
    - unfold after. rewrite E. eauto.
    - exists (fst (log_exec c L o)). split; [exact HD'|].
      destruct o as [ex s' evs cn|ex s' cn|g|g ts|k s'|s' cn]; try reflexivity; unfold log_exec; cbn.
      + destruct (save_refused c L ex s' evs cn); [reflexivity|]. cbn [fst]. rewrite of_stream_append.
        apply String.eqb_neq in Ho. rewrite Ho. apply app_nil_r.
      + destruct (delete_refused L ex s' cn); [reflexivity|]. cbn [fst]. unfold of_stream, remove_stream. cbn.
        rewrite filter_filter. apply filter_ext. intros r. unfold in_stream.
        destruct (String.eqb_spec (r_stream r) s); [|apply andb_false_r].
        destruct (String.eqb_spec (r_stream r) s'); [congruence|reflexivity]. }
  destruct HD' as (L' & HD' & Eo).
  rewrite (quiet_eq _ Hq), (quiet_eq _ Hq0).
  unfold ldb_step. cbn [early s_stuck s_h h_tx quiet andb opens_transaction h_db ldb_call snd done_at].
  split.
  - intros k. rewrite (read_stream c Hc _ _ k s HD Hs), (read_stream c Hc _ _ k s HD' Hs).
    unfold stream_length, log_by_stream. now rewrite Eo.
  - rewrite (stream_number_ok c _ _ s HD Hs), (stream_number_ok c _ _ s HD' Hs). unfold stream_length. now rewrite Eo.
Qed.
Print Assumptions C15_calls_do_not_touch_others.

(** ... and a read by type only returns records of the types asked for. *)
Theorem C15_reads_stay_in_their_type : forall c ops g ts l r, codec_ok c -> Forall clean_call ops ->
  events_in ops < two64 -> clean_call (OpByTypes g ts) ->
  snd (ldb_step c (ldb_after c ops) (OpByTypes g ts)) = OutResults l -> In (RRec r) l -> In (r_atype r) ts.
Proof.
  intros c ops g ts l r Hc Hcl Hsm Hs E Hin. destruct (after_D c ops Hc Hcl Hsm) as (L & HD & Hl).
  destruct (step_any c Hc _ L (OpByTypes g ts) HD Hs) as [[E1 _]|[E1 _]].
  - cbn. lia.
  - congruence.
  - rewrite E1 in E. cbn in E. injection E as <-.
    apply in_map_iff in Hin. destruct Hin as (r' & Er & Hr). injection Er as <-.
    apply filter_In in Hr. destruct Hr as [_ Hr]. apply andb_true_iff in Hr. destruct Hr as [_ Hr].
    unfold memb in Hr. apply existsb_exists in Hr. destruct Hr as (t & Ht & Et). apply String.eqb_eq in Et. now subst.
Qed.
Print Assumptions C15_reads_stay_in_their_type.

Example C15_witness : clean "thing!x" /\ clean "thing$" /\ clean "" /\ clean "!" /\
  snd (ldb_step toy (ldb_after toy [OpSave None "thing!x" [thing "a"] None]) (OpTotal "thing!x" None)) = OutTotal 1.
Proof.
  assert (H : forall s, (forall n, has_prefix "$!" (drop_chars n s) = false) -> clean s).
  { intros s H a b ->. specialize (H (String.length a)). rewrite drop_chars_app, has_prefix_app in H. discriminate. }
  repeat split; try (apply H; intros n; do 9 (destruct n as [|n]; [reflexivity|]); destruct n; reflexivity); try (vm_compute; reflexivity).
Qed.

(** C15 is false for names that contain "$!": stream "a" shows the records of stream
    "a$!b"; the next event saved to "a" gets an absurd number; and deleting "a" deletes
    the other stream. *)
Definition collision : list op := [OpSave None "a$!b" [thing "secret"] None].
Theorem C15_streams_leak_refuted : exists r n,
  snd (ldb_step toy (ldb_after toy collision) (OpByStream 0 "a")) = OutResults [RRec r]
  /\ r_stream r = "a$!b"
  /\ snd (ldb_step toy (ldb_after toy collision) (OpTotal "a" None)) = OutTotal n /\ 7000000000000000000 < n
  /\ snd (ldb_step toy (ldb_after toy collision) (OpDelete 1 "a" None)) = OutDeleted
  /\ snd (ldb_step toy (fst (ldb_step toy (ldb_after toy collision) (OpDelete 1 "a" None))) (OpEvents 0)) = OutResults [].
Proof. eexists _, _. split; [vm_compute; reflexivity|]. repeat split; vm_compute; reflexivity. Qed.
Print Assumptions C15_streams_leak_refuted.

(** C16: the calls that return are answered as the log would answer them, whatever
    else happens in the history; and unless a delete is refused, all calls return. *)
Theorem C16_leveldb_refines_log_partial : forall c ops, codec_ok c -> Forall clean_call ops -> events_in ops < two64 ->
  let r := returned ops (ldb_outs c ops) in
  map snd r = snd (run (log_exec c) empty_log (map fst r)).
Proof. intros c ops Hc Hcl Hsm. apply (run_any c Hc ops ldb_init empty_log (D_init c) Hcl Hsm). Qed.
Print Assumptions C16_leveldb_refines_log_partial.

Lemma none_blocked c ops : no_refused_delete ops (ldb_outs c ops) ->
  Forall (fun x => x <> OutBlocked) (ldb_outs c ops).
Proof.
  unfold ldb_outs. assert (Hq : is_quiet ldb_init) by (split; reflexivity). revert Hq. generalize ldb_init.
  induction ops as [|o ops IH]; intros st Hq; cbn [run]; [constructor|].
  destruct (step_quiet c st o Hq) as [Hb H]. destruct (ldb_step c st o) as [st1 x]. cbn [fst snd] in H, Hb.
  specialize (IH st1). destruct (run (ldb_step c) st1 ops) as [st2 xs]. cbn [fst snd no_refused_delete] in *.
  intros [Hn Hr]. destruct H as [H|H]; [tauto|]. constructor; auto.
Qed.

Lemma run_length {S} (step : S -> op -> S * out) ops : forall s, length (snd (run step s ops)) = length ops.
Proof.
  induction ops as [|o ops IH]; intros s; cbn [run]; auto. destruct (step s o) as [s1 x]. specialize (IH s1).
  destruct (run step s1 ops). cbn in *. auto.
Qed.

Lemma returned_all ops : forall xs, length xs = length ops -> Forall (fun x => x <> OutBlocked) xs ->
  map fst (returned ops xs) = ops /\ map snd (returned ops xs) = xs.
Proof.
  induction ops as [|o ops IH]; intros [|x xs] Hl Hf; cbn; try discriminate; auto.
  inversion Hf; subst. destruct (IH xs) as [E1 E2]; auto.
  destruct x; try congruence; cbn; rewrite E1, E2; auto.
Qed.

Theorem C16_leveldb_answers_as_log_partial : forall c ops, codec_ok c -> Forall clean_call ops -> events_in ops < two64 ->
  no_refused_delete ops (ldb_outs c ops) ->
  ldb_outs c ops = snd (run (log_exec c) empty_log ops).
Proof.
  intros c ops Hc Hcl Hsm Hr.
  destruct (returned_all ops (ldb_outs c ops)) as [E1 E2].
  - apply run_length.
  - now apply none_blocked.
  - rewrite <- E2 at 1. rewrite (C16_leveldb_refines_log_partial c ops Hc Hcl Hsm), E1. reflexivity.
Qed.
Print Assumptions C16_leveldb_answers_as_log_partial.

Definition ldb_demo : list op :=
  [ OpSave None "thing!x" [thing "a"; thing "b"] None;
    OpSave (Some 0) "other!y" [other "c"] None;
    OpSave (Some 5) "thing!x" [thing "d"] None;
    OpSave None "thing!x" [thing "d"; other "e"] None;
    OpSave None "thing!x" [thing "d"; thing "e"] (Some 1%nat);
    OpSave (Some 2) "thing!x" [thing "d"; thing "e"] None;
    OpByTypes 2 ["other"; "thing"];
    OpDelete 4 "thing!x" None;
    OpEvents 0;
    OpByStream 0 "thing!x" ].
Lemma clean_by_check s n : (String.length s <= n)%nat -> forallb (fun k => negb (has_prefix "$!" (drop_chars k s))) (seq 0 (S n)) = true -> clean s.
Proof.
  intros Hl H a b ->. rewrite forallb_forall in H. specialize (H (String.length a)).
  rewrite drop_chars_app, has_prefix_app in H. cbn [negb] in H. enough (false = true) by discriminate. apply H.
  apply in_seq. rewrite slength_app in Hl. lia.
Qed.
Example C16_witness_clean : Forall clean_call ldb_demo /\ events_in ldb_demo < two64.
Proof.
  split; [|vm_compute; reflexivity].
  assert (A : clean "thing!x") by (apply (clean_by_check _ 7); vm_compute; auto).
  assert (B : clean "other!y") by (apply (clean_by_check _ 7); vm_compute; auto).
  assert (C : clean "thing") by (apply (clean_by_check _ 5); vm_compute; auto).
  assert (E : clean "other") by (apply (clean_by_check _ 5); vm_compute; auto).
  repeat apply Forall_cons; try apply Forall_nil; cbn; repeat split; auto;
    try (repeat apply Forall_cons; auto; fail); try discriminate; try (repeat constructor; cbn; intuition discriminate).
Qed.
Example C16_witness : no_refused_delete ldb_demo (ldb_outs toy ldb_demo)
  /\ nth_error (ldb_outs toy ldb_demo) 3 = Some (OutFailed EUnmatchedType)
  /\ nth_error (ldb_outs toy ldb_demo) 4 = Some (OutFailed ECanceled)
  /\ nth_error (ldb_outs toy ldb_demo) 7 = Some OutDeleted
  /\ ldb_outs toy ldb_demo = snd (run (log_exec toy) empty_log ldb_demo).
Proof. split; [vm_compute; repeat split; auto|]. repeat split; vm_compute; reflexivity. Qed.

(** C16 is false of all histories: where the log goes on, the store blocks once a delete
    has been refused. *)
Theorem C16_blocks_refuted : exists ops, Forall clean_call ops /\ events_in ops < two64
  /\ snd (run (log_exec toy) empty_log ops) = [OutFailed EStreamNotFound; OutTotal 0; OutFailed EStreamNotFound]
  /\ ldb_outs toy ops = [OutFailed EStreamNotFound; OutTotal 0; OutBlocked].
Proof.
  assert (A : clean "thing!x") by (apply (clean_by_check _ 7); vm_compute; auto).
  exists [OpDelete 0 "thing!x" None; OpTotal "thing!x" None; OpDelete 0 "thing!x" None].
  split; [repeat apply Forall_cons; try apply Forall_nil; exact A|]. repeat split; vm_compute; reflexivity.
Qed.
Print Assumptions C16_blocks_refuted.

(** C17: any history, in which the process dies any number of times at any point
    between two database operations: what can be read afterwards is what the log
    contains after all calls that returned success and some of those cut short, each
    of them completely. *)
Theorem C17_crash_atomic : forall c h, codec_ok c -> Forall clean_call (map fst h) -> events_in (map fst h) < two64 ->
  exists kept, survives h (snd (lives c ldb_init h)) kept /\
  forall o x, clean_call o -> read_result (fst (run (log_exec c) empty_log kept)) o = Some x ->
    snd (ldb_step c (ldb_reopen (fst (lives c ldb_init h))) o) = x.
Proof.
  intros c h Hc Hcl Hsm. destruct (lives_ok c Hc h ldb_init empty_log (D_init c) Hcl Hsm) as (kept & S1 & S2).
  exists kept. split; [exact S1|]. intros o x Ho Hx.
  set (st := fst (lives c ldb_init h)) in *. change (ldb_reopen st) with (mk_ldb (quiet (h_db (s_h st))) false).
  set (L := fst (run (log_exec c) empty_log kept)) in *.
  unfold ldb_step. destruct (early o) as [y|] eqn:Ee.
  - cbn [snd]. pose proof (early_ok c L o y Ee) as El. destruct o; cbn in Hx; try discriminate; cbn in El; try congruence.
  - cbn [s_stuck s_h h_tx quiet andb]. rewrite andb_false_r. change (h_db (quiet (h_db (s_h st)))) with (h_db (s_h st)).
    rewrite (call_read c Hc _ L o x S2 Ho Hx Ee). reflexivity.
Qed.
Print Assumptions C17_crash_atomic.

(** C17, for arbitrary names, encodings and states: a crash leaves the database as
    it was before the call or as the call would have left it; a call that did not
    return success leaves it as it was. *)
Theorem C17_all_or_nothing : forall c st o k,
  let after := fst (ldb_step c st o) in
  (ldb_crash c st o k = ldb_reopen st \/ ldb_crash c st o k = ldb_reopen after)
  /\ ((match snd (ldb_step c st o) with OutSaved _ _ | OutDeleted => False | _ => True end) ->
      ldb_reopen after = ldb_reopen st).
Proof.
  intros c st o k after. split.
  - assert (E : ldb_crash c st o k = mk_ldb (mk_dbh (h_db (s_h (ldb_crash c st o k))) None) false) by reflexivity.
    destruct (crash_atomic c st o k) as [H|H]; [left|right]; rewrite E, H; reflexivity.
  - intros H. unfold ldb_reopen. f_equal. f_equal. now apply failed_same.
Qed.
Print Assumptions C17_all_or_nothing.

(** Three events and a delete, with crashes in between; the middle save of two
    events dies after one of its two writes. *)
Example C17_witness : forall k, (k <= 3)%nat ->
  let h := [(OpSave None "thing!x" [thing "a"] None, None);
            (OpSave None "thing!x" [thing "b"; thing "c"] None, Some k);
            (OpTotal "thing!x" None, None)] in
  nth_error (snd (lives toy ldb_init h)) 2 = Some (Some (OutTotal 1)).
Proof. intros k Hk. do 4 (destruct k as [|k]; [vm_compute; reflexivity|]). lia. Qed.
Example C17_witness_commit :
  let h := [(OpSave None "thing!x" [thing "a"] None, None);
            (OpSave None "thing!x" [thing "b"; thing "c"] None, Some 4%nat);
            (OpTotal "thing!x" None, None)] in
  nth_error (snd (lives toy ldb_init h)) 2 = Some (Some (OutTotal 3)).
Proof. vm_compute. reflexivity. Qed.

(** C18 (guarded): whatever names, encodings, cancellations and failures of other
    calls there were: as long as no delete was refused, every call returns. *)
Theorem C18_usable_unless_delete_refused_partial : forall c ops, no_refused_delete ops (ldb_outs c ops) ->
  Forall (fun x => x <> OutBlocked) (ldb_outs c ops)
  /\ forall o, snd (ldb_step c (ldb_after c ops) o) <> OutBlocked.
Proof.
  intros c ops H. split; [now apply none_blocked|]. intros o. apply step_quiet. now apply after_quiet.
Qed.
Print Assumptions C18_usable_unless_delete_refused_partial.

(** C18 (guarded): a save that returns an error leaves the store exactly as it was. *)
Theorem C18_failed_save_leaves_state : forall c ops ex s evs cn e,
  no_refused_delete ops (ldb_outs c ops) ->
  snd (ldb_step c (ldb_after c ops) (OpSave ex s evs cn)) = OutFailed e ->
  fst (ldb_step c (ldb_after c ops) (OpSave ex s evs cn)) = ldb_after c ops.
Proof.
  intros c ops ex s evs cn e Hr E. pose proof (after_quiet c ops Hr) as Hq.
  destruct (step_quiet c (ldb_after c ops) (OpSave ex s evs cn) Hq) as [_ [H|H]]; [destruct H|].
  pose proof (failed_same c (ldb_after c ops) (OpSave ex s evs cn)) as Hs. rewrite E in Hs. specialize (Hs I).
  rewrite (quiet_eq _ H), Hs. symmetry. apply (quiet_eq _ Hq).
Qed.
Print Assumptions C18_failed_save_leaves_state.

Example C18_witness : let ops := [OpSave None "a$!b" [thing "x"] None; OpSave (Some 7) "a" [thing "y"; other "z"] None;
                                  OpSave None "a" [thing "y"; other "z"] None; OpDelete 3 "a" (Some 0%nat)] in
  no_refused_delete ops (ldb_outs toy ops)
  /\ nth_error (ldb_outs toy ops) 2 = Some (OutFailed EUnmatchedType) /\ nth_error (ldb_outs toy ops) 3 = Some (OutFailed ECanceled).
Proof. split; [vm_compute; repeat split; auto|]. split; vm_compute; reflexivity. Qed.

(** C18 is false: after one delete with a wrong expected number (or of a missing
    stream) the next save never returns, and then no read does. *)
Theorem C18_store_wedged_refuted : exists ops,
  snd (ldb_step toy (ldb_after toy ops) (OpDelete 1 "thing!x" None)) = OutFailed (EUnexpectedSeq 1 2) /\
  let st := fst (ldb_step toy (ldb_after toy ops) (OpDelete 1 "thing!x" None)) in
  snd (ldb_step toy st (OpSave None "thing!x" [thing "c"] None)) = OutBlocked /\
  let st' := fst (ldb_step toy st (OpSave None "thing!x" [thing "c"] None)) in
  (forall k, ldb_step toy st' (OpEvents k) = (st', OutBlocked)) /\
  (forall k s, ldb_step toy st' (OpByStream k s) = (st', OutBlocked)) /\
  (forall k t ts, ldb_step toy st' (OpByTypes k (t :: ts)) = (st', OutBlocked)) /\
  (forall n s, ldb_step toy st' (OpDelete n s None) = (st', OutBlocked)) /\
  (forall ex s ev evs cn, ldb_step toy st' (OpSave ex s (ev :: evs) cn) = (st', OutBlocked)).
Proof.
  exists [OpSave None "thing!x" [thing "a"; thing "b"] None]. split; [vm_compute; reflexivity|].
  split; [vm_compute; reflexivity|]. intros st'.
  assert (Es : s_stuck st' = true) by (vm_compute; reflexivity).
  assert (H : forall o, takes_mux o = true -> early o = None -> ldb_step toy st' o = (st', OutBlocked)).
  { intros o Ht He. unfold ldb_step. rewrite He, Ht, Es. reflexivity. }
  repeat split; intros; apply H; reflexivity.
Qed.
Print Assumptions C18_store_wedged_refuted.

(** ... in general: every refused delete on a store that was fine leaves a store on
    which every later save and delete blocks. *)
Theorem C18_every_refused_delete_wedges : forall c ops n s cn e o, no_refused_delete ops (ldb_outs c ops) ->
  snd (ldb_step c (ldb_after c ops) (OpDelete n s cn)) = OutFailed e -> e <> ECanceled ->
  (match o with OpSave _ _ [] _ => False | OpSave _ _ _ _ => True | OpDelete _ _ cn' => done_at cn' 0 = false | _ => False end) ->
  snd (ldb_step c (fst (ldb_step c (ldb_after c ops) (OpDelete n s cn))) o) = OutBlocked.
Proof.
  intros c ops n s cn e o Hr E He Ho. pose proof (after_quiet c ops Hr) as Hq. rewrite (quiet_eq _ Hq) in *.
  revert E. generalize (h_db (s_h (ldb_after c ops))). intros d E.
  unfold ldb_step in E |- *. cbn [early] in *. destruct (done_at cn 0) eqn:Ed; [cbn in E; congruence|].
  cbn [s_stuck s_h h_tx quiet andb opens_transaction ldb_call h_db] in *.
  destruct (ldb_delete c d n s) as [ms x] eqn:Ec. cbn [fst snd] in *. subst x.
  destruct (delete_shape _ _ _ _ _ _ Ec) as [(e' & _ & _ & ->)|(bs & d' & H & _)]; [|discriminate].
  destruct o as [ex' s' evs' cn'|ex' s' cn'| | | | ]; try contradiction.
  - destruct evs'; [contradiction|]. reflexivity.
  - cbn [early]. rewrite Ho. reflexivity.
Qed.
Print Assumptions C18_every_refused_delete_wedges.

(** ... while the length of a stream can be asked at any time. *)
Theorem C18_counting_never_blocks : forall c ops s cn,
  fst (ldb_step c (ldb_after c ops) (OpTotal s cn)) = ldb_after c ops
  /\ snd (ldb_step c (ldb_after c ops) (OpTotal s cn)) <> OutBlocked.
Proof.
  intros c ops s cn. unfold ldb_step. cbn [early]. destruct (done_at cn 0); [split; [reflexivity|discriminate]|].
  cbn [takes_mux opens_transaction andb]. rewrite andb_false_r. destruct (ldb_after c ops) as [[d t] st]. split; [reflexivity|discriminate].
Qed.
Print Assumptions C18_counting_never_blocks.

Example C18_counting_example :
  let ops := [OpSave None "thing!x" [thing "a"; thing "b"] None; OpDelete 1 "thing!x" None; OpSave None "thing!x" [thing "c"] None] in
  nth_error (ldb_outs toy ops) 2 = Some OutBlocked /\ snd (ldb_step toy (ldb_after toy ops) (OpTotal "thing!x" None)) = OutTotal 2.
Proof. split; vm_compute; reflexivity. Qed.

(** * C09-C13 for LevelDB *)

Lemma quiet_read c d L o x : codec_ok c -> D c d L -> clean_call o -> read_result L o = Some x ->
  ldb_step c (mk_ldb (quiet d) false) o = (mk_ldb (quiet d) false, x).
Proof.
  intros Hc HD Ho Hx. unfold ldb_step. destruct (early o) as [y|] eqn:Ee.
  - pose proof (early_ok c L o y Ee) as El. destruct o; cbn in Hx; try discriminate; cbn in El; try congruence.
  - cbn [s_stuck s_h h_tx quiet andb]. rewrite andb_false_r. change (h_db (quiet d)) with d.
    rewrite (call_read c Hc d L o x HD Ho Hx Ee). reflexivity.
Qed.

(** C09: OptimisticSave is a compare-and-append. *)
Theorem C09_leveldb_compare_and_append : forall c ops e s evs, codec_ok c -> Forall clean_call ops ->
  no_refused_delete ops (ldb_outs c ops) ->
  clean_call (OpSave (Some e) s evs None) -> events_in ops + N.of_nat (length evs) < two64 ->
  evs <> [] -> one_aggregate evs -> encodable c s evs ->
  let m := ldb_after c ops in
  exists n, ldb_step c m (OpTotal s None) = (m, OutTotal n) /\
  (e = n -> exists m' recs, ldb_step c m (OpSave (Some e) s evs None) = (m', OutSaved (e + N.of_nat (length evs)) recs)
      /\ ldb_step c m' (OpTotal s None) = (m', OutTotal (e + N.of_nat (length evs)))) /\
  (e <> n -> ldb_step c m (OpSave (Some e) s evs None) = (m, OutFailed (EUnexpectedSeq e n))).
Proof.
  intros c ops e s evs Hc Hcl Hr Hcs Hsm Hne Hone Henc m.
  destruct (after_D c ops Hc Hcl ltac:(lia)) as (L & HD & Hl). pose proof (after_quiet c ops Hr) as Hq.
  fold m in HD, Hq. pose proof (proj1 Hcs) as Hs.
  pose proof (quiet_eq _ Hq) as Em. set (d := h_db (s_h m)) in *.
  exists (stream_length s L). split; [rewrite Em; eapply quiet_read; eauto; reflexivity|].
  assert (Hadd : l_last L + added (OpSave (Some e) s evs None) < two64) by (cbn; lia).
  destruct (step_ok c Hc d L _ HD Hcs Hadd) as [(d' & E1 & HD')|(H & _)]; [|destruct H].
  destruct evs as [|e0 evs]; [congruence|]. split.
  - intros ->. assert (Eref : save_refused c L (Some (stream_length s L)) s (e0 :: evs) None = None).
    { unfold save_refused. cbn [done_at]. rewrite N.eqb_refl. apply encodable_accepted; auto. now apply one_aggregate_forall. }
    unfold log_exec in *. rewrite Eref in *. cbn [fst snd] in *.
    exists (mk_ldb (quiet d') false), (appended L s (e0 :: evs)). split; [rewrite Em; exact E1|].
    rewrite <- stream_length_append. eapply quiet_read; eauto.
  - intros Hx. assert (Eref : save_refused c L (Some e) s (e0 :: evs) None = Some (EUnexpectedSeq e (stream_length s L))).
    { unfold save_refused. cbn [done_at]. apply N.eqb_neq in Hx. now rewrite Hx. }
    unfold log_exec in *. rewrite Eref in *. cbn [fst snd] in *.
    assert (Ef : snd (ldb_step c m (OpSave (Some e) s (e0 :: evs) None)) = OutFailed (EUnexpectedSeq e (stream_length s L))) by (rewrite Em, E1; reflexivity).
    rewrite (surjective_pairing (ldb_step c m (OpSave (Some e) s (e0 :: evs) None))), Ef. f_equal.
    apply (C18_failed_save_leaves_state c ops _ _ _ _ _ Hr Ef).
Qed.
Print Assumptions C09_leveldb_compare_and_append.

(** After the history of C16's example the stream "other!y" has one event: a save expecting
    that is accepted, one expecting something else refused. *)
Example C09_leveldb_witness :
  codec_ok toy /\ Forall clean_call ldb_demo /\ no_refused_delete ldb_demo (ldb_outs toy ldb_demo)
  /\ clean_call (OpSave (Some 1) "other!y" [other "a"; other "b"] None) /\ events_in ldb_demo + 2 < two64
  /\ one_aggregate [other "a"; other "b"] /\ encodable toy "other!y" [other "a"; other "b"]
  /\ snd (ldb_step toy (ldb_after toy ldb_demo) (OpTotal "other!y" None)) = OutTotal 1
  /\ snd (ldb_step toy (ldb_after toy ldb_demo) (OpSave (Some 2) "other!y" [other "a"; other "b"] None)) = OutFailed (EUnexpectedSeq 2 1)
  /\ exists recs, snd (ldb_step toy (ldb_after toy ldb_demo) (OpSave (Some 1) "other!y" [other "a"; other "b"] None)) = OutSaved 3 recs.
Proof.
  split; [exact toy_ok|]. split; [exact (proj1 C16_witness_clean)|]. split; [exact (proj1 C16_witness)|]. split.
  { assert (B : clean "other!y") by (apply (clean_by_check _ 7); vm_compute; auto). assert (E : clean "other") by (apply (clean_by_check _ 5); vm_compute; auto).
    cbn. repeat split; auto; try (repeat apply Forall_cons; auto; fail); try discriminate. }
  split; [vm_compute; reflexivity|]. split; [intros e e' [<-|[<-|[]]] [<-|[<-|[]]]; split; reflexivity|]. split.
  { intros e He r _. exact (toy_total _). }
  split; [vm_compute; reflexivity|]. split; [vm_compute; reflexivity|]. eexists. vm_compute. reflexivity.
Qed.

(** C10: on LevelDB a failed save leaves no trace at all, for any names, batches,
    cancellation points and encodings. *)
Theorem C10_leveldb_failed_save_leaves_no_trace : forall c ops ex s evs cn e,
  no_refused_delete ops (ldb_outs c ops) ->
  snd (ldb_step c (ldb_after c ops) (OpSave ex s evs cn)) = OutFailed e ->
  forall later, snd (run (ldb_step c) (fst (ldb_step c (ldb_after c ops) (OpSave ex s evs cn))) later)
              = snd (run (ldb_step c) (ldb_after c ops) later).
Proof. intros c ops ex s evs cn e Hr E later. now rewrite (C18_failed_save_leaves_state c ops ex s evs cn e Hr E). Qed.
Print Assumptions C10_leveldb_failed_save_leaves_no_trace.

Example C10_leveldb_witness :
  snd (ldb_step picky (ldb_after picky [OpSave None "custom" [thing "a"] None])
    (OpSave None "custom" [thing "b"; thing "unencodable"] None)) = OutFailed ESerialize.
Proof. vm_compute. reflexivity. Qed.

(** C11: a successful delete removes exactly that stream from every read. *)
Theorem C11_leveldb_delete_exact : forall c ops n s cn m', codec_ok c -> Forall clean_call ops -> clean s ->
  no_refused_delete ops (ldb_outs c ops) -> events_in ops < two64 ->
  ldb_step c (ldb_after c ops) (OpDelete n s cn) = (m', OutDeleted) ->
  let m := ldb_after c ops in
  let keep := fun r => negb (String.eqb (r_stream r) s) in
  (forall g, g < two64 -> exists rs, ldb_step c m (OpEvents g) = (m, OutResults (map RRec rs))
     /\ ldb_step c m' (OpEvents g) = (m', OutResults (map RRec (filter keep rs))))
  /\ (forall g ts, clean_call (OpByTypes g ts) -> exists rs, ldb_step c m (OpByTypes g ts) = (m, OutResults (map RRec rs))
     /\ ldb_step c m' (OpByTypes g ts) = (m', OutResults (map RRec (filter keep rs))))
  /\ (forall k s', clean s' -> s' <> s -> snd (ldb_step c m' (OpByStream k s')) = snd (ldb_step c m (OpByStream k s'))
     /\ snd (ldb_step c m' (OpTotal s' None)) = snd (ldb_step c m (OpTotal s' None)))
  /\ (forall k, ldb_step c m' (OpByStream k s) = (m', OutResults [RErr EStreamNotFound]))
  /\ ldb_step c m' (OpTotal s None) = (m', OutTotal 0)
  /\ (forall evs, evs <> [] -> one_aggregate evs -> encodable c s evs -> Forall (fun e => clean (ev_atype e)) evs ->
        events_in ops + N.of_nat (length evs) < two64 ->
        exists m'' recs, ldb_step c m' (OpSave (Some 0) s evs None) = (m'', OutSaved (N.of_nat (length evs)) recs)
          /\ map r_ssn recs = one_to (length evs)).
Proof.
  intros c ops n s cn m' Hc Hcl Hs Hr Hsm E m keep.
  destruct (after_D c ops Hc Hcl Hsm) as (L & HD & Hl). pose proof (after_quiet c ops Hr) as Hq.
  fold m in HD, Hq, E. pose proof (quiet_eq _ Hq) as Em. set (d := h_db (s_h m)) in *.
  assert (Hadd : l_last L + added (OpDelete n s cn) < two64) by (cbn; lia).
  destruct (step_ok c Hc d L (OpDelete n s cn) HD Hs Hadd) as [(d' & E1 & HD')|(H & _ & E1)].
  2:{ rewrite Em, E1 in E. apply (f_equal snd) in E. cbn [snd] in E. rewrite E in H. destruct H. }
  rewrite Em, E1 in E. pose proof (f_equal fst E) as Em'. pose proof (f_equal snd E) as Ex. cbn [fst snd] in Em', Ex. clear E.
  assert (HL : fst (log_exec c L (OpDelete n s cn)) = remove_stream s L).
  { unfold log_exec in *. destruct (delete_refused L n s cn); [discriminate|reflexivity]. }
  rewrite HL in HD'. clear Ex E1. rewrite Em, <- Em'. clear Em Em' m' Hq. clearbody d. clear m.
  assert (Hos : of_stream s (remove_stream s L) = []).
  { unfold of_stream. cbn. rewrite filter_filter. apply filter_none. intros r _. unfold in_stream.
    destruct (String.eqb (r_stream r) s); reflexivity. }
  assert (Hot : forall s', s' <> s -> of_stream s' (remove_stream s L) = of_stream s' L).
  { intros s' Hne. unfold of_stream. cbn. rewrite filter_filter. apply filter_ext_in. intros r _. unfold in_stream.
    destruct (String.eqb_spec (r_stream r) s'); [|apply Bool.andb_false_r].
    destruct (String.eqb_spec (r_stream r) s); [congruence|reflexivity]. }
  assert (Hz : stream_length s (remove_stream s L) = 0) by (unfold stream_length; now rewrite Hos).
  repeat apply conj.
  - intros g Hg. exists (log_events g L). split; [eapply quiet_read; eauto; reflexivity|].
    eapply quiet_read; [auto|exact HD'|exact Hg|]. cbn. unfold log_events. cbn. rewrite !filter_filter.
    do 3 f_equal. apply filter_ext. intros r. apply andb_comm.
  - intros g ts Ht. exists (log_by_types g ts L). split; [eapply quiet_read; eauto; reflexivity|].
    eapply quiet_read; [auto|exact HD'|exact Ht|]. cbn. unfold log_by_types. cbn. rewrite !filter_filter.
    do 3 f_equal. apply filter_ext. intros r. apply andb_comm.
  - intros k s' Hs' Hne. erewrite !quiet_read; eauto; try reflexivity; cbn [snd]. unfold stream_length, log_by_stream.
    rewrite Hot by auto. split; reflexivity.
  - intros k. eapply quiet_read; eauto. cbn. now rewrite Hz.
  - eapply quiet_read; eauto. cbn. now rewrite Hz.
  - intros evs Hne Hone Henc Hct Hsm'. destruct evs as [|e0 evs]; [congruence|].
    assert (Hcs : clean_call (OpSave (Some 0) s (e0 :: evs) None)).
    { split; [auto|]. split; [auto|]. split; intros He e He'; destruct (Hone e e0 He' (or_introl eq_refl)); congruence. }
    assert (Hadd' : l_last (remove_stream s L) + added (OpSave (Some 0) s (e0 :: evs) None) < two64).
    { cbn [l_last remove_stream added]. lia. }
    destruct (step_ok c Hc d' _ _ HD' Hcs Hadd') as [(d'' & E1 & _)|(H & _)]; [|destruct H].
    assert (Eref : save_refused c (remove_stream s L) (Some 0) s (e0 :: evs) None = None).
    { unfold save_refused. cbn [done_at]. rewrite Hz, N.eqb_refl. apply encodable_accepted; auto. now apply one_aggregate_forall. }
    unfold log_exec in E1. rewrite Eref, Hz in E1. cbn [fst snd] in E1.
    eexists _, _. split; [exact E1|]. unfold appended. rewrite Hz, (ssn_from_numbers _ 0).
    + rewrite records_from_length. unfold one_to. apply map_ext. intros. lia.
    + apply records_from_ssn.
Qed.
Print Assumptions C11_leveldb_delete_exact.

Example C11_leveldb_witness : snd (ldb_step toy (ldb_after toy [OpSave None "thing!x" [thing "a"; thing "b"] None; OpSave None "other!y" [other "c"] None])
   (OpDelete 2 "thing!x" None)) = OutDeleted.
Proof. vm_compute. reflexivity. Qed.

(** C12: which answer a delete gives, and that a refused one changes no data. *)
Theorem C12_leveldb_delete_answer : forall c ops n s k, codec_ok c -> Forall clean_call ops -> clean s ->
  no_refused_delete ops (ldb_outs c ops) -> events_in ops < two64 ->
  let m := ldb_after c ops in
  ldb_step c m (OpTotal s None) = (m, OutTotal k) ->
  snd (ldb_step c m (OpDelete n s None)) =
    (if k =? 0 then OutFailed EStreamNotFound else if n =? k then OutDeleted else OutFailed (EUnexpectedSeq n k)).
Proof.
  intros c ops n s k Hc Hcl Hs Hr Hsm m Hk.
  destruct (after_D c ops Hc Hcl Hsm) as (L & HD & Hl). pose proof (after_quiet c ops Hr) as Hq.
  fold m in HD, Hq. pose proof (quiet_eq _ Hq) as Em. set (d := h_db (s_h m)) in *.
  rewrite Em in Hk. rewrite (quiet_read c d L (OpTotal s None) (OutTotal (stream_length s L)) Hc HD Hs eq_refl) in Hk.
  injection Hk as <-.
  assert (Hadd : l_last L + added (OpDelete n s None) < two64) by (cbn; lia).
  assert (Ea : snd (ldb_step c m (OpDelete n s None)) = snd (log_exec c L (OpDelete n s None))).
  { rewrite Em. destruct (step_ok c Hc d L (OpDelete n s None) HD Hs Hadd) as [(d' & -> & _)|(_ & _ & ->)]; reflexivity. }
  rewrite Ea. unfold log_exec, delete_refused. cbn [done_at].
  destruct (stream_length s L =? 0); [reflexivity|]. destruct (n =? stream_length s L); reflexivity.
Qed.
Print Assumptions C12_leveldb_delete_answer.

Theorem C12_leveldb_rejected_delete_keeps_data : forall c st n s cn e,
  snd (ldb_step c st (OpDelete n s cn)) = OutFailed e ->
  let st' := fst (ldb_step c st (OpDelete n s cn)) in
  ldb_reopen st' = ldb_reopen st
  /\ forall o, match o with OpSave _ _ _ _ | OpDelete _ _ _ => False | _ => True end ->
     snd (ldb_step c st' o) = snd (ldb_step c st o).
Proof.
  intros c st n s cn e E st'.
  assert (Ed : h_db (s_h st') = h_db (s_h st)). { apply failed_same. now rewrite E. }
  split; [unfold ldb_reopen; now rewrite Ed|]. intros o Ho0.
  assert (Ho : opens_transaction o = false) by (destruct o; [contradiction|contradiction|reflexivity|reflexivity|reflexivity|reflexivity]).
  assert (Es : s_stuck st' = s_stuck st).
  { unfold st'. revert E. unfold ldb_step. destruct (early _); [reflexivity|]. destruct (s_stuck st && _) eqn:E1; [discriminate|].
    destruct (opens_transaction _ && _); [discriminate|]. destruct (ldb_call c _ _). reflexivity. }
  unfold ldb_step. rewrite Ho, Ed, Es. cbn [andb]. destruct (early o); [reflexivity|].
  destruct (s_stuck st && takes_mux o); [reflexivity|]. destruct (ldb_call c (h_db (s_h st)) o). reflexivity.
Qed.
Print Assumptions C12_leveldb_rejected_delete_keeps_data.

Example C12_leveldb_witness : snd (ldb_step toy (ldb_after toy [OpSave (Some 3) "thing!x" [thing "a"] None]) (OpDelete 0 "thing!x" None))
  = OutFailed EStreamNotFound.
Proof. vm_compute. reflexivity. Qed.

(** * C19 *)

Lemma log_step_exec c L o x L' : log_step c L o x L' -> x = snd (log_exec c L o).
Proof.
  intros H. inversion H; subst; unfold log_exec; try (now rewrite H0); try (now rewrite H1).
  destruct o; cbn in H0; try discriminate; cbn; congruence.
Qed.

Lemma log_after_exec c L o x L' : log_step c L o x L' -> x <> OutFailed ESerialize ->
  log_after L o x = fst (log_exec c L o).
Proof.
  intros H Hx. inversion H; subst; unfold log_exec; cbn [log_after]; try now rewrite H0.
  - rewrite H0. cbn [fst]. destruct L. unfold burnt. destruct e; try reflexivity. congruence.
  - destruct o; cbn in H0; try discriminate; cbn; injection H0 as <-; try reflexivity.
Qed.

(** C19 (guarded): same answers, as long as no delete is refused and nothing failed
    to encode. *)
Theorem C19_stores_interchangeable_partial : forall c ops, codec_ok c ->
  Forall (plain_call c) ops -> Forall clean_call ops -> events_in ops < two64 ->
  no_refused_delete ops (ldb_outs c ops) -> ~ In (OutFailed ESerialize) (ldb_outs c ops) ->
  mem_outs c ops = ldb_outs c ops.
Proof.
  intros c ops Hc Hp Hcl Hsm Hr Hse. pose proof (C16_leveldb_answers_as_log_partial c ops Hc Hcl Hsm Hr) as E.
  rewrite E in *. clear E. unfold mem_outs. pose proof (R_init c) as HR. revert HR Hr Hse. generalize mem_init, empty_log. clear Hcl Hsm.
  induction ops as [|o ops IH]; intros m L HR; cbn [run]; auto.
  inversion Hp; subst. destruct (InMemoryProofs.step_ok c Hc m L o HR H1) as (x & S1 & S2 & S3).
  pose proof (log_step_exec _ _ _ _ _ S1) as Ex. pose proof (log_after_exec _ _ _ _ _ S1) as El.
  destruct (log_exec c L o) as [L1 y]. cbn [fst snd] in *. subst y.
  destruct (mem_step c m o) as [m1 z]. cbn [fst snd] in *.
  specialize (IH H2 m1 L1). destruct (run (log_exec c) L1 ops) as [L2 xs]. destruct (run (mem_step c) m1 ops) as [m2 zs].
  cbn [fst snd no_refused_delete In] in *. intros [Hn Hr] Hse.
  assert (Hxs : x <> OutFailed ESerialize) by tauto. rewrite (El Hxs) in S3.
  rewrite IH by tauto. f_equal. destruct S2 as [->|S2]; auto.
  exfalso. unfold agrees in S2. destruct o; try contradiction. destruct x as [|e| | | | |]; try contradiction. destruct e; try contradiction. apply Hn. cbn. discriminate.
Qed.
Print Assumptions C19_stores_interchangeable_partial.

Example C19_witness :
  let ops := [ OpSave None "thing!x" [thing "a"; thing "b"] None; OpSave (Some 0) "other!y" [other "c"] None;
               OpSave (Some 5) "thing!x" [thing "d"] None; OpDelete 2 "thing!x" None; OpEvents 0 ] in
  Forall (plain_call toy) ops /\ Forall clean_call ops /\ no_refused_delete ops (ldb_outs toy ops)
  /\ ~ In (OutFailed ESerialize) (ldb_outs toy ops).
Proof.
  assert (A : clean "thing!x") by (apply (clean_by_check _ 7); vm_compute; auto).
  assert (B : clean "other!y") by (apply (clean_by_check _ 7); vm_compute; auto).
  assert (C : clean "thing") by (apply (clean_by_check _ 5); vm_compute; auto).
  assert (E : clean "other") by (apply (clean_by_check _ 5); vm_compute; auto).
  assert (S : forall ex s evs, one_aggregate evs -> plain_call toy (OpSave ex s evs None)).
  { intros ex s evs H. split; [exact H|]. split; [now left|]. left. exact toy_total. }
  split; [|split; [|split]].
  - repeat apply Forall_cons; try (apply S; intros e e' He He'; cbn in *; intuition (subst; auto)); try exact I. constructor.
  - repeat apply Forall_cons; try apply Forall_nil; cbn; repeat split; auto;
    try (repeat apply Forall_cons; auto; fail); try discriminate.
  - vm_compute. tauto.
  - vm_compute. intuition discriminate.
Qed.

(** C19 is false in general: deleting a stream whose only save failed, and reading
    after a batch of two aggregates. *)
Theorem C19_delete_differs_refuted :
  let ops := [OpSave (Some 3) "thing!x" [thing "a"] None; OpDelete 0 "thing!x" None] in
  mem_outs toy ops = [OutFailed (EUnexpectedSeq 3 0); OutDeleted]
  /\ ldb_outs toy ops = [OutFailed (EUnexpectedSeq 3 0); OutFailed EStreamNotFound].
Proof. split; vm_compute; reflexivity. Qed.
Print Assumptions C19_delete_differs_refuted.
Theorem C19_mixed_batch_differs_refuted : exists r,
  let ops := [OpSave None "s" [thing "a"; other "b"] None; OpEvents 0] in
  mem_outs toy ops = [OutFailed EUnmatchedType; OutResults [RRec r]]
  /\ ldb_outs toy ops = [OutFailed EUnmatchedType; OutResults []].
Proof. eexists. split; vm_compute; reflexivity. Qed.
Print Assumptions C19_mixed_batch_differs_refuted.

(** C13 for LevelDB. *)
Theorem C13_leveldb_views_agree : forall c ops, codec_ok c -> Forall clean_call ops -> events_in ops < two64 ->
  no_refused_delete ops (ldb_outs c ops) ->
  let m := ldb_after c ops in
  exists all : list record,
  (forall g, g < two64 -> exists before from, all = before ++ from
     /\ ldb_step c m (OpEvents g) = (m, OutResults (map RRec from))
     /\ (forall r, In r before -> r_gsn r < g) /\ (forall r, In r from -> g <= r_gsn r))
  /\ (forall g types, clean_call (OpByTypes g types) -> exists before from,
     filter (fun r => memb (r_atype r) types) all = before ++ from
     /\ ldb_step c m (OpByTypes g types) = (m, OutResults (map RRec from))
     /\ (forall r, In r before -> r_gsn r < g) /\ (forall r, In r from -> g <= r_gsn r))
  /\ (forall k s, clean s -> exists before from,
     filter (fun r => String.eqb (r_stream r) s) all = before ++ from
     /\ ldb_step c m (OpByStream k s) = (m, OutResults (match before, from with [], [] => [RErr EStreamNotFound] | _, _ => map RRec from end))
     /\ (forall r, In r before -> r_ssn r < k) /\ (forall r, In r from -> k <= r_ssn r))
  (* numbering: increasing over all, 1..n in each stream *)
  /\ gsn_increasing all
  /\ (forall s, clean s -> let rs := filter (fun r => String.eqb (r_stream r) s) all in
        map r_ssn rs = one_to (length rs) /\ ldb_step c m (OpTotal s None) = (m, OutTotal (N.of_nat (length rs)))).
Proof.
  intros c ops Hc Hcl Hsm Hr m.
  destruct (after_D c ops Hc Hcl Hsm) as (L & HD & Hl). pose proof (after_quiet c ops Hr) as Hq.
  fold m in HD, Hq. rewrite (quiet_eq _ Hq). set (d := h_db (s_h m)) in *.
  pose proof (D_ok _ _ _ HD) as (Hi & _ & Hss). exists (l_recs L). repeat apply conj.
  - intros g Hg. destruct (suffix_from r_gsn (l_recs L) g Hi) as (pre & E & Hp).
    exists pre, (log_events g L). split; [exact E|].
    split; [eapply quiet_read; eauto; reflexivity|]. split; [exact Hp|]. intros r Hin. apply filter_In in Hin. apply N.leb_le. tauto.
  - intros g ts Hts. destruct (suffix_from r_gsn (filter (fun r => memb (r_atype r) ts) (l_recs L)) g) as (pre & E & Hp).
    { apply incr_filter, Hi. }
    exists pre, (log_by_types g ts L). split.
    { rewrite E at 1. f_equal. rewrite filter_filter. apply filter_ext. intros r. apply Bool.andb_comm. }
    split; [eapply quiet_read; eauto; reflexivity|]. split; [exact Hp|]. intros r Hin. apply filter_In in Hin. apply N.leb_le.
    destruct Hin as [_ Hin]. apply Bool.andb_true_iff in Hin. tauto.
  - intros k s Hs. destruct (ssn_sorted _ 0 (Hss s)) as [Hso _].
    destruct (suffix_from r_ssn (of_stream s L) k Hso) as (pre & E & Hp).
    exists pre, (log_by_stream k s L). split; [exact E|].
    split; [|split; [exact Hp|intros r Hin; apply filter_In in Hin; apply N.leb_le; tauto]].
    eapply quiet_read; eauto. cbn. do 2 f_equal. fold (log_by_stream k s L) in E.
    unfold stream_length. destruct pre as [|p pre].
    + cbn in E. destruct (log_by_stream k s L) eqn:Ef; rewrite E; [reflexivity|].
      cbn [length]. destruct (N.eqb_spec (N.of_nat (S (length l))) 0); [lia|]. reflexivity.
    + rewrite E at 1. cbn [app length]. destruct (N.eqb_spec (N.of_nat (S (length (pre ++ log_by_stream k s L)))) 0); [lia|reflexivity].
  - exact Hi.
  - intros s Hs rs. split.
    + unfold rs. change (filter (fun r => String.eqb (r_stream r) s) (l_recs L)) with (of_stream s L).
      rewrite (ssn_from_numbers _ 0) by apply Hss. unfold one_to. apply map_ext. intros. lia.
    + eapply quiet_read; eauto.
Qed.
Print Assumptions C13_leveldb_views_agree.

Example C13_leveldb_witness :
  codec_ok toy /\ Forall clean_call (firstn 6 ldb_demo) /\ events_in (firstn 6 ldb_demo) < two64
  /\ no_refused_delete (firstn 6 ldb_demo) (ldb_outs toy (firstn 6 ldb_demo))
  /\ exists a b c d e,
       snd (ldb_step toy (ldb_after toy (firstn 6 ldb_demo)) (OpEvents 0)) = OutResults (map RRec [a; b; c; d; e])
       /\ snd (ldb_step toy (ldb_after toy (firstn 6 ldb_demo)) (OpByTypes 0 ["other"])) = OutResults [RRec c]
       /\ snd (ldb_step toy (ldb_after toy (firstn 6 ldb_demo)) (OpByStream 2 "thing!x")) = OutResults [RRec b; RRec d; RRec e].
Proof.
  split; [exact toy_ok|]. split; [apply Forall_forall; intros o Ho; destruct C16_witness_clean as [H _]; rewrite Forall_forall in H; apply H; rewrite <- (firstn_skipn 6 ldb_demo); apply in_or_app; now left|]. split; [vm_compute; reflexivity|]. split; [vm_compute; repeat split; auto|].
  eexists. eexists. eexists. eexists. eexists. split; [vm_compute; reflexivity|]. split; vm_compute; reflexivity.
Qed.
