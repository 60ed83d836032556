(** Property theorems about the root package (C01-C05, C56). *)
From Verif Require Import Base Core CoreSpec CoreProofs.

Definition ex_rec (g : N) (t : string) : record := mk_record (t ++ "!x")%string t "x" g 1 0 "id" "E" "d" "m".

(** C01: the consumer loop sees exactly the records before the first error, in
    order; afterwards Err() is that error (nil on plain close) and every further
    Next() is false with Err() unchanged. *)
Theorem C01_iterator_exact : forall (l : list result) (fuel : nat), (length l < fuel)%nat ->
  exists it, consume fuel (new_iter l) = Some (before_error l, it)
    /\ it_err it = first_error l
    /\ forall n, snd (next (nexts n it)) = false /\ it_err (nexts n it) = first_error l.
Proof.
  intros l fuel H. destruct (consume_spec l fuel None H) as (it & E & He & Hr & Hc).
  exists it. split; [exact E|]. split; [exact He|].
  intros n. rewrite <- He. apply nexts_after_end.
  destruct (first_error l); [left; congruence|right; auto].
Qed.
Print Assumptions C01_iterator_exact.

Example C01_witness :
  consume 4 (new_iter [RRec (ex_rec 1 "a"); RErr ERecordMissing; RRec (ex_rec 2 "a")])
  = Some ([ex_rec 1 "a"], mk_iter [RRec (ex_rec 2 "a")] None (Some ERecordMissing)).
Proof. reflexivity. Qed.

(** C01, NewRecordIteratorWithError: no record, that error. *)
Theorem C01_iterator_with_error : forall e fuel, (1 < fuel)%nat ->
  exists it, consume fuel (iter_with_error e) = Some ([], it) /\ it_err it = Some e.
Proof.
  intros e fuel H. destruct (C01_iterator_exact [RErr e] fuel H) as (it & E & He & _). eauto.
Qed.
Print Assumptions C01_iterator_with_error.

(** C01, NextContext: while the context is not done it is Next; once a done context
    is noticed the iterator yields nothing more and keeps a cancellation error. *)
Theorem C01_next_context : forall it chan_first,
  next_context false chan_first it = next it
  /\ (it_err it = None -> forall n,
        snd (next_context true false it) = false
        /\ it_err (nexts n (fst (next_context true false it))) = Some ECanceled
        /\ snd (next (nexts n (fst (next_context true false it)))) = false).
Proof.
  intros it cf. split.
  - unfold next_context, next. destruct (it_err it); reflexivity.
  - intros He n. unfold next_context. rewrite He. cbn [andb negb fst snd].
    split; [reflexivity|]. destruct (nexts_after_end n (mk_iter (it_chan it) None (Some ECanceled))) as [A B].
    + left. discriminate.
    + split; assumption.
Qed.
Print Assumptions C01_next_context.

(** C02: merging sources that are each increasing and share no number delivers the
    union of their records, once each, in increasing order, with no error. *)
Theorem C02_merge_exact : forall sources : list (list record),
  Forall gsn_increasing sources -> NoDup (map r_gsn (concat sources)) ->
  exists rs, merge_results (map (fun l => new_iter (map RRec l)) sources) = Some (map RRec rs)
    /\ gsn_increasing rs /\ Permutation rs (concat sources).
Proof.
  assert (BE : forall l, before_error (map RRec l) = l) by (induction l; cbn; congruence).
  intros sources Hs Hnd.
  assert (D : delivered_by (map (fun l => new_iter (map RRec l)) sources) = concat sources).
  { unfold delivered_by. clear. induction sources as [|l ls IH]; cbn; auto.
    rewrite IH. f_equal. induction l; cbn; congruence. }
  destruct (merge_ok (map (fun l => new_iter (map RRec l)) sources)) as (rs & E & H1 & H2).
  - apply Forall_map. eapply Forall_impl; [|exact Hs]. cbn. intros l Hl. rewrite BE. auto.
  - now rewrite D.
  - rewrite D in H2. eauto.
Qed.
Print Assumptions C02_merge_exact.

Example C02_witness :
  merge_results (map (fun l => new_iter (map RRec l))
    [[ex_rec 1 "a"; ex_rec 2 "a"; ex_rec 7 "a"]; [ex_rec 3 "b"; ex_rec 5 "b"]; []; [ex_rec 4 "c"]])
  = Some (map RRec [ex_rec 1 "a"; ex_rec 2 "a"; ex_rec 3 "b"; ex_rec 4 "c"; ex_rec 5 "b"; ex_rec 7 "a"]).
Proof. reflexivity. Qed.

(** C02, why the sources must be disjoint: EventsByAggregateTypes(0, "a", "a")
    makes two identical sources, and the result then repeats records and is out of
    order. *)
Theorem C02_merge_same_type_twice_refuted : exists l : list record,
  gsn_increasing l /\
  exists rs, merge_results [new_iter (map RRec l); new_iter (map RRec l)] = Some (map RRec rs)
    /\ ~ Sorted (fun a b => r_gsn a <= r_gsn b) rs.
Proof.
  exists [ex_rec 1 "a"; ex_rec 2 "a"]. split.
  - unfold gsn_increasing. repeat constructor.
  - exists [ex_rec 1 "a"; ex_rec 2 "a"; ex_rec 1 "a"; ex_rec 2 "a"]. split; [reflexivity|].
    intros H. inversion H as [|? ? H1 _]; subst. inversion H1 as [|? ? _ H2]; subst.
    inversion H2 as [|? ? H3]; subst. cbn in H3. lia.
Qed.
Print Assumptions C02_merge_same_type_twice_refuted.

(** C03 (what actually happens): whatever the sources end with, the merged iterator
    delivers the records each source published before its first error, in order. *)
Theorem C03_merge_with_errors_partial : forall sources : list (list result),
  Forall (fun l => gsn_increasing (before_error l)) sources ->
  NoDup (map r_gsn (flat_map before_error sources)) ->
  exists rs, merge_results (map new_iter sources) = Some (map RRec rs)
    /\ gsn_increasing rs /\ Permutation rs (flat_map before_error sources).
Proof.
  intros sources Hs Hnd.
  assert (D : delivered_by (map new_iter sources) = flat_map before_error sources).
  { unfold delivered_by. clear. induction sources as [|l ls IH]; cbn; congruence. }
  destruct (merge_ok (map new_iter sources)) as (rs & E & H1 & H2).
  - apply Forall_map. eapply Forall_impl; [|exact Hs]. cbn. auto.
  - now rewrite D.
  - rewrite D in H2. eauto.
Qed.
Print Assumptions C03_merge_with_errors_partial.

(** C03 is false for every input: the merged iterator never carries an error, so a
    failing source is indistinguishable from one that ended. *)
Theorem C03_merge_never_reports_an_error_refuted : forall its l,
  merge_results its = Some l -> first_error l = None.
Proof.
  intros its l H. unfold merge_results in H.
  destruct (merge_loop _ _ _) as [rs|]; [|discriminate]. injection H as <-.
  induction rs; cbn; auto.
Qed.
Print Assumptions C03_merge_never_reports_an_error_refuted.

Example C03_witness_error_lost :
  merge_results [new_iter [RRec (ex_rec 1 "a"); RErr EDeserialize]; new_iter [RRec (ex_rec 2 "b")]]
  = merge_results [new_iter [RRec (ex_rec 1 "a")]; new_iter [RRec (ex_rec 2 "b")]]
  /\ merge_results [new_iter [RRec (ex_rec 1 "a"); RErr EDeserialize]; new_iter [RRec (ex_rec 2 "b")]] <> None.
Proof. split; [reflexivity|discriminate]. Qed.

(** C04: the round trip holds exactly for names without the separator. *)
Theorem C04_parse_get_iff : forall t i,
  parse_stream (get_stream t i) = Some (t, i) <-> no_char "!" t /\ no_char "!" i.
Proof. exact parse_get_iff. Qed.
Print Assumptions C04_parse_get_iff.

Example C04_witness : parse_stream (get_stream "thing" "a7") = Some ("thing", "a7")
  /\ no_char "!" "thing" /\ no_char "!" "a7".
Proof. split; [reflexivity|]. cbn. repeat split; discriminate. Qed.

Theorem C04_get_stream_injective : forall t i t' i', no_char "!" t -> no_char "!" t' ->
  get_stream t i = get_stream t' i' -> t = t' /\ i = i'.
Proof. exact get_stream_inj. Qed.
Print Assumptions C04_get_stream_injective.

(** ParseStream panics exactly on names without separator. *)
Theorem C04_parse_panics_iff : forall s, parse_stream s = None <-> no_char "!" s.
Proof. exact parse_panics_iff. Qed.
Print Assumptions C04_parse_panics_iff.

Theorem C04_round_trip_refuted : exists t i t' i',
  parse_stream (get_stream t i) <> Some (t, i) /\ (t, i) <> (t', i') /\ get_stream t i = get_stream t' i'.
Proof. exists "a", "b!c", "a!b", "c". repeat split; discriminate. Qed.
Print Assumptions C04_round_trip_refuted.

Theorem C04_parse_never_panics_refuted : exists s, parse_stream s = None.
Proof. exists "custom-stream". reflexivity. Qed.
Print Assumptions C04_parse_never_panics_refuted.

(** C05: the first min(n, available) records, and the iterator is left exhausted. *)
Theorem C05_read_n_records : forall n l, exists it,
  read_n_records n (new_iter l) = Some (firstn (N.to_nat n) (before_error l), it)
  /\ snd (next it) = false.
Proof. exact read_n_ok. Qed.
Print Assumptions C05_read_n_records.

Example C05_witness : exists it,
  read_n_records 2 (new_iter (map RRec [ex_rec 1 "a"; ex_rec 2 "a"; ex_rec 3 "a"]))
  = Some ([ex_rec 1 "a"; ex_rec 2 "a"], it).
Proof. eexists. reflexivity. Qed.

(** C56: if the context is done from the k-th publication on, exactly the first k
    records reach the channel, followed by one cancellation error (dropped if the
    consumer is gone); if there are at most k records the result is complete. *)
Theorem C56_cancel_gives_prefix : forall k consumer rs,
  publish_all (Some k) consumer 0 rs =
  if Nat.leb (length rs) k then map RRec rs
  else map RRec (firstn k rs) ++ (if consumer then [RErr ECanceled] else []).
Proof. intros k consumer rs. exact (publish_all_exact consumer rs k 0). Qed.
Print Assumptions C56_cancel_gives_prefix.

(** C56: a context that is never done gives everything. *)
Theorem C56_no_cancel_gives_all : forall consumer rs, publish_all None consumer 0 rs = map RRec rs.
Proof. intros. apply publish_all_none. Qed.
Print Assumptions C56_no_cancel_gives_all.

Example C56_witness :
  publish_all (Some 1%nat) true 0 [ex_rec 1 "a"; ex_rec 2 "a"] = [RRec (ex_rec 1 "a"); RErr ECanceled].
Proof. reflexivity. Qed.
