(** The LevelDB store refines the log. *)
From Verif Require Import Base Core CoreSpec CoreProofs LogSpec LogProofs StoreSpec LevelDB LevelDBSpec LevelDBBytes.
From Coq Require Import Sorting.Sorted Arith.

(** * Numbers in a log *)

Lemma incr_length l : forall a b, gsn_increasing l -> a <= b -> (forall r, In r l -> a < r_gsn r <= b) ->
  a + N.of_nat (length l) <= b.
Proof.
  induction l as [|x l IH]; intros a b Hi Hab H; cbn [length]; [lia|].
  destruct (incr_cons_inv _ _ Hi) as [Hi' Hl]. pose proof (H x (or_introl eq_refl)).
  specialize (IH (r_gsn x) b Hi'). assert (r_gsn x + N.of_nat (length l) <= b); [|lia].
  apply IH; [lia|]. intros r Hr. split; [auto|]. apply H. now right.
Qed.
Lemma log_length L : log_ok L -> N.of_nat (length (l_recs L)) <= l_last L.
Proof. intros (Hi & Hb & _). pose proof (incr_length (l_recs L) 0 (l_last L) Hi). apply H; auto. lia. Qed.
Lemma filter_length_N {A} (f : A -> bool) l : (length (filter f l) <= length l)%nat.
Proof. induction l; cbn; auto. destruct (f a); cbn; lia. Qed.
Lemma stream_length_le L s : log_ok L -> stream_length s L <= l_last L.
Proof.
  intros H. pose proof (log_length L H). unfold stream_length, of_stream.
  pose proof (filter_length_N (in_stream s) (l_recs L)). lia.
Qed.
Lemma ssn_from_bound l : forall k r, ssn_from k l -> In r l -> k < r_ssn r <= k + N.of_nat (length l).
Proof.
  induction l as [|x l IH]; intros k r; cbn [ssn_from In length]; [tauto|].
  intros [E H] [<-|Hin]; [lia|]. specialize (IH _ _ H Hin). lia.
Qed.
Lemma in_of_stream L r : In r (l_recs L) -> In r (of_stream (r_stream r) L).
Proof. intros H. apply filter_In. split; auto. unfold in_stream. apply String.eqb_refl. Qed.
Lemma ssn_bound L r : log_ok L -> In r (l_recs L) -> r_ssn r <= stream_length (r_stream r) L.
Proof.
  intros (_ & _ & Hs) H. apply in_of_stream in H. pose proof (ssn_from_bound _ 0 r (Hs (r_stream r)) H).
  unfold stream_length. lia.
Qed.
Lemma same_gsn L r r' : log_ok L -> In r (l_recs L) -> In r' (l_recs L) -> r_gsn r = r_gsn r' -> r = r'.
Proof.
  intros (Hi & _ & _). revert Hi. generalize (l_recs L). clear L.
  induction l as [|x l IH]; intros Hi H H' E; [destruct H|].
  destruct (incr_cons_inv _ _ Hi) as [Hi' Hl]. destruct H as [<-|H], H' as [<-|H']; auto.
  - apply Hl in H'. lia.
  - apply Hl in H. lia.
Qed.

Section WithCodec.
Variable c : codec.
Hypothesis Hc : codec_ok c.

Definition enc (r : record) : string := match ser c r with Some d => d | None => EmptyString end.
Definition skey (r : record) : string := key_with_number (stream_prefix (r_stream r)) (r_ssn r).
Definition akey (r : record) : string := key_with_number (type_prefix (r_atype r)) (r_gsn r).
Definition lkey (r : record) : string := key_with_number all_prefix (r_gsn r).

Definition entry (L : log) (k v : string) : Prop :=
  (k = gsn_key /\ v = uint64_to_bytes (l_last L) /\ 0 < l_last L) \/
  exists r, In r (l_recs L) /\
    ((k = skey r /\ v = enc r) \/ (k = akey r /\ v = skey r) \/ (k = lkey r /\ v = skey r)).

Record D (d : db) (L : log) : Prop := {
  D_sorted : sorted d;
  D_entry  : forall k v, In (k, v) d <-> entry L k v;
  D_ok     : log_ok L;
  D_small  : l_last L < two64;
  D_clean  : forall r, In r (l_recs L) -> clean (r_stream r) /\ clean (r_atype r);
  D_ser    : forall r, In r (l_recs L) -> ser c r <> None
}.

Lemma D_init : D [] empty_log.
Proof.
  constructor; cbn; try tauto.
  - constructor.
  - intros k v. split; [tauto|]. intros [(_ & _ & H)|(r & [] & _)]. cbn in H. lia.
  - apply log_ok_empty.
  - reflexivity.
Qed.

(** Kinds of keys. *)
Lemma skey_akey r r' : skey r <> akey r'. Proof. discriminate. Qed.
Lemma skey_lkey r r' : skey r <> lkey r'. Proof. discriminate. Qed.
Lemma akey_lkey r r' : akey r <> lkey r'. Proof. discriminate. Qed.
Lemma skey_gsn r : skey r <> gsn_key. Proof. discriminate. Qed.
Lemma akey_gsn r : akey r <> gsn_key. Proof. discriminate. Qed.
Lemma lkey_gsn r : lkey r <> gsn_key. Proof. discriminate. Qed.

Lemma stream_prefix_inj s s' : stream_prefix s = stream_prefix s' -> s = s'.
Proof.
  unfold stream_prefix. cbn [append]. intros E. injection E as E. apply sapp_inv_tail in E; tauto.
Qed.

Lemma small_gsn L r : log_ok L -> l_last L < two64 -> In r (l_recs L) -> r_gsn r < two64.
Proof. intros (_ & H & _) Hs Hr. apply H in Hr. lia. Qed.
Lemma small_ssn L r : log_ok L -> l_last L < two64 -> In r (l_recs L) -> r_ssn r < two64.
Proof. intros H Hs Hr. apply (ssn_bound L r H) in Hr. pose proof (stream_length_le L (r_stream r) H). lia. Qed.

(** * Scans *)

(** A scan whose matching entries are those of the records [rs], in key order. *)
Lemma scan_is d L p (key val : record -> string) rs : D d L ->
  (forall k v, has_prefix p k = true /\ entry L k v <-> exists r, In r rs /\ k = key r /\ v = val r) ->
  StronglySorted (fun a b => blt (key a) (key b) = true) rs ->
  scan p d = map (fun r => (key r, val r)) rs.
Proof.
  intros HD He Hs. apply sorted_ext.
  - apply scan_sorted, HD.
  - clear He. induction Hs as [|a rs Hs IH Hf]; cbn; constructor; auto.
    apply Forall_map. eapply Forall_impl; [|exact Hf]. intros b Hb. exact Hb.
  - intros [k v]. rewrite scan_in, (D_entry _ _ HD), He, in_map_iff. split.
    + intros (r & Hr & -> & ->). eauto.
    + intros (r & E & Hr). injection E as <- <-. eauto.
Qed.

Lemma sorted_ssn l : forall k, ssn_from k l -> StronglySorted (fun a b => r_ssn a < r_ssn b) l.
Proof.
  induction l as [|x l IH]; intros k H; constructor.
  - destruct H as [_ H]. eauto.
  - destruct H as [E H]. apply Forall_forall. intros r Hr. pose proof (ssn_from_bound _ _ _ H Hr). lia.
Qed.
Lemma SS_in {A} (P Q : A -> A -> Prop) l : (forall a b, In a l -> In b l -> P a b -> Q a b) -> StronglySorted P l -> StronglySorted Q l.
Proof.
  intros H Hs. induction Hs as [|a l Hs IH Hf]; constructor.
  - apply IH. intros; apply H; cbn; auto.
  - rewrite Forall_forall in *. intros b Hb. apply H; cbn; auto.
Qed.

Lemma scan_stream d L s : D d L -> clean s ->
  scan (stream_prefix s) d = map (fun r => (skey r, enc r)) (of_stream s L).
Proof.
  intros HD Hs. pose proof (D_ok _ _ HD) as Hok. apply (scan_is d L); auto.
  - intros k v. split.
    + intros [Hp [(-> & _)|(r & Hr & [[-> ->]|[[-> _]|[-> _]]])]]; try discriminate Hp.
      exists r. split; auto. apply filter_In. split; auto. unfold in_stream. apply String.eqb_eq.
      symmetry. apply (stream_prefix_other s (r_stream r) (r_ssn r)); auto. apply (D_clean _ _ HD r Hr).
    + intros (r & Hr & -> & ->). apply filter_In in Hr. destruct Hr as [Hr E].
      apply String.eqb_eq in E. subst s. split; [apply stream_prefix_own|]. right. eauto 6.
  - eapply SS_in; [|apply (sorted_ssn _ 0), Hok]. intros a b Ha Hb Hlt.
    apply filter_In in Ha, Hb. destruct Ha as [Ha Ea], Hb as [Hb Eb].
    apply String.eqb_eq in Ea, Eb. unfold skey. rewrite Ea, Eb, key_order.
    + now apply N.ltb_lt.
    + eapply small_ssn; eauto using D_small.
    + eapply small_ssn; eauto using D_small.
Qed.

Lemma incr_SS l : gsn_increasing l -> StronglySorted (fun a b => r_gsn a < r_gsn b) l.
Proof.
  induction l as [|x l IH]; intros H; constructor.
  - apply IH. eapply incr_cons_inv; eauto.
  - apply Forall_forall. eapply incr_cons_inv; eauto.
Qed.

Lemma scan_type d L t : D d L -> clean t ->
  scan (type_prefix t) d = map (fun r => (akey r, skey r)) (of_type t L).
Proof.
  intros HD Ht. pose proof (D_ok _ _ HD) as Hok. apply (scan_is d L); auto.
  - intros k v. split.
    + intros [Hp [(-> & _)|(r & Hr & [[-> _]|[[-> ->]|[-> _]]])]]; try discriminate Hp.
      exists r. split; auto. apply filter_In. split; auto. apply String.eqb_eq.
      symmetry. apply (type_prefix_other t (r_atype r) (r_gsn r)); auto. apply (D_clean _ _ HD r Hr).
    + intros (r & Hr & -> & ->). apply filter_In in Hr. destruct Hr as [Hr E].
      apply String.eqb_eq in E. subst t. split; [apply has_prefix_app|]. right. eauto 8.
  - eapply SS_in; [|apply incr_SS, incr_filter, Hok]. intros a b Ha Hb Hlt.
    apply filter_In in Ha, Hb. destruct Ha as [Ha Ea], Hb as [Hb Eb].
    apply String.eqb_eq in Ea, Eb. unfold akey. rewrite Ea, Eb, key_order.
    + now apply N.ltb_lt.
    + eapply small_gsn; eauto using D_small.
    + eapply small_gsn; eauto using D_small.
Qed.

Lemma scan_all d L : D d L -> scan all_prefix d = map (fun r => (lkey r, skey r)) (l_recs L).
Proof.
  intros HD. pose proof (D_ok _ _ HD) as Hok. apply (scan_is d L); auto.
  - intros k v. split.
    + intros [Hp [(-> & _)|(r & Hr & [[-> _]|[[-> ->]|[-> ->]]])]]; try discriminate Hp. eauto.
    + intros (r & Hr & -> & ->). split; [apply has_prefix_app|]. right. eauto 8.
  - eapply SS_in; [|apply incr_SS, Hok]. intros a b Ha Hb Hlt. unfold lkey. rewrite key_order.
    + now apply N.ltb_lt.
    + eapply small_gsn; eauto using D_small.
    + eapply small_gsn; eauto using D_small.
Qed.

(** * Reads *)

Lemma enc_ok d L r : D d L -> In r (l_recs L) -> ser c r = Some (enc r) /\ deser c (enc r) = Some r.
Proof.
  intros HD Hr. pose proof (D_ser _ _ HD r Hr). unfold enc. destruct (ser c r) eqn:E; [|congruence].
  split; auto.
Qed.

Lemma ssn_last l : forall k x, ssn_from k (l ++ [x]) -> r_ssn x = k + N.of_nat (length (l ++ [x])).
Proof. intros k x H. apply ssn_from_app in H. destruct H as [_ [E _]]. rewrite app_length. cbn [length]. lia. Qed.

Lemma stream_number_ok d L s : D d L -> clean s -> stream_number_in d s = stream_length s L.
Proof.
  intros HD Hs. unfold stream_number_in, sequence_number. rewrite (scan_stream d L s HD Hs).
  pose proof (D_ok _ _ HD) as Hok. unfold stream_length.
  assert (Hin : forall r, In r (of_stream s L) -> r_stream r = s /\ r_ssn r < two64).
  { intros r Hr. apply filter_In in Hr. destruct Hr as [Hr E]. apply String.eqb_eq in E. split; auto.
    eapply small_ssn; eauto using D_small. }
  pose proof (proj2 (proj2 Hok) s) as Hssn. revert Hin Hssn.
  destruct (of_stream s L) as [|x l _] using rev_ind; [reflexivity|]. intros Hin Hssn.
  rewrite map_app, rev_app_distr. cbn [map rev app].
  destruct (Hin x ltac:(apply in_or_app; cbn; auto)) as [Ex Hx].
  unfold skey. rewrite Ex, key_longer, key_decode by auto. rewrite (ssn_last _ _ _ Hssn). lia.
Qed.

Lemma global_number_ok d L : D d L -> global_number_in d = l_last L.
Proof.
  intros HD. unfold global_number_in. destruct (N.eq_dec (l_last L) 0) as [E|E].
  - rewrite db_get_none; [auto|apply HD|]. intros v Hv. apply (D_entry _ _ HD) in Hv.
    destruct Hv as [(_ & _ & H)|(r & _ & [[H _]|[[H _]|[H _]]])]; [lia| | |]; discriminate H.
  - assert (H : In (gsn_key, uint64_to_bytes (l_last L)) d).
    { apply (D_entry _ _ HD). left. repeat split. lia. }
    apply (db_get_spec d) in H; [|apply HD]. rewrite H. apply u64_roundtrip, HD.
Qed.

Lemma lookup_loop d L g (key : record -> string) rs : D d L -> incl rs (l_recs L) ->
  by_lookup_loop c d g (map (fun r => (key r, skey r)) rs) = map RRec (filter (fun r => N.leb g (r_gsn r)) rs).
Proof.
  intros HD. induction rs as [|r rs IH]; intros Hi; cbn [map by_lookup_loop filter]; auto.
  assert (Hr : In r (l_recs L)) by (apply Hi; now left).
  assert (E : db_get (skey r) d = Some (enc r)).
  { apply db_get_spec; [apply HD|]. apply (D_entry _ _ HD). right. eauto 6. }
  rewrite E. destruct (enc_ok d L r HD Hr) as [_ ->]. rewrite IH by (intros x Hx; apply Hi; now right).
  rewrite N.ltb_antisym. destruct (g <=? r_gsn r); reflexivity.
Qed.

Lemma filter_map {A B} (f : A -> B) (p : B -> bool) l : filter p (map f l) = map f (filter (fun a => p (f a)) l).
Proof. induction l as [|a l IH]; cbn; auto. destruct (p (f a)); cbn; now rewrite IH. Qed.

(** Seeking only skips what the filter would drop. *)
Lemma lookup_ok d L p g (key : record -> string) rs : D d L -> incl rs (l_recs L) -> g < two64 ->
  scan p d = map (fun r => (key r, skey r)) rs ->
  (forall r, In r rs -> key r = key_with_number p (r_gsn r)) ->
  events_by_lookup c d p g = map RRec (filter (fun r => N.leb g (r_gsn r)) rs).
Proof.
  intros HD Hi Hg Hscan Hkey. unfold events_by_lookup. destruct (0 <? g).
  - rewrite seek_filter by apply scan_sorted, HD. rewrite Hscan, filter_map. cbn [fst].
    rewrite (lookup_loop d L g key).
    + rewrite filter_filter. f_equal. apply filter_ext_in. intros r Hr.
      rewrite (Hkey r Hr), key_order.
      * rewrite N.ltb_antisym, negb_involutive. destruct (g <=? r_gsn r); reflexivity.
      * eapply small_gsn; eauto using D_ok, D_small.
      * auto.
    + auto.
    + intros x Hx. apply filter_In in Hx. now apply Hi.
  - rewrite Hscan. now apply (lookup_loop d L).
Qed.

Lemma read_events d L g : D d L -> g < two64 -> events_by_lookup c d all_prefix g = map RRec (log_events g L).
Proof. intros HD Hg. apply (lookup_ok d L _ _ lkey); auto using scan_all, incl_refl. Qed.

Lemma read_type d L t g : D d L -> clean t -> g < two64 ->
  events_by_lookup c d (type_prefix t) g = map RRec (log_by_types g [t] L).
Proof.
  intros HD Ht Hg. rewrite (lookup_ok d L _ g akey (of_type t L)); auto using scan_type.
  - f_equal. unfold of_type, log_by_types. rewrite filter_filter. apply filter_ext. intros r. cbn.
    rewrite orb_false_r. apply andb_comm.
  - intros r Hr. now apply filter_In in Hr.
  - intros r Hr. apply filter_In in Hr. destruct Hr as [_ E]. apply String.eqb_eq in E. unfold akey. now rewrite E.
Qed.

Lemma read_types d L g ts : D d L -> Forall clean ts -> NoDup ts -> g < two64 ->
  ldb_by_types c d g ts = Some (map RRec (log_by_types g ts L)).
Proof.
  intros HD Ht Hnd Hg. rewrite Forall_forall in Ht.
  assert (E : merge_results (map (fun t => new_iter (events_by_lookup c d (type_prefix t) g)) ts)
              = Some (map RRec (log_by_types g ts L))).
  { apply merge_types; auto; [apply HD|]. intros t Hin. apply read_type; auto. }
  unfold ldb_by_types. destruct ts as [|t [|t' ts]]; try exact E.
  rewrite (read_type d L t g); auto. apply Ht. now left.
Qed.

Lemma read_stream d L k s : D d L -> clean s ->
  events_by_prefix c d (stream_prefix s) k =
  (if N.eqb (stream_length s L) 0 then [RErr EStreamNotFound] else map RRec (log_by_stream k s L)).
Proof.
  intros HD Hs. unfold events_by_prefix. rewrite (scan_stream d L s HD Hs).
  unfold stream_length, log_by_stream.
  assert (Hi : incl (of_stream s L) (l_recs L)) by (intros r Hr; now apply filter_In in Hr).
  assert (G : forall rs, incl rs (l_recs L) ->
    by_prefix_loop c k (map (fun r => (skey r, enc r)) rs) = map RRec (filter (fun r => N.leb k (r_ssn r)) rs)).
  { induction rs as [|r rs IH]; intros Hir; cbn [map by_prefix_loop filter]; auto.
    destruct (enc_ok d L r HD (Hir r (or_introl eq_refl))) as [_ ->].
    rewrite IH by (intros x Hx; apply Hir; now right).
    rewrite N.ltb_antisym. destruct (k <=? r_ssn r); reflexivity. }
  destruct (of_stream s L) as [|r rs] eqn:E; [reflexivity|].
  replace (N.of_nat (length (r :: rs)) =? 0) with false by (symmetry; apply N.eqb_neq; cbn; lia).
  rewrite <- G by auto. reflexivity.
Qed.

(** * Saving one event *)

Lemma entry_append L s e k v : let r := record_at s (l_last L + 1) (stream_length s L + 1) e in
  entry (append_log L s [e]) k v <->
  (k = gsn_key /\ v = uint64_to_bytes (l_last L + 1)) \/
  (k = skey r /\ v = enc r) \/ (k = akey r /\ v = skey r) \/ (k = lkey r /\ v = skey r) \/
  (k <> gsn_key /\ entry L k v).
Proof.
  intros r. unfold entry. cbn [append_log l_recs l_last appended records_from length]. fold r.
  change (N.of_nat 1) with 1. split.
  - intros [(-> & -> & _)|(x & Hx & H)]; auto.
    apply in_app_or in Hx. destruct Hx as [Hx|[<-|[]]].
    + right; right; right; right. split; [|eauto].
      destruct H as [[-> _]|[[-> _]|[-> _]]]; discriminate.
    + tauto.
  - intros [(-> & ->)|[H|[H|[H|(Hn & [H|(x & Hx & H)])]]]].
    + left. repeat split. lia.
    + right. exists r. split; [apply in_or_app; cbn; auto|auto].
    + right. exists r. split; [apply in_or_app; cbn; auto|auto].
    + right. exists r. split; [apply in_or_app; cbn; auto|auto].
    + tauto.
    + right. exists x. split; [apply in_or_app; auto|auto].
Qed.

Definition save_batch (r : record) (data : string) : list bop :=
  [BPut gsn_key (uint64_to_bytes (r_gsn r)); BPut (skey r) data; BPut (akey r) (skey r); BPut (lkey r) (skey r)].

Lemma D_save d L s e data : D d L -> clean s -> clean (ev_atype e) -> l_last L + 1 < two64 ->
  let r := record_at s (l_last L + 1) (stream_length s L + 1) e in
  ser c r = Some data -> D (apply_batch d (save_batch r data)) (append_log L s [e]).
Proof.
  intros HD Hs Ht Hsm r Hser. pose proof (D_ok _ _ HD) as Hok. pose proof (D_sorted _ _ HD) as Hso.
  assert (Henc : data = enc r) by (unfold enc; now rewrite Hser).
  assert (Hrs : r_ssn r < two64). { cbn. pose proof (stream_length_le L s Hok). lia. }
  constructor.
  - cbn. auto using db_put_sorted.
  - intros k v. unfold apply_batch, save_batch. cbn [fold_left apply_bop].
    rewrite !db_put_spec by auto using db_put_sorted. rewrite entry_append. fold r.
    rewrite (D_entry _ _ HD). subst data. cbn [r_gsn r record_at].
    assert (Old : entry L k v -> k <> gsn_key -> k <> skey r /\ k <> akey r /\ k <> lkey r).
    { intros [(-> & _)|(x & Hx & H)] Hn; [congruence|].
      assert (Gx : r_gsn x <> r_gsn r). { pose proof (proj1 (proj2 Hok) x Hx). cbn. lia. }
      assert (gx : r_gsn x < two64) by (eapply small_gsn; eauto using D_small).
      assert (sx : r_ssn x < two64) by (eapply small_ssn; eauto using D_small).
      destruct H as [[-> _]|[[-> _]|[-> _]]]; repeat split; try discriminate.
      - intros E. apply key_inj in E; auto. destruct E as [E1 E2]. apply stream_prefix_inj in E1.
        pose proof (ssn_bound L x Hok Hx) as Hb. rewrite E1 in Hb. cbn in Hb, E2. lia.
      - intros E. apply key_inj in E; auto. tauto.
      - intros E. apply key_inj in E; auto. tauto. }
    split.
    + intros [(-> & ->)|(H1 & [(-> & ->)|(H2 & [(-> & ->)|(H3 & [(-> & ->)|(H4 & H)])])])]; tauto.
    + intros [(-> & ->)|[(-> & ->)|[(-> & ->)|[(-> & ->)|(Hn & H)]]]].
      * repeat (right; split; [discriminate|]). left. auto.
      * right; split; [discriminate|]. right; split; [discriminate|]. left. auto.
      * right; split; [discriminate|]. left. auto.
      * left. auto.
      * destruct (Old H Hn) as (O1 & O2 & O3). tauto.
  - now apply log_ok_append.
  - cbn. lia.
  - intros x Hx. cbn in Hx. apply in_app_or in Hx. destruct Hx as [Hx|[<-|[]]]; [now apply (D_clean _ _ HD)|].
    cbn. auto.
  - intros x Hx. cbn in Hx. apply in_app_or in Hx. destruct Hx as [Hx|[<-|[]]]; [now apply (D_ser _ _ HD)|].
    fold r. congruence.
Qed.

Lemma save_event_ok d L s ex e : D d L -> clean s -> (ex = None \/ ex = Some (stream_length s L)) ->
  let r := record_at s (l_last L + 1) (stream_length s L + 1) e in
  ldb_save_event c d s ex e =
  match ser c r with
  | None => inl ESerialize
  | Some data => inr (save_batch r data, data, stream_length s L + 1)
  end.
Proof.
  intros HD Hs Hex r. unfold ldb_save_event. rewrite (stream_number_ok d L s HD Hs), (global_number_ok d L HD).
  replace (match ex with Some x => if x =? stream_length s L then None else Some (EUnexpectedSeq x (stream_length s L)) | None => None end)
    with (@None err) by (destruct Hex as [->| ->]; [reflexivity|now rewrite N.eqb_refl]).
  reflexivity.
Qed.

Lemma save_event_mismatch d L s x e : D d L -> clean s -> x <> stream_length s L ->
  ldb_save_event c d s (Some x) e = inl (EUnexpectedSeq x (stream_length s L)).
Proof.
  intros HD Hs Hx. unfold ldb_save_event. rewrite (stream_number_ok d L s HD Hs).
  apply N.eqb_neq in Hx. now rewrite Hx.
Qed.

(** * Whole batches *)

Lemma ldb_decoded_app ds1 ds2 : ldb_decoded c (ds1 ++ ds2) = ldb_decoded c ds1 ++ ldb_decoded c ds2.
Proof. induction ds1 as [|d ds1 IH]; cbn; auto. destruct (deser c d); cbn; now rewrite IH. Qed.

Lemma save_loop_ok s t i L evs : clean s -> log_ok L ->
  forall pre d d0 at_ ai ex cn n pending last,
  D d (append_log L s pre) ->
  Forall (fun e => clean (ev_atype e) /\ (t = "" -> ev_atype e = "") /\ (i = "" -> ev_aid e = "")) evs ->
  l_last L + N.of_nat (length (pre ++ evs)) < two64 ->
  ((at_ = t /\ ai = i) \/ (at_ = "" /\ ai = "" /\ exists e rest, evs = e :: rest /\ ev_atype e = t /\ ev_aid e = i)) ->
  (ex = None \/ ex = Some (stream_length s (append_log L s pre))) ->
  ldb_decoded c pending = appended L s pre ->
  (last = stream_length s L + N.of_nat (length pre) \/ evs <> []) ->
  match refusal c cn s t i (l_last L + N.of_nat (length pre)) (stream_length s L + N.of_nat (length pre)) n evs with
  | None => exists ms pending' d',
      ldb_save_loop c d s at_ ai ex cn n pending last evs
      = (ms, inr (stream_length s L + N.of_nat (length (pre ++ evs)), pending'))
      /\ exec_micros (mk_dbh d0 (Some d)) ms = mk_dbh d' None
      /\ D d' (append_log L s (pre ++ evs)) /\ ldb_decoded c pending' = appended L s (pre ++ evs)
  | Some er => exists ms,
      ldb_save_loop c d s at_ ai ex cn n pending last evs = (ms, inl er)
      /\ exec_micros (mk_dbh d0 (Some d)) ms = mk_dbh d0 None
  end.
Proof.
  intros Hs Hlog. induction evs as [|e evs IH]; intros pre d d0 at_ ai ex cn n pending last HD Hb Hsm Hat Hex Hpend Hlast.
  - cbn [refusal ldb_save_loop]. destruct Hlast as [->|]; [|congruence].
    rewrite app_nil_r. exists [MCommit], pending, d. cbn. auto.
  - inversion Hb as [|? ? (Hct & Ht & Hi) Hb']; subst.
    assert (Et : negb (String.eqb at_ "") && negb (String.eqb at_ (ev_atype e)) = negb (String.eqb (ev_atype e) t)).
    { destruct Hat as [[-> _]|(-> & _ & e' & r' & E & E1 & _)].
      - rewrite (String.eqb_sym (ev_atype e) t). destruct (String.eqb_spec t ""); [|reflexivity].
        rewrite Ht by auto. subst. reflexivity.
      - injection E as <- <-. rewrite E1. cbn. now rewrite String.eqb_refl. }
    assert (Ei : negb (String.eqb ai "") && negb (String.eqb ai (ev_aid e)) = negb (String.eqb (ev_aid e) i)).
    { destruct Hat as [[_ ->]|(_ & -> & e' & r' & E & _ & E1)].
      - rewrite (String.eqb_sym (ev_aid e) i). destruct (String.eqb_spec i ""); [|reflexivity].
        rewrite Hi by auto. subst. reflexivity.
      - injection E as <- <-. rewrite E1. cbn. now rewrite String.eqb_refl. }
    cbn [refusal ldb_save_loop]. rewrite Et, Ei.
    assert (Stop : forall er, exists ms, ([MDiscard], @inl err (N * list string) er) = (ms, inl er)
                   /\ exec_micros (mk_dbh d0 (Some d)) ms = mk_dbh d0 None) by (intros; eexists; split; reflexivity).
    destruct (String.eqb_spec (ev_atype e) t) as [Het|]; cbn [negb]; [|apply Stop].
    destruct (String.eqb_spec (ev_aid e) i) as [Hei|]; cbn [negb]; [|apply Stop].
    destruct (done_at cn n); [apply Stop|].
    assert (Elast : l_last L + N.of_nat (length pre) = l_last (append_log L s pre)) by reflexivity.
    assert (Elen : stream_length s L + N.of_nat (length pre) = stream_length s (append_log L s pre)) by now rewrite stream_length_append.
    rewrite Elast, Elen.
    rewrite (save_event_ok d _ s ex e HD Hs Hex).
    destruct (ser c (record_at s (l_last (append_log L s pre) + 1) (stream_length s (append_log L s pre) + 1) e)) as [data|] eqn:Eser;
      [|apply Stop]. clear Stop.
    assert (HD1 := D_save d _ s e data HD Hs Hct).
    assert (Hsm1 : l_last (append_log L s pre) + 1 < two64).
    { cbn. rewrite app_length in Hsm. cbn [length] in Hsm. lia. }
    specialize (HD1 Hsm1 Eser). rewrite append_append in HD1.
    set (bs := save_batch _ data) in *.
    specialize (IH (pre ++ [e]) _ d0 t i (match ex with Some x => Some (x + 1) | None => None end) cn (S n)
                    (pending ++ [data]) (stream_length s (append_log L s pre) + 1) HD1 Hb').
    assert (Eg : l_last (append_log L s pre) + 1 = l_last L + N.of_nat (length (pre ++ [e]))).
    { rewrite app_length. cbn. lia. }
    assert (Ek : stream_length s (append_log L s pre) + 1 = stream_length s L + N.of_nat (length (pre ++ [e]))).
    { rewrite stream_length_append, app_length. cbn [length]. lia. }
    rewrite Eg, Ek in *. rewrite Het, Hei.
    replace (pre ++ e :: evs) with ((pre ++ [e]) ++ evs) in * by now rewrite <- app_assoc.
    specialize (IH Hsm (or_introl (conj eq_refl eq_refl))).
    assert (A1 : match ex with Some x => Some (x + 1) | None => None end = None \/
                 match ex with Some x => Some (x + 1) | None => None end = Some (stream_length s (append_log L s (pre ++ [e])))).
    { destruct Hex as [->|Hex]; [left; reflexivity|right]. rewrite Hex. f_equal.
      rewrite <- append_append, (stream_length_append (append_log L s pre)). cbn [length]. lia. }
    assert (A2 : ldb_decoded c (pending ++ [data]) = appended L s (pre ++ [e])).
    { rewrite ldb_decoded_app, Hpend, appended_app. f_equal. cbn [ldb_decoded].
      rewrite (Hc _ _ Eser). rewrite <- Eg, <- Ek. reflexivity. }
    specialize (IH A1 A2 (or_introl eq_refl)).
    destruct (refusal c cn s t i _ _ (S n) evs) as [er|].
    + destruct IH as (ms & -> & E2). exists (MWrite bs :: ms). split; [reflexivity|].
      unfold exec_micros in *. cbn [fold_left exec_micro h_tx h_db]. exact E2.
    + destruct IH as (ms & p' & d' & -> & E2 & E3 & E4). exists (MWrite bs :: ms), p', d'.
      split; [reflexivity|]. split; [|auto]. unfold exec_micros in *. cbn [fold_left exec_micro h_tx h_db]. exact E2.
Qed.

(** A call on a database in the state of the log [L]. *)
Definition quiet (d : db) : dbh := mk_dbh d None.

Lemma call_save d L ex s evs cn : D d L -> clean_call (OpSave ex s evs cn) -> evs <> [] ->
  l_last L + N.of_nat (length evs) < two64 ->
  exists ms d', ldb_save c d ex s evs cn = (ms, snd (log_exec c L (OpSave ex s evs cn)))
    /\ exec_micros (quiet d) ms = quiet d' /\ D d' (fst (log_exec c L (OpSave ex s evs cn)))
    /\ (snd (log_exec c L (OpSave ex s evs cn)) <> OutFailed EMissingEvents).
Proof.
  intros HD (Hs & Hct & Hdef) Hne Hsm. destruct evs as [|e evs]; [congruence|]. unfold log_exec, save_refused, ldb_save.
  assert (Hfa : Forall (fun e' => clean (ev_atype e') /\ (ev_atype e = "" -> ev_atype e' = "") /\ (ev_aid e = "" -> ev_aid e' = "")) (e :: evs)).
  { rewrite Forall_forall in *. intros x Hx. destruct Hdef as [H1 H2]. repeat split; auto. }
  assert (Early : forall er ms, er <> EMissingEvents ->
    ldb_save_loop c d s "" "" ex cn 0 [] 0 (e :: evs) = (ms, inl er) -> exec_micros (mk_dbh d (Some d)) ms = quiet d ->
    exists ms0 d', (let '(ms1, x) := ldb_save_loop c d s "" "" ex cn 0 [] 0 (e :: evs) in
      (MOpen :: ms1, match x with inl e1 => OutFailed e1 | inr (last, pending) => OutSaved last (ldb_decoded c pending) end))
      = (ms0, OutFailed er)
    /\ exec_micros (quiet d) ms0 = quiet d' /\ D d' L /\ OutFailed er <> OutFailed EMissingEvents).
  { intros er ms Her -> E. exists (MOpen :: ms), d. split; [reflexivity|]. split; [exact E|]. split; [auto|congruence]. }
  destruct (done_at cn 0) eqn:Ed.
  { cbn [fst snd]. eapply Early; [discriminate| |].
    - cbn [ldb_save_loop]. cbn [String.eqb negb andb]. rewrite Ed. reflexivity.
    - reflexivity. }
  destruct (match ex with Some x => N.eqb x (stream_length s L) | None => true end) eqn:Ex.
  2:{ destruct ex as [x|]; [|discriminate]. rewrite Ex. cbn [fst snd]. apply N.eqb_neq in Ex.
      eapply Early; [discriminate| |].
      - cbn [ldb_save_loop]. cbn [String.eqb negb andb]. rewrite Ed.
        rewrite (save_event_mismatch d L s x e HD Hs Ex). reflexivity.
      - reflexivity. }
  assert (Hex : ex = None \/ ex = Some (stream_length s L)).
  { destruct ex as [x|]; auto. apply N.eqb_eq in Ex. subst. auto. }
  pose proof (save_loop_ok s (ev_atype e) (ev_aid e) L (e :: evs) Hs (D_ok _ _ HD) [] d d "" "" ex cn 0%nat [] 0) as G.
  rewrite append_nil in G. specialize (G HD Hfa). cbn [app length] in G. cbn [N.of_nat] in G. rewrite !N.add_0_r in G.
  specialize (G Hsm). 
  assert (G' := G (or_intror (conj eq_refl (conj eq_refl (ex_intro _ e (ex_intro _ evs (conj eq_refl (conj eq_refl eq_refl))))))) Hex eq_refl).
  clear G. assert (Hor : 0 = stream_length s L \/ e :: evs <> []) by (right; discriminate). specialize (G' Hor).
  assert (Eq : match ex with
     | Some x => if x =? stream_length s L then refusal c cn s (ev_atype e) (ev_aid e) (l_last L) (stream_length s L) 0 (e :: evs)
                 else Some (EUnexpectedSeq x (stream_length s L))
     | None => refusal c cn s (ev_atype e) (ev_aid e) (l_last L) (stream_length s L) 0 (e :: evs) end
     = refusal c cn s (ev_atype e) (ev_aid e) (l_last L) (stream_length s L) 0 (e :: evs)).
  { destruct ex; auto. now rewrite Ex. }
  rewrite Eq. destruct (refusal c cn s (ev_atype e) (ev_aid e) (l_last L) (stream_length s L) 0 (e :: evs)) as [er|] eqn:Er.
  - destruct G' as (ms & E1 & E2). cbn [fst snd]. eapply Early; eauto.
    intros ->. clear - Er. revert Er. generalize 0%nat, (l_last L), (stream_length s L), (ev_atype e), (ev_aid e).
    induction (e :: evs) as [|x l IH]; intros n g k t i; cbn; [discriminate|].
    destruct (negb _); [discriminate|]. destruct (negb _); [discriminate|]. destruct (done_at cn n); [discriminate|].
    destruct (ser c _); [apply IH|discriminate].
  - destruct G' as (ms & p & d' & E1 & E2 & E3 & E4). rewrite E1. cbn [fst snd]. exists (MOpen :: ms), d'.
    split; [now rewrite E4|]. split; [exact E2|]. split; [auto|discriminate].
Qed.

(** * Deleting *)

Fixpoint dels (rs : list record) : list bop :=
  match rs with
  | [] => []
  | r :: rest => BDel (skey r) :: BDel (akey r) :: BDel (lkey r) :: dels rest
  end.

Lemma delete_batch_ok d L rs : D d L -> incl rs (l_recs L) ->
  delete_batch c (map (fun r => (skey r, enc r)) rs) = inr (dels rs).
Proof.
  intros HD. induction rs as [|r rs IH]; intros Hi; cbn [map delete_batch dels]; auto.
  destruct (enc_ok d L r HD (Hi r (or_introl eq_refl))) as [_ ->].
  rewrite IH by (intros x Hx; apply Hi; now right). reflexivity.
Qed.

Lemma dels_spec rs : forall d k v, sorted d ->
  (In (k, v) (apply_batch d (dels rs)) <->
   In (k, v) d /\ forall r, In r rs -> k <> skey r /\ k <> akey r /\ k <> lkey r)
  /\ sorted (apply_batch d (dels rs)).
Proof.
  induction rs as [|r rs IH]; intros d k v Hs.
  - cbn. intuition.
  - cbn [dels]. unfold apply_batch. cbn [fold_left apply_bop]. fold (apply_batch).
    change (fold_left apply_bop (dels rs) ?x) with (apply_batch x (dels rs)).
    assert (Hs' : sorted (db_del (lkey r) (db_del (akey r) (db_del (skey r) d)))) by auto using db_del_sorted.
    destruct (IH _ k v Hs') as [E S]. split; [|exact S].
    rewrite E, !db_del_spec by auto using db_del_sorted. split.
    + intros [(H1 & H2 & H3 & H4) H5]. split; auto. intros x [<-|Hx]; auto.
    + intros [H1 H2]. destruct (H2 r (or_introl eq_refl)) as (A & B & C). repeat split; auto; apply H2; now right.
Qed.

Lemma D_delete d L s : D d L -> D (apply_batch d (dels (of_stream s L))) (remove_stream s L).
Proof.
  intros HD. pose proof (D_ok _ _ HD) as Hok. pose proof (D_sorted _ _ HD) as Hso.
  constructor.
  - apply (proj2 (dels_spec (of_stream s L) d "" "" Hso)).
  - intros k v. rewrite (proj1 (dels_spec (of_stream s L) d k v Hso)), (D_entry _ _ HD).
    assert (Sep : forall x r, In x (l_recs L) -> In r (l_recs L) -> x <> r ->
      forall k, (k = skey x \/ k = akey x \/ k = lkey x) -> k <> skey r /\ k <> akey r /\ k <> lkey r).
    { intros x r Hx Hr Hn k0 Hk.
      assert (Hg : r_gsn x <> r_gsn r) by (intros E; apply Hn; eapply same_gsn; eauto).
      assert (gx : r_gsn x < two64) by (eapply small_gsn; eauto using D_small).
      assert (gr : r_gsn r < two64) by (eapply small_gsn; eauto using D_small).
      assert (sx : r_ssn x < two64) by (eapply small_ssn; eauto using D_small).
      assert (sr : r_ssn r < two64) by (eapply small_ssn; eauto using D_small).
      destruct Hk as [->|[->| ->]]; repeat split; try discriminate.
      - intros E. apply key_inj in E; auto. destruct E as [E1 E2]. apply stream_prefix_inj in E1.
        apply Hg. f_equal.
        assert (I1 := in_of_stream _ _ Hx). assert (I2 := in_of_stream _ _ Hr). rewrite E1 in I1.
        pose proof (sorted_ssn _ 0 (proj2 (proj2 Hok) (r_stream r))) as SS.
        revert I1 I2 SS. generalize (of_stream (r_stream r) L). clear - E2.
        induction l as [|a l IH]; intros I1 I2 SS; [destruct I1|]. inversion SS as [|? ? SS' F]; subst.
        rewrite Forall_forall in F. destruct I1 as [<-|I1], I2 as [<-|I2]; auto.
        + apply F in I2. lia.
        + apply F in I1. lia.
      - intros E. apply key_inj in E; auto. tauto.
      - intros E. apply key_inj in E; auto. tauto. }
    split.
    + intros [[H|(r & Hr & H)] Hnot]; [left; exact H|]. right. exists r. split; [|exact H].
      cbn. apply filter_In. split; auto. apply negb_true_iff. destruct (in_stream s r) eqn:E; auto.
      exfalso. assert (Hin : In r (of_stream s L)) by (apply filter_In; auto).
      destruct (Hnot r Hin) as (A & B & C0). destruct H as [[-> _]|[[-> _]|[-> _]]]; auto.
    + intros [H|(r & Hr & H)].
      * split; [left; exact H|]. destruct H as (-> & _). intros; repeat split; discriminate.
      * cbn in Hr. apply filter_In in Hr. destruct Hr as [Hr Hn]. split; [right; eauto|].
        intros x Hx. apply filter_In in Hx. destruct Hx as [Hx Hin].
        apply (Sep r x); auto.
        -- intros ->. rewrite Hin in Hn. discriminate.
        -- tauto.
  - now apply log_ok_remove.
  - apply (D_small _ _ HD).
  - intros r Hr. cbn in Hr. apply filter_In in Hr. now apply (D_clean _ _ HD).
  - intros r Hr. cbn in Hr. apply filter_In in Hr. now apply (D_ser _ _ HD).
Qed.

Lemma call_delete d L ex s : D d L -> clean s ->
  match delete_refused L ex s None with
  | None => exists ms d', ldb_delete c d ex s = (ms, OutDeleted)
      /\ ms = [MOpen; MWrite (dels (of_stream s L)); MCommit]
      /\ exec_micros (quiet d) ms = quiet d' /\ D d' (remove_stream s L)
  | Some er => ldb_delete c d ex s = ([MOpen], OutFailed er)
  end.
Proof.
  intros HD Hs. unfold delete_refused, ldb_delete. cbn [done_at].
  rewrite (scan_stream d L s HD Hs), (delete_batch_ok d L); auto.
  2:{ intros r Hr. now apply filter_In in Hr. }
  rewrite map_length. fold (stream_length s L).
  destruct (stream_length s L =? 0); [reflexivity|].
  rewrite (N.eqb_sym ex). destruct (N.eqb_spec (stream_length s L) ex) as [<-|Hne]; cbn [negb].
  - eexists _, _. split; [reflexivity|]. split; [reflexivity|]. split; [reflexivity|]. cbn. now apply D_delete.
  - reflexivity.
Qed.

Lemma call_read d L o x : D d L -> clean_call o -> read_result L o = Some x -> early o = None ->
  ldb_call c d o = ([], x).
Proof.
  intros HD Hcl Hr He. destruct o; cbn [read_result ldb_call clean_call early] in *; try discriminate.
  - injection Hr as <-. now rewrite (read_events d L).
  - destruct Hcl as (H1 & H2 & H3). injection Hr as <-. now rewrite (read_types d L).
  - injection Hr as <-. now rewrite (read_stream d L).
  - destruct (done_at cn 0); [discriminate|]. injection Hr as <-. now rewrite (stream_number_ok d L).
Qed.

Lemma early_ok L o x : early o = Some x -> log_exec c L o = (L, x).
Proof.
  destruct o; cbn; try discriminate.
  - destruct evs; [|discriminate]. intros E. injection E as <-. reflexivity.
  - unfold delete_refused. destruct (done_at cn 0); [|discriminate]. intros E. injection E as <-. reflexivity.
  - destruct (done_at cn 0); [|discriminate]. intros E. injection E as <-. reflexivity.
Qed.

(** One call on a store without open transaction. *)
Lemma step_ok d L o : D d L -> clean_call o -> l_last L + added o < two64 ->
  let L' := fst (log_exec c L o) in let x := snd (log_exec c L o) in
  (exists d', ldb_step c (mk_ldb (quiet d) false) o = (mk_ldb (quiet d') false, x) /\ D d' L')
  \/ (refused_delete o x /\ L' = L /\ ldb_step c (mk_ldb (quiet d) false) o = (mk_ldb (mk_dbh d (Some d)) false, x)).
Proof.
  intros HD Hcl Hsm. cbv zeta. unfold ldb_step. destruct (early o) as [x|] eqn:Ee.
  { rewrite (early_ok L o x Ee). left. exists d. auto. }
  cbn [s_stuck s_h h_tx quiet andb]. rewrite andb_false_r. change (h_db (quiet d)) with d.
  destruct o as [ex s evs cn|ex s cn|g|g ts|k s|s cn].
  - left. destruct (call_save d L ex s evs cn HD Hcl) as (ms & d' & E1 & E2 & E3 & _).
    + intros ->. discriminate Ee.
    + exact Hsm.
    + cbn [ldb_call]. rewrite E1. exists d'. fold (quiet d). rewrite E2. auto.
  - cbn in Ee. assert (Edone : done_at cn 0 = false) by (destruct (done_at cn 0); auto; discriminate).
    pose proof (call_delete d L ex s HD Hcl) as G. unfold log_exec.
    replace (delete_refused L ex s cn) with (delete_refused L ex s None) by (unfold delete_refused; now rewrite Edone).
    cbn [ldb_call]. destruct (delete_refused L ex s None) as [er|] eqn:Er.
    + right. cbn [fst snd]. rewrite G. split; [|auto].
      cbn. intros ->. clear - Er. unfold delete_refused in Er. cbn in Er.
      destruct (stream_length s L =? 0); [discriminate|]. destruct (ex =? stream_length s L); discriminate.
    + left. cbn [fst snd]. destruct G as (ms & d' & -> & _ & E2 & E3). exists d'. fold (quiet d). rewrite E2. auto.
  - left. rewrite (call_read d L _ (OutResults (map RRec (log_events g L))) HD Hcl eq_refl Ee). exists d. auto.
  - left. rewrite (call_read d L _ (OutResults (map RRec (log_by_types g ts L))) HD Hcl eq_refl Ee). exists d. auto.
  - left. rewrite (call_read d L _ _ HD Hcl eq_refl Ee). exists d. auto.
  - left. rewrite (call_read d L _ _ HD Hcl eq_refl Ee). exists d. auto.
Qed.

End WithCodec.
