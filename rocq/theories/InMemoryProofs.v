From Verif Require Import Base Core CoreSpec CoreProofs LogSpec LogProofs StoreSpec InMemory.
From Coq Require Import Arith.

(** * In-place removal *)

Lemma range_remove_absent x todo : forall i a len, (i + todo = length a)%nat ->
  (forall j, (i <= j)%nat -> nth_error a j <> Some x) ->
  range_remove x i todo a len = Some (a, len).
Proof.
  induction todo as [|t IH]; intros i a len Hl Hn; cbn; auto.
  destruct (nth_error a i) as [y|] eqn:E.
  - destruct (N.eqb_spec y x) as [->|]; [exfalso; eapply Hn; eauto|].
    apply IH; [lia|]. intros j Hj. apply Hn; lia.
  - apply nth_error_None in E. lia.
Qed.

Lemma range_remove_found x l1 l2 : ~ In x l1 -> ~ In x l2 -> forall d i, (i + d = length l1)%nat ->
  range_remove x i (d + S (length l2)) (l1 ++ x :: l2) (length l1 + S (length l2))
  = Some (l1 ++ l2 ++ skipn (length l1 + length l2) (l1 ++ x :: l2), (length l1 + length l2)%nat).
Proof.
  intros H1 H2. induction d as [|d IH]; intros i Hi.
  - assert (i = length l1) by lia. subst i. cbn [Nat.add range_remove].
    rewrite nth_error_app2, Nat.sub_diag by lia. cbn [nth_error]. rewrite N.eqb_refl.
    replace (Nat.leb (length l1 + 1) (length l1 + S (length l2))) with true by (symmetry; apply Nat.leb_le; lia).
    rewrite firstn_app, Nat.sub_diag, firstn_all. cbn [firstn]. rewrite app_nil_r.
    replace (skipn (length l1 + 1) (l1 ++ x :: l2)) with l2.
    2:{ rewrite skipn_app. replace (length l1 + 1 - length l1)%nat with 1%nat by lia.
        rewrite skipn_all2 by lia. reflexivity. }
    replace (length l1 + S (length l2) - (length l1 + 1))%nat with (length l2) by lia.
    rewrite firstn_all.
    replace (length l1 + S (length l2) - 1)%nat with (length l1 + length l2)%nat by lia.
    set (tail := skipn (length l1 + length l2) (l1 ++ x :: l2)).
    assert (Ht : length tail = 1%nat).
    { unfold tail. rewrite skipn_length, app_length. cbn. lia. }
    apply range_remove_absent.
    + rewrite !app_length, Ht. lia.
    + intros j Hj. rewrite nth_error_app2 by lia.
      destruct (Nat.lt_ge_cases (j - length l1) (length l2)) as [Hlt|Hge].
      * rewrite nth_error_app1 by lia. intros E. apply nth_error_In in E. contradiction.
      * rewrite nth_error_app2 by lia. intros E.
        destruct (Nat.eq_dec (length l2) 0) as [E0|N0].
        -- assert (nth_error tail (j - length l1 - length l2)%nat = None) by (apply nth_error_None; lia). congruence.
        -- assert (Hin : In x tail) by (eapply nth_error_In; eauto).
           unfold tail in Hin. rewrite skipn_app in Hin.
           rewrite skipn_all2 in Hin by lia. cbn [app] in Hin.
           replace (length l1 + length l2 - length l1)%nat with (S (length l2 - 1)) in Hin by lia.
           cbn [skipn] in Hin. rewrite <- (firstn_skipn (length l2 - 1) l2) in H2.
           apply H2. apply in_or_app. right. exact Hin.
  - replace (S d + S (length l2))%nat with (S (d + S (length l2))) by lia. cbn [range_remove].
    destruct (nth_error (l1 ++ x :: l2) i) as [y|] eqn:E.
    + rewrite nth_error_app1 in E by lia.
      destruct (N.eqb_spec y x) as [->|]; [exfalso; apply H1; eapply nth_error_In; eauto|].
      apply IH. lia.
    + apply nth_error_None in E. rewrite app_length in E. cbn in E. lia.
Qed.

Definition drop_id (x : N) (l : list N) : list N := filter (fun g => negb (g =? x)) l.

Lemma remove_in_place_ok x l : NoDup l -> remove_in_place x l = Some (drop_id x l).
Proof.
  intros Hnd. unfold remove_in_place, drop_id.
  destruct (in_dec N.eq_dec x l) as [Hin|Hout].
  - destruct (in_split _ _ Hin) as (l1 & l2 & ->).
    apply NoDup_remove_2 in Hnd. 
    assert (H1 : ~ In x l1) by (intros ?; apply Hnd, in_or_app; auto).
    assert (H2 : ~ In x l2) by (intros ?; apply Hnd, in_or_app; auto).
    rewrite app_length. cbn [length].
    rewrite (range_remove_found x l1 l2 H1 H2 (length l1) 0) by lia.
    f_equal. rewrite app_assoc, firstn_app.
    replace (length l1 + length l2)%nat with (length (l1 ++ l2)) by apply app_length.
    rewrite firstn_all, Nat.sub_diag. cbn [firstn]. rewrite app_nil_r.
    rewrite filter_app. cbn [filter]. rewrite N.eqb_refl. cbn [negb].
    rewrite !filter_all; auto; intros y Hy; apply Bool.negb_true_iff, N.eqb_neq; congruence.
  - rewrite range_remove_absent; [|lia|].
    + rewrite firstn_all. f_equal. symmetry. apply filter_all.
      intros y Hy. apply Bool.negb_true_iff, N.eqb_neq. congruence.
    + intros j _ E. apply Hout. eapply nth_error_In; eauto.
Qed.

Lemma drop_id_NoDup x l : NoDup l -> NoDup (drop_id x l).
Proof. apply NoDup_filter. Qed.

Lemma remove_from_types_ok x m : Forall (fun p => NoDup (snd p)) m ->
  remove_from_types x m = Some (map (fun p => (fst p, drop_id x (snd p))) m).
Proof.
  induction m as [|[t l] m IH]; intros H; cbn; auto.
  inversion H; subst. cbn in *. rewrite remove_in_place_ok, IH by auto. reflexivity.
Qed.

(** * Association lists *)

Lemma aget_aset k v m k' : aget k' (aset k v m) = if String.eqb k' k then v else aget k' m.
Proof.
  induction m as [|[a b] m IH]; cbn.
  - reflexivity.
  - destruct (String.eqb_spec k a) as [->|Hne]; cbn.
    + destruct (String.eqb_spec k' a); auto.
    + rewrite IH. destruct (String.eqb_spec k' a) as [->|]; auto.
      destruct (String.eqb_spec a k); congruence.
Qed.

Lemma aget_map f m t : f [] = [] -> aget t (map (fun p : string * list N => (fst p, f (snd p))) m) = f (aget t m).
Proof. intros H. induction m as [|[a b] m IH]; cbn; auto. destruct (String.eqb t a); auto. Qed.

Lemma aset_keys k v m : map fst (aset k v m) = if existsb (String.eqb k) (map fst m) then map fst m else map fst m ++ [k].
Proof.
  induction m as [|[a b] m IH]; cbn; auto.
  destruct (String.eqb_spec k a); cbn; auto. rewrite IH.
  destruct (existsb (String.eqb k) (map fst m)); auto.
Qed.

Lemma aset_keys_nodup k v m : NoDup (map fst m) -> NoDup (map fst (aset k v m)).
Proof.
  intros H. rewrite aset_keys. destruct (existsb _ _) eqn:E; auto.
  apply NoDup_rev in H. rewrite <- (rev_involutive (map fst m ++ [k])). apply NoDup_rev.
  rewrite rev_app_distr. cbn. constructor; auto. rewrite <- in_rev.
  intros Hin. assert (existsb (String.eqb k) (map fst m) = true); [|congruence].
  apply existsb_exists. exists k. split; auto. apply String.eqb_refl.
Qed.

Lemma aget_in m t l : NoDup (map fst m) -> In (t, l) m -> aget t m = l.
Proof.
  induction m as [|[a b] m IH]; cbn; intros Hnd Hin; [tauto|].
  inversion Hnd; subst. destruct Hin as [E|Hin].
  - injection E as -> ->. now rewrite String.eqb_refl.
  - destruct (String.eqb_spec t a) as [->|]; auto.
    exfalso. apply H1. change a with (fst (a, l)). now apply in_map.
Qed.

(** * The refinement relation *)

Section WithCodec.
Variable c : codec.
Hypothesis Hc : codec_ok c.

Record R (m : mem) (L : log) : Prop := {
  R_locked : m_locked m = false;
  R_last : m_last m = l_last L;
  R_records : m_records m = map r_gsn (l_recs L);
  R_streams : forall s, ids_of_stream m s = map r_gsn (of_stream s L);
  R_types : forall t, aget t (m_types m) = map r_gsn (of_type t L);
  R_keys : NoDup (map fst (m_types m));
  R_data : forall r, In r (l_recs L) -> exists d, m_data m (r_gsn r) = Some d /\ deser c d = Some r;
  R_log : log_ok L
}.

Lemma R_init : R mem_init empty_log.
Proof.
  pose proof log_ok_empty. constructor; auto; cbn; try tauto. constructor.
Qed.

(** * Reads *)

Lemma records_by_ids_ok m L keep l : R m L -> incl l (l_recs L) ->
  forall k, records_by_ids c m keep None true k (map r_gsn l) = map RRec (filter keep l).
Proof.
  intros HR. induction l as [|r l IH]; intros Hincl k; cbn [map records_by_ids filter]; auto.
  destruct (R_data _ _ HR r) as (d & Ed & Edes); [apply Hincl; now left|].
  rewrite Ed, Edes.
  assert (IH' : forall k, records_by_ids c m keep None true k (map r_gsn l) = map RRec (filter keep l)).
  { apply IH. intros x Hx. apply Hincl. now right. }
  destruct (keep r); cbn; now rewrite IH'.
Qed.

Lemma read_events m L g : R m L -> mem_events c m g = map RRec (log_events g L).
Proof.
  intros HR. unfold mem_events. rewrite (R_records _ _ HR).
  rewrite (records_by_ids_ok m L) by auto using incl_refl. reflexivity.
Qed.

Lemma read_one_type m L g t : R m L ->
  records_by_ids c m (from_gsn g) None true 0 (aget t (m_types m)) = map RRec (log_by_types g [t] L).
Proof.
  intros HR. rewrite (R_types _ _ HR), (records_by_ids_ok m L).
  - f_equal. unfold of_type, log_by_types. rewrite filter_filter.
    apply filter_ext. intros r. unfold from_gsn, memb. cbn. rewrite Bool.orb_false_r.
    apply Bool.andb_comm.
  - auto.
  - intros r Hr. apply filter_In in Hr. tauto.
Qed.

Lemma read_types m L g ts : R m L -> NoDup ts ->
  mem_by_types c m g ts = Some (map RRec (log_by_types g ts L)).
Proof.
  intros HR Hnd. unfold mem_by_types.
  pose proof (fun t (_ : In t ts) => read_one_type m L g t HR) as Hq.
  destruct ts as [|t [|t2 ts]].
  - apply merge_types; auto. apply (R_log _ _ HR).
  - f_equal. now apply read_one_type.
  - apply merge_types; auto. apply (R_log _ _ HR).
Qed.

Lemma stream_number m L s : R m L -> mem_stream_number m s = stream_length s L.
Proof. intros HR. unfold mem_stream_number, stream_length. now rewrite (R_streams _ _ HR), map_length. Qed.

Lemma read_stream m L k s : R m L ->
  mem_by_stream c m k s = if stream_length s L =? 0 then [RErr EStreamNotFound] else map RRec (log_by_stream k s L).
Proof.
  intros HR. pose proof (R_streams _ _ HR s) as Hs. unfold ids_of_stream in Hs.
  unfold mem_by_stream, stream_length.
  destruct (m_streams m s) as [[|id ids]|].
  - destruct (of_stream s L); [reflexivity|discriminate].
  - destruct (of_stream s L) as [|r l] eqn:E; [discriminate|].
    replace (N.of_nat (length (r :: l)) =? 0) with false by (symmetry; apply N.eqb_neq; cbn; lia).
    rewrite Hs. unfold log_by_stream. rewrite E. apply (records_by_ids_ok m L); auto.
    rewrite <- E. intros x Hx. apply filter_In in Hx. tauto.
  - destruct (of_stream s L); [reflexivity|discriminate].
Qed.

(** * Saves *)

Lemma R_save_one m L s ex e d :
  R m L -> (ex = None \/ ex = Some (stream_length s L)) ->
  ser c (record_at s (l_last L + 1) (stream_length s L + 1) e) = Some d ->
  exists m1, mem_save_event c m s ex e = (m1, inr (d, record_at s (l_last L + 1) (stream_length s L + 1) e))
    /\ R m1 (append_log L s [e]).
Proof.
  intros HR Hex Hser. unfold mem_save_event.
  rewrite (stream_number _ _ _ HR), (R_last _ _ HR).
  replace (match ex with Some x => if x =? stream_length s L then None else Some (EUnexpectedSeq x (stream_length s L)) | None => None end)
    with (@None err) by (destruct Hex as [->| ->]; [reflexivity|now rewrite N.eqb_refl]).
  unfold record_at in Hser. rewrite Hser. eexists; split; [reflexivity|].
  pose proof (R_log _ _ HR) as Hlog.
  constructor; cbn [m_locked m_last m_records m_streams m_types m_data].
  - apply (R_locked _ _ HR).
  - cbn. lia.
  - cbn. rewrite map_app, (R_records _ _ HR). reflexivity.
  - intros s'. unfold ids_of_stream at 1. cbn [m_streams]. unfold fset. rewrite of_stream_append, map_app.
    destruct (String.eqb_spec s' s) as [->|Hne].
    + rewrite (R_streams _ _ HR), String.eqb_refl. reflexivity.
    + destruct (String.eqb_spec s s'); [congruence|]. cbn. rewrite app_nil_r. apply (R_streams _ _ HR).
  - intros t. rewrite aget_aset. unfold of_type, append_log. cbn [l_recs]. rewrite filter_app, map_app.
    cbn. destruct (String.eqb_spec t (ev_atype e)) as [->|Hne].
    + rewrite String.eqb_refl, (R_types _ _ HR). reflexivity.
    + destruct (String.eqb_spec (ev_atype e) t); [congruence|]. cbn. rewrite app_nil_r. apply (R_types _ _ HR).
  - apply aset_keys_nodup, (R_keys _ _ HR).
  - intros r Hr. cbn in Hr. apply in_app_or in Hr. unfold nset. destruct Hr as [Hr|[<-|[]]].
    + destruct Hlog as (_ & Hb & _). specialize (Hb _ Hr).
      destruct (N.eqb_spec (r_gsn r) (l_last L + 1)); [lia|]. apply (R_data _ _ HR); auto.
    + cbn [r_gsn record_at]. rewrite N.eqb_refl. exists d. split; auto.
  - now apply log_ok_append.
Qed.

(** Only the counter and what is recorded for streams without records may differ. *)
Lemma R_bump m L n : R m L -> l_last L <= n ->
  R (mk_mem n (m_records m) (m_streams m) (m_types m) (m_data m) (m_locked m)) (mk_log (l_recs L) n).
Proof.
  intros HR Hn. destruct HR. constructor; cbn; auto. now apply log_ok_last.
Qed.

Lemma fold_nset_none created : forall (d : N -> option string) g, ~ In g created ->
  fold_left (fun d g => nset g None d) created d g = d g.
Proof.
  induction created as [|x l IH]; intros d g Hni; cbn; auto.
  rewrite IH by (intros H; apply Hni; now right). unfold nset.
  destruct (N.eqb_spec g x) as [->|]; auto. exfalso; apply Hni; now left.
Qed.

Lemma rtrim_app (a b : list N) : rtrim (a ++ b) (length b) = Some a.
Proof.
  unfold rtrim. rewrite app_length.
  replace (Nat.leb (length b) (length a + length b)) with true by (symmetry; apply Nat.leb_le; lia).
  replace (length a + length b - length b)%nat with (length a) by lia.
  now rewrite firstn_app, firstn_all, Nat.sub_diag, app_nil_r.
Qed.

(** Rolling back the events of a partially applied batch. *)
Lemma R_rollback m L s evs n t i :
  R m (mk_log (l_recs (append_log L s evs)) n) -> log_ok L ->
  l_last L + N.of_nat (length evs) <= n ->
  Forall (fun e => ev_atype e = t) evs ->
  (evs = [] \/ s = get_stream t i) ->
  exists m', remove_recent m (map r_gsn (appended L s evs)) t i = Some m'
    /\ R m' (mk_log (l_recs L) (n - N.of_nat (length evs))).
Proof.
  intros HR Hlog Hn Ht Hs. unfold remove_recent.
  assert (Hlen : length (map r_gsn (appended L s evs)) = length (appended L s evs)) by apply map_length.
  set (cs := map r_gsn (appended L s evs)) in *.
  assert (Hl : length cs = length evs).
  { rewrite Hlen. unfold appended. apply records_from_length. }
  (* records *)
  rewrite (R_records _ _ HR). cbn [l_recs append_log]. rewrite map_app. fold cs. rewrite rtrim_app.
  (* stream *)
  assert (Es : exists ss, rtrim (ids_of_stream m (get_stream t i)) (length cs) = Some ss
                /\ ss = map r_gsn (of_stream (get_stream t i) L)).
  { rewrite (R_streams _ _ HR). destruct Hs as [-> | ->].
    - cbn in cs. subst cs. cbn [length]. rewrite <- (app_nil_r (map _ _)). rewrite rtrim_app.
      eexists; split; [reflexivity|]. unfold of_stream. cbn [l_recs append_log appended records_from].
      now rewrite app_nil_r.
    - unfold of_stream at 1. cbn [l_recs append_log]. rewrite filter_app, map_app.
      rewrite (filter_same_stream (get_stream t i) (appended _ _ _)) by apply records_from_stream.
      fold cs. rewrite rtrim_app. eauto. }
  destruct Es as (ss & -> & ->).
  (* types *)
  assert (Et : rtrim (aget t (m_types m)) (length cs) = Some (map r_gsn (of_type t L))).
  { rewrite (R_types _ _ HR). unfold of_type at 1. cbn [l_recs append_log]. rewrite filter_app, map_app.
    rewrite (filter_all _ (appended L s evs)).
    - fold cs. apply rtrim_app.
    - intros r Hr. apply String.eqb_eq. clear - Ht Hr. unfold appended in Hr.
      revert Hr. generalize (l_last L) (stream_length s L). induction Ht as [|e evs He Ht IH]; intros g k; cbn; [tauto|].
      intros [<-|Hr]; [exact He|eauto]. }
  rewrite Et. eexists; split; [reflexivity|].
  constructor; cbn [m_locked m_last m_records m_streams m_types m_data l_recs l_last].
  - apply (R_locked _ _ HR).
  - rewrite (R_last _ _ HR). cbn. now rewrite Hl.
  - reflexivity.
  - intros s'. unfold ids_of_stream at 1. cbn [m_streams]. unfold fset.
    destruct (String.eqb_spec s' (get_stream t i)) as [->|Hne]; [reflexivity|].
    fold (ids_of_stream m s'). rewrite (R_streams _ _ HR). f_equal.
    unfold of_stream. cbn [l_recs append_log]. rewrite filter_app.
    destruct Hs as [-> | ->]; [cbn; apply app_nil_r|].
    rewrite (filter_other_stream (get_stream t i) s' (appended L (get_stream t i) evs)); [apply app_nil_r|congruence|apply records_from_stream].
  - intros t'. rewrite aget_aset. destruct (String.eqb_spec t' t) as [->|Hne]; [reflexivity|].
    rewrite (R_types _ _ HR). f_equal. unfold of_type. cbn [l_recs append_log]. rewrite filter_app.
    rewrite (filter_none _ (appended L s evs)); [apply app_nil_r|].
    intros r Hr. apply String.eqb_neq. intros E. apply Hne. rewrite <- E. clear - Ht Hr. unfold appended in Hr.
    revert Hr. generalize (l_last L) (stream_length s L). induction Ht as [|e evs He Ht IH]; intros g k; cbn; [tauto|].
    intros [<-|Hr]; [exact He|eauto].
  - apply aset_keys_nodup, (R_keys _ _ HR).
  - intros r Hr. destruct (R_data _ _ HR r) as (d & Ed & Edes).
    { cbn. apply in_or_app; auto. }
    exists d. split; auto. rewrite fold_nset_none; auto.
    unfold cs. intros Hin. apply in_map_iff in Hin. destruct Hin as (r' & E & Hr').
    apply records_from_gsn in Hr'. destruct Hlog as (_ & Hb & _). specialize (Hb _ Hr). lia.
  - apply log_ok_last; auto. lia.
Qed.

Definition batch_of (t i : string) (evs : list event) : Prop :=
  Forall (fun e => ev_atype e = t /\ ev_aid e = i) evs.

Lemma decoded_app ds1 ds2 : decoded c (ds1 ++ ds2) = decoded c ds1 ++ decoded c ds2.
Proof. induction ds1 as [|d ds1 IH]; cbn; auto. destruct (deser c d); cbn; now rewrite IH. Qed.

Definition next_expected (L : log) (s : string) (ex : option N) : Prop :=
  ex = None \/ ex = Some (stream_length s L).

(** The loop, from a state where [pre] has already been applied to [L]. *)
Lemma save_loop_ok s t i L evs : log_ok L ->
  forall pre m at_ ai ex n pending last,
  R m (append_log L s pre) ->
  batch_of t i (pre ++ evs) ->
  ((at_ = "" /\ ai = "") \/ (at_ = t /\ ai = i)) ->
  next_expected (append_log L s pre) s ex ->
  decoded c pending = appended L s pre ->
  last = stream_length s L + N.of_nat (length pre) \/ evs <> [] ->
  (codec_total c \/ (length (pre ++ evs) <= 1)%nat \/ s = get_stream t i) ->
  match refusal c None s t i (l_last L + N.of_nat (length pre)) (stream_length s L + N.of_nat (length pre)) n evs with
  | None => exists m' pending',
      mem_save_loop c m s at_ ai ex None n (map r_gsn (appended L s pre)) pending last evs
      = (m', SaveOk (stream_length s L + N.of_nat (length (pre ++ evs))) pending')
      /\ R m' (append_log L s (pre ++ evs)) /\ decoded c pending' = appended L s (pre ++ evs)
  | Some er => exists m' last',
      mem_save_loop c m s at_ ai ex None n (map r_gsn (appended L s pre)) pending last evs = (m', SaveErr er)
      /\ R m' (mk_log (l_recs L) last') /\ last' = l_last L + 1 /\ er = ESerialize
  end.
Proof.
  intros Hlog. induction evs as [|e evs IH]; intros pre m at_ ai ex n pending last HR Hb Hat Hex Hpend Hlast Hguard.
  - cbn [refusal mem_save_loop]. destruct Hlast as [->|]; [|congruence].
    rewrite app_nil_r. eauto.
  - assert (He : ev_atype e = t /\ ev_aid e = i).
    { unfold batch_of in Hb. rewrite Forall_forall in Hb. apply Hb, in_or_app. cbn; auto. }
    destruct He as [Het Hei].
    cbn [refusal mem_save_loop done_at]. rewrite Het, Hei, !String.eqb_refl. cbn [negb].
    assert (Hat1 : negb (String.eqb at_ "") && negb (String.eqb at_ t) = false).
    { destruct Hat as [[-> _]|[-> _]]; [reflexivity|]. rewrite String.eqb_refl. apply Bool.andb_false_r. }
    assert (Hai1 : negb (String.eqb ai "") && negb (String.eqb ai i) = false).
    { destruct Hat as [[_ ->]|[_ ->]]; [reflexivity|]. rewrite String.eqb_refl. apply Bool.andb_false_r. }
    rewrite Hat1, Hai1.
    assert (Elast : l_last L + N.of_nat (length pre) = l_last (append_log L s pre)) by reflexivity.
    assert (Elen : stream_length s L + N.of_nat (length pre) = stream_length s (append_log L s pre)) by now rewrite stream_length_append.
    rewrite Elast, Elen.
    destruct (ser c (record_at s (l_last (append_log L s pre) + 1) (stream_length s (append_log L s pre) + 1) e)) as [d|] eqn:Eser.
    + destruct (R_save_one m _ s ex e d HR Hex Eser) as (m1 & -> & HR1).
      rewrite append_append in HR1.
      assert (Ecs : map r_gsn (appended L s pre) ++ [r_gsn (record_at s (l_last (append_log L s pre) + 1) (stream_length s (append_log L s pre) + 1) e)]
                    = map r_gsn (appended L s (pre ++ [e]))).
      { rewrite appended_app, map_app. reflexivity. }
      rewrite Ecs.
      specialize (IH (pre ++ [e]) m1 t i (match ex with Some x => Some (x + 1) | None => None end) (S n)
                    (pending ++ [d]) (stream_length s (append_log L s pre) + 1) HR1).
      assert (Eg : l_last (append_log L s pre) + 1 = l_last L + N.of_nat (length (pre ++ [e]))).
      { rewrite app_length. cbn. lia. }
      assert (Ek : stream_length s (append_log L s pre) + 1 = stream_length s L + N.of_nat (length (pre ++ [e]))).
      { rewrite stream_length_append, app_length. cbn [length]. lia. }
      cbn [r_ssn record_at]. rewrite Eg, Ek in *.
      replace (pre ++ e :: evs) with ((pre ++ [e]) ++ evs) in * by now rewrite <- app_assoc.
      apply IH; clear IH.
      * exact Hb.
      * auto.
      * destruct Hex as [->|Hex]; [left; reflexivity|right]. rewrite Hex. f_equal.
        rewrite <- append_append, (stream_length_append (append_log L s pre)). cbn [length]. lia.
      * rewrite decoded_app, Hpend, appended_app. f_equal. cbn.
        rewrite (Hc _ _ Eser). rewrite <- Eg, <- Ek. reflexivity.
      * left. reflexivity.
      * exact Hguard.
    + assert (E1 : mem_save_event c m s ex e =
                   (mk_mem (m_last m + 1) (m_records m) (m_streams m) (m_types m) (m_data m) (m_locked m), inl ESerialize)).
      { unfold mem_save_event. rewrite (stream_number _ _ _ HR), (R_last _ _ HR).
        replace (match ex with Some x => if x =? stream_length s (append_log L s pre) then None else Some (EUnexpectedSeq x (stream_length s (append_log L s pre))) | None => None end)
          with (@None err) by (destruct Hex as [->| ->]; [reflexivity|now rewrite N.eqb_refl]).
        unfold record_at in Eser. rewrite Eser. reflexivity. }
      rewrite E1.
      destruct (R_rollback (mk_mem (m_last m + 1) (m_records m) (m_streams m) (m_types m) (m_data m) (m_locked m))
                  L s pre (m_last m + 1) t i) as (m' & -> & HR').
      * apply R_bump; auto. rewrite (R_last _ _ HR). lia.
      * exact Hlog.
      * rewrite (R_last _ _ HR). cbn. lia.
      * apply Forall_app in Hb. destruct Hb as [Hb _]. eapply Forall_impl; [|exact Hb]. tauto.
      * destruct Hguard as [G|[G|G]]; auto.
        -- exfalso. destruct (G (record_at s (l_last (append_log L s pre) + 1) (stream_length s (append_log L s pre) + 1) e)); congruence.
        -- left. rewrite app_length in G. cbn in G. destruct pre; auto. cbn in G. lia.
      * eexists _, _. split; [reflexivity|]. split; [exact HR'|].
        rewrite (R_last _ _ HR). cbn. split; [lia|reflexivity].
Qed.

(** The same loop on any batch and any cancellation: the whole batch is stored, or
    an error is returned and a prefix of it is. *)
Lemma save_loop_weak s L evs : log_ok L ->
  forall pre m at_ ai ex cn n pending last,
  R m (append_log L s pre) ->
  next_expected (append_log L s pre) s ex ->
  decoded c pending = appended L s pre ->
  last = stream_length s L + N.of_nat (length pre) \/ evs <> [] ->
  (codec_total c \/ (length (pre ++ evs) <= 1)%nat
   \/ exists t, Forall (fun e => ev_atype e = t /\ s = get_stream (ev_atype e) (ev_aid e)) (pre ++ evs)) ->
  (exists m' pending',
      mem_save_loop c m s at_ ai ex cn n (map r_gsn (appended L s pre)) pending last evs
      = (m', SaveOk (stream_length s L + N.of_nat (length (pre ++ evs))) pending')
      /\ R m' (append_log L s (pre ++ evs)) /\ decoded c pending' = appended L s (pre ++ evs))
  \/ (exists m' er last' kept rest,
      mem_save_loop c m s at_ ai ex cn n (map r_gsn (appended L s pre)) pending last evs = (m', SaveErr er)
      /\ pre ++ evs = kept ++ rest
      /\ (forall x y, er <> EUnexpectedSeq x y)
      /\ R m' (mk_log (l_recs (append_log L s kept)) last') /\ l_last (append_log L s kept) <= last').
Proof.
  intros Hlog. induction evs as [|e evs IH]; intros pre m at_ ai ex cn n pending last HR Hex Hpend Hlast Hguard.
  - left. cbn [mem_save_loop]. destruct Hlast as [->|]; [|congruence].
    rewrite app_nil_r. eauto.
  - assert (Stop : forall er, (forall x y, er <> EUnexpectedSeq x y) -> exists m' er' last' kept rest, (m, SaveErr er) = (m', SaveErr er')
      /\ pre ++ e :: evs = kept ++ rest
      /\ (forall x y, er' <> EUnexpectedSeq x y)
      /\ R m' (mk_log (l_recs (append_log L s kept)) last') /\ l_last (append_log L s kept) <= last').
    { intros er Her. exists m, er, (l_last (append_log L s pre)), pre, (e :: evs).
      split; [reflexivity|]. split; [reflexivity|]. split; [exact Her|]. split; [exact HR|]. lia. }
    cbn [mem_save_loop].
    destruct (negb (String.eqb at_ "") && negb (String.eqb at_ (ev_atype e))); [right; apply Stop; discriminate|].
    destruct (negb (String.eqb ai "") && negb (String.eqb ai (ev_aid e))); [right; apply Stop; discriminate|].
    destruct (done_at cn n); [right; apply Stop; discriminate|]. clear Stop.
    assert (Elen : stream_length s L + N.of_nat (length pre) = stream_length s (append_log L s pre)) by now rewrite stream_length_append.
    destruct (ser c (record_at s (l_last (append_log L s pre) + 1) (stream_length s (append_log L s pre) + 1) e)) as [d|] eqn:Eser.
    + destruct (R_save_one m _ s ex e d HR Hex Eser) as (m1 & -> & HR1).
      rewrite append_append in HR1.
      assert (Ecs : map r_gsn (appended L s pre) ++ [r_gsn (record_at s (l_last (append_log L s pre) + 1) (stream_length s (append_log L s pre) + 1) e)]
                    = map r_gsn (appended L s (pre ++ [e]))).
      { rewrite appended_app, map_app. reflexivity. }
      rewrite Ecs.
      assert (Ek : stream_length s (append_log L s pre) + 1 = stream_length s L + N.of_nat (length (pre ++ [e]))).
      { rewrite stream_length_append, app_length. cbn [length]. lia. }
      cbn [r_ssn record_at].
      replace (pre ++ e :: evs) with ((pre ++ [e]) ++ evs) in * by now rewrite <- app_assoc.
      apply IH; clear IH; auto.
      * destruct Hex as [->|Hex]; [left; reflexivity|right]. rewrite Hex. f_equal.
        rewrite <- append_append, (stream_length_append (append_log L s pre)). cbn [length]. lia.
      * rewrite decoded_app, Hpend, appended_app. f_equal. cbn [decoded].
        rewrite (Hc _ _ Eser). reflexivity.
    + right.
      assert (E1 : mem_save_event c m s ex e =
                   (mk_mem (m_last m + 1) (m_records m) (m_streams m) (m_types m) (m_data m) (m_locked m), inl ESerialize)).
      { unfold mem_save_event. rewrite (stream_number _ _ _ HR), (R_last _ _ HR).
        replace (match ex with Some x => if x =? stream_length s (append_log L s pre) then None else Some (EUnexpectedSeq x (stream_length s (append_log L s pre))) | None => None end)
          with (@None err) by (destruct Hex as [->| ->]; [reflexivity|now rewrite N.eqb_refl]).
        unfold record_at in Eser. rewrite Eser. reflexivity. }
      rewrite E1.
      assert (G : pre = [] \/ exists t, Forall (fun e => ev_atype e = t /\ s = get_stream (ev_atype e) (ev_aid e)) (pre ++ e :: evs)).
      { destruct Hguard as [G|[G|G]]; auto.
        - exfalso. destruct (G (record_at s (l_last (append_log L s pre) + 1) (stream_length s (append_log L s pre) + 1) e)); congruence.
        - left. rewrite app_length in G. cbn in G. destruct pre; auto. cbn in G. lia. }
      destruct (R_rollback (mk_mem (m_last m + 1) (m_records m) (m_streams m) (m_types m) (m_data m) (m_locked m))
                  L s pre (m_last m + 1) (ev_atype e) (ev_aid e)) as (m' & -> & HR').
      * apply R_bump; auto. rewrite (R_last _ _ HR). lia.
      * exact Hlog.
      * rewrite (R_last _ _ HR). cbn. lia.
      * destruct G as [->|(t & G)]; [constructor|]. apply Forall_app in G. destruct G as [G1 G2].
        inversion G2 as [|? ? [Hte _] _]. subst. eapply Forall_impl; [|exact G1]. cbn. tauto.
      * destruct G as [->|(t & G)]; [auto|right]. apply Forall_app in G. destruct G as [_ G2].
        inversion G2 as [|? ? [_ Hse] _]. exact Hse.
      * eexists _, _, _, [], (pre ++ e :: evs). split; [reflexivity|]. split; [reflexivity|].
        split; [discriminate|]. rewrite append_nil. split; [exact HR'|].
        rewrite (R_last _ _ HR). cbn. lia.
Qed.

(** * Deletes *)

Definition without (ids l : list N) : list N := filter (fun g => negb (existsb (N.eqb g) ids)) l.

Lemma without_cons x ids l : without (x :: ids) l = without ids (drop_id x l).
Proof.
  unfold without, drop_id. rewrite filter_filter. apply filter_ext. intros g. cbn [existsb].
  now rewrite Bool.negb_orb.
Qed.

Lemma delete_loop_ok ids : forall m, NoDup (m_records m) -> Forall (fun p => NoDup (snd p)) (m_types m) ->
  exists m1, delete_loop m ids = Some m1
    /\ m_last m1 = m_last m /\ m_streams m1 = m_streams m /\ m_locked m1 = m_locked m
    /\ m_records m1 = without ids (m_records m)
    /\ m_types m1 = map (fun p => (fst p, without ids (snd p))) (m_types m)
    /\ (forall g, ~ In g ids -> m_data m1 g = m_data m g)
    /\ (forall g d, m_data m1 g = Some d -> m_data m g = Some d).
Proof.
  induction ids as [|x ids IH]; intros m Hr Ht; cbn [delete_loop].
  - exists m. repeat split; auto; try contradiction.
    + unfold without. cbn. now rewrite filter_all.
    + rewrite <- (map_id (m_types m)) at 1. apply map_ext. intros [t l]. unfold without. cbn.
      now rewrite filter_all.
  - rewrite remove_in_place_ok, remove_from_types_ok by auto.
    match goal with |- exists m1, delete_loop ?M _ = _ /\ _ => set (m2 := M) end.
    destruct (IH m2) as (m1 & E & H1 & H2 & H3 & H4 & H5 & H6 & H7).
    + cbn. now apply drop_id_NoDup.
    + cbn. apply Forall_map. eapply Forall_impl; [|exact Ht]. cbn. intros. now apply drop_id_NoDup.
    + exists m1. rewrite E. repeat split; auto.
      * rewrite H4. cbn. symmetry. apply without_cons.
      * rewrite H5. cbn. rewrite map_map. apply map_ext. intros [t l]. cbn. f_equal. symmetry. apply without_cons.
      * intros g Hg. rewrite H6 by (intros ?; apply Hg; now right). cbn.
        destruct (existsb _ _); auto. unfold nset. destruct (N.eqb_spec g x) as [->|]; auto.
        exfalso. apply Hg. now left.
      * intros g d Hg. apply H7 in Hg. cbn in Hg. destruct (existsb _ _); auto.
        unfold nset in Hg. destruct (g =? x); [discriminate|auto].
Qed.

Lemma R_NoDup m L : R m L -> NoDup (m_records m) /\ Forall (fun p => NoDup (snd p)) (m_types m).
Proof.
  intros HR. destruct (R_log _ _ HR) as (Hi & _ & _). split.
  - rewrite (R_records _ _ HR). now apply incr_NoDup.
  - apply Forall_forall. intros [t l] Hin. cbn. pose proof (aget_in _ _ _ (R_keys _ _ HR) Hin) as E.
    rewrite <- E, (R_types _ _ HR). apply incr_NoDup, incr_filter, Hi.
Qed.

Lemma gsn_inj L r r' : log_ok L -> In r (l_recs L) -> In r' (l_recs L) -> r_gsn r = r_gsn r' -> r = r'.
Proof.
  intros (Hi & _ & _) H1 H2 E. apply incr_NoDup in Hi.
  revert H1 H2 Hi. generalize (l_recs L). induction l as [|a l IH]; cbn; [tauto|].
  intros [->|H1] [->|H2] Hnd; auto.
  - exfalso. inversion Hnd as [|? ? Hni _]; subst. apply Hni. rewrite E. now apply in_map.
  - exfalso. inversion Hnd as [|? ? Hni _]; subst. apply Hni. rewrite <- E. now apply in_map.
  - inversion Hnd; subst. auto.
Qed.

Lemma without_of_stream L s (f : record -> bool) : log_ok L ->
  without (map r_gsn (of_stream s L)) (map r_gsn (filter f (l_recs L)))
  = map r_gsn (filter f (filter (fun r => negb (in_stream s r)) (l_recs L))).
Proof.
  intros Hok. unfold without.
  assert (E : forall l, incl l (l_recs L) ->
    filter (fun g => negb (existsb (N.eqb g) (map r_gsn (of_stream s L)))) (map r_gsn (filter f l))
    = map r_gsn (filter f (filter (fun r => negb (in_stream s r)) l))).
  { induction l as [|r l IH]; intros Hincl; cbn [filter map]; auto.
    assert (IHl := IH (fun x Hx => Hincl x (or_intror Hx))).
    assert (Em : existsb (N.eqb (r_gsn r)) (map r_gsn (of_stream s L)) = in_stream s r).
    { assert (Hr : In r (l_recs L)) by (apply Hincl; now left).
      destruct (in_stream s r) eqn:Es.
      - apply memN_spec, in_map, filter_In. auto.
      - apply memN_false. intros Hin. apply in_map_iff in Hin. destruct Hin as (r' & E & Hr').
        apply filter_In in Hr'. destruct Hr' as [Hr' Es'].
        assert (r' = r) by (eapply gsn_inj; eauto). congruence. }
    destruct (f r) eqn:Ef; cbn [filter map].
    - rewrite Em. destruct (in_stream s r); cbn [negb filter map]; [|rewrite Ef; cbn [map]; f_equal]; auto.
    - destruct (in_stream s r); cbn [negb filter map]; auto. rewrite Ef. auto. }
  apply E, incl_refl.
Qed.

Lemma R_delete m L s : R m L -> m_streams m s <> None ->
  exists m1, delete_loop m (ids_of_stream m s) = Some m1
  /\ R (mk_mem (m_last m1) (m_records m1) (fset s None (m_streams m1)) (m_types m1) (m_data m1) (m_locked m1))
       (remove_stream s L).
Proof.
  intros HR Hs. destruct (R_NoDup _ _ HR) as [Hr Ht].
  destruct (delete_loop_ok (ids_of_stream m s) m Hr Ht) as (m1 & E & H1 & H2 & H3 & H4 & H5 & H6 & _).
  exists m1. split; auto. pose proof (R_log _ _ HR) as Hlog.
  rewrite (R_streams _ _ HR) in *.
  constructor; cbn [m_locked m_last m_records m_streams m_types m_data remove_stream l_recs l_last].
  - rewrite H3. apply (R_locked _ _ HR).
  - rewrite H1. apply (R_last _ _ HR).
  - rewrite H4, (R_records _ _ HR).
    pose proof (without_of_stream L s (fun _ => true) Hlog) as W.
    rewrite !filter_all in W by auto. exact W.
  - intros s'. unfold ids_of_stream. cbn [m_streams]. unfold fset, of_stream. cbn [l_recs remove_stream].
    rewrite filter_filter. destruct (String.eqb_spec s' s) as [->|Hne].
    + rewrite filter_none; auto. intros r _. destruct (in_stream s r); reflexivity.
    + rewrite H2. fold (ids_of_stream m s'). rewrite (R_streams _ _ HR). f_equal.
      apply filter_ext_in. intros r _. unfold in_stream.
      destruct (String.eqb_spec (r_stream r) s'); [|symmetry; apply Bool.andb_false_r].
      destruct (String.eqb_spec (r_stream r) s); [congruence|reflexivity].
  - intros t. rewrite H5, aget_map by reflexivity. rewrite (R_types _ _ HR). unfold of_type.
    rewrite (without_of_stream L s); auto.
  - rewrite H5, map_map. cbn. rewrite (map_ext _ fst) by auto. apply (R_keys _ _ HR).
  - intros r Hr'. apply filter_In in Hr'. destruct Hr' as [Hr' Hn].
    rewrite H6; [apply (R_data _ _ HR); auto|]. intros Hin. apply in_map_iff in Hin.
    destruct Hin as (r2 & Eg & Hr2). apply filter_In in Hr2. destruct Hr2 as [Hr2 Es].
    assert (r2 = r) by (eapply gsn_inj; eauto). subst. now rewrite Es in Hn.
  - now apply log_ok_remove.
Qed.

Lemma remove_absent L s : of_stream s L = [] -> remove_stream s L = L.
Proof.
  intros H. destruct L as [rs n]. unfold remove_stream, of_stream in *. cbn in *. f_equal.
  apply filter_all. intros r Hr. apply Bool.negb_true_iff. destruct (in_stream s r) eqn:E; auto.
  assert (In r (filter (in_stream s) rs)) by (apply filter_In; auto). rewrite H in *. contradiction.
Qed.

Lemma step_delete m L ex s cn : R m L -> exists x L',
  log_step c L (OpDelete ex s cn) x L' /\ agrees (OpDelete ex s cn) x (snd (mem_step c m (OpDelete ex s cn)))
  /\ R (fst (mem_step c m (OpDelete ex s cn))) L'.
Proof.
  intros HR. cbn [mem_step]. unfold mem_delete.
  destruct (done_at cn 0) eqn:Ecn.
  { exists (OutFailed ECanceled), L. split; [|split; [now left|exact HR]].
    apply LDeleteRefused. unfold delete_refused. now rewrite Ecn. }
  rewrite (R_locked _ _ HR). cbn [negb].
  assert (Elen : mem_stream_number m s = stream_length s L) by (eapply stream_number; eauto).
  destruct (m_streams m s) as [ids|] eqn:Es.
  2:{ exists (OutFailed EStreamNotFound), L. split; [|split; [now left|exact HR]].
      apply LDeleteRefused. unfold delete_refused. rewrite Ecn, <- Elen.
      unfold mem_stream_number, ids_of_stream. now rewrite Es. }
  assert (Eids : ids_of_stream m s = ids) by (unfold ids_of_stream; now rewrite Es).
  rewrite Elen. destruct (R_delete m L s HR) as (m1 & E & HR1); [congruence|]. rewrite Eids in E.
  destruct (N.eqb_spec (stream_length s L) 0) as [E0|N0].
  - exists (OutFailed EStreamNotFound), L. split.
    { apply LDeleteRefused. unfold delete_refused. now rewrite Ecn, E0. }
    rewrite E0. assert (Hrm : remove_stream s L = L).
    { apply remove_absent. unfold stream_length in E0. destruct (of_stream s L); auto. cbn in E0. lia. }
    destruct (N.eqb_spec ex 0) as [->|Hne]; cbn [negb].
    + rewrite E. cbn [fst snd]. split; [right; reflexivity|]. rewrite Hrm in HR1. exact HR1.
    + cbn [fst snd]. split; [|exact HR]. right. destruct (N.eqb_spec ex 0); [congruence|reflexivity].
  - destruct (N.eqb_spec ex (stream_length s L)) as [->|Hne]; cbn [negb].
    + rewrite E. exists OutDeleted, (remove_stream s L). split; [|split; [now left|exact HR1]].
      apply LDeleted. unfold delete_refused. rewrite Ecn, N.eqb_refl.
      destruct (N.eqb_spec (stream_length s L) 0); [congruence|reflexivity].
    + exists (OutFailed (EUnexpectedSeq ex (stream_length s L))), L.
      split; [|split; [now left|exact HR]]. apply LDeleteRefused. unfold delete_refused. rewrite Ecn.
      destruct (N.eqb_spec (stream_length s L) 0); [congruence|].
      destruct (N.eqb_spec ex (stream_length s L)); [congruence|reflexivity].
Qed.

Lemma step_read m L o : R m L -> (match o with OpByTypes _ ts => NoDup ts | OpSave _ _ _ _ | OpDelete _ _ _ => False | _ => True end) ->
  exists x, read_result L o = Some x /\ mem_step c m o = (m, x).
Proof.
  intros HR Ho. destruct o as [| |g|g ts|k s|s cn]; try contradiction; cbn [mem_step read_result];
    rewrite (R_locked _ _ HR); cbn [andb].
  - rewrite (read_events m L); eauto.
  - rewrite (read_types m L); eauto.
  - rewrite (read_stream m L); eauto.
  - unfold mem_total. rewrite (stream_number m L); auto. destruct (done_at cn 0); eauto.
Qed.

(** A mismatch of the expected number changes only a bookkeeping entry. *)
Lemma save_mismatch m L s x e evs cn : R m L -> done_at cn 0 = false -> x <> stream_length s L ->
  exists m', mem_save c m (Some x) s (e :: evs) cn = (m', OutFailed (EUnexpectedSeq x (stream_length s L))) /\ R m' L.
Proof.
  intros HR Hcn Hx. cbn [mem_save mem_save_loop]. cbn [String.eqb negb andb]. rewrite Hcn.
  unfold mem_save_event. rewrite (stream_number m L) by auto.
  destruct (N.eqb_spec x (stream_length s L)); [congruence|].
  destruct (R_rollback m L s [] (l_last L) (ev_atype e) (ev_aid e)) as (m' & E & HR').
  - rewrite append_nil. destruct L; exact HR.
  - apply (R_log _ _ HR).
  - cbn. lia.
  - constructor.
  - now left.
  - change (map r_gsn (appended L s [])) with (@nil N) in E. rewrite E. exists m'. split; [reflexivity|]. cbn in HR'. rewrite N.sub_0_r in HR'. destruct L; exact HR'.
Qed.

(** The number the counter moves to when a save is refused. *)
Definition burnt (L : log) (e : err) : log :=
  mk_log (l_recs L) (match e with ESerialize => l_last L + 1 | _ => l_last L end).

Lemma step_save m L ex s evs cn : R m L -> plain_call c (OpSave ex s evs cn) -> exists x L',
  log_step c L (OpSave ex s evs cn) x L' /\ snd (mem_step c m (OpSave ex s evs cn)) = x
  /\ R (fst (mem_step c m (OpSave ex s evs cn))) L'
  /\ (forall e, x = OutFailed e -> L' = burnt L e)
  /\ (forall n bc, x = OutSaved n bc -> L' = append_log L s evs).
Proof.
  intros HR (Hone & Hcn & Htame). cbn [mem_step].
  destruct evs as [|e evs].
  { exists (OutFailed EMissingEvents), (mk_log (l_recs L) (l_last L)). cbn.
    split; [|split; [reflexivity|split; [destruct L; exact HR|split; [now intros ? [= <-]|discriminate]]]].
    apply LSaveRefused; [reflexivity|lia]. }
  rewrite (R_locked _ _ HR).
  destruct Hcn as [-> | ->].
  2:{ exists (OutFailed ECanceled), (mk_log (l_recs L) (l_last L)). cbn.
      split; [|split; [reflexivity|split; [destruct L; exact HR|split; [now intros ? [= <-]|discriminate]]]].
      apply LSaveRefused; [reflexivity|lia]. }
  assert (Hex : next_expected L s ex \/ exists x, ex = Some x /\ x <> stream_length s L).
  { unfold next_expected. destruct ex as [x|]; [|auto]. destruct (N.eq_dec x (stream_length s L)); [subst; auto|eauto]. }
  destruct Hex as [Hex|(x & -> & Hne)].
  2:{ destruct (save_mismatch m L s x e evs None HR eq_refl Hne) as (m' & E & HR'). rewrite E.
      exists (OutFailed (EUnexpectedSeq x (stream_length s L))), (mk_log (l_recs L) (l_last L)).
      split; [|split; [reflexivity|split; [destruct L; exact HR'|split; [now intros ? [= <-]|discriminate]]]].
      apply LSaveRefused; [|lia].
      cbn. destruct (N.eqb_spec x (stream_length s L)); [congruence|reflexivity]. }
  pose proof (save_loop_ok s (ev_atype e) (ev_aid e) L (e :: evs) (R_log _ _ HR) [] m "" "" ex 0%nat [] 0) as Hl.
  cbn [app length] in Hl. rewrite append_nil in Hl.
  assert (Href : save_refused c L ex s (e :: evs) None = refusal c None s (ev_atype e) (ev_aid e) (l_last L) (stream_length s L) 0 (e :: evs)).
  { unfold save_refused. cbn [done_at]. destruct Hex as [->| ->]; [reflexivity|now rewrite N.eqb_refl]. }
  rewrite !N.add_0_r in Hl. change (map r_gsn (appended L s [])) with (@nil N) in Hl.
  unfold mem_save.
  specialize (Hl HR).
  assert (Hbatch : batch_of (ev_atype e) (ev_aid e) (e :: evs)).
  { apply Forall_forall. intros e' He'. apply Hone; [exact He'|now left]. }
  assert (Hnil : e :: evs <> []) by discriminate.
  specialize (Hl Hbatch (or_introl (conj eq_refl eq_refl)) Hex eq_refl (or_intror Hnil)).
  assert (Hg : codec_total c \/ (length (e :: evs) <= 1)%nat \/ s = get_stream (ev_atype e) (ev_aid e)).
  { destruct Htame as [G|[G|[_ G]]]; auto. right; right. apply (G e). now left. }
  specialize (Hl Hg). rewrite <- Href in Hl.
  destruct (save_refused c L ex s (e :: evs) None) as [er|] eqn:Eref.
  - destruct Hl as (m' & last' & -> & HR' & -> & ->). exists (OutFailed ESerialize), (mk_log (l_recs L) (l_last L + 1)).
    split; [apply LSaveRefused; auto; lia|]. split; [reflexivity|]. split; [exact HR'|].
    split; [now intros ? [= <-]|discriminate].
  - destruct Hl as (m' & pending' & -> & HR' & Hdec).
    eexists _, _. split; [now apply LSaved|]. cbn [fst snd]. split; [now rewrite Hdec|].
    split; [exact HR'|]. split; [discriminate|reflexivity].
Qed.

(** What the log becomes, as a function of the call and its answer. *)
Definition log_after (L : log) (o : op) (x : out) : log :=
  match o, x with
  | OpSave _ s evs _, OutSaved _ _ => append_log L s evs
  | OpSave _ _ _ _, OutFailed e => burnt L e
  | OpDelete _ s _, OutDeleted => remove_stream s L
  | _, _ => L
  end.

Lemma step_ok m L o : R m L -> plain_call c o -> exists x,
  log_step c L o x (log_after L o x) /\ agrees o x (snd (mem_step c m o)) /\ R (fst (mem_step c m o)) (log_after L o x).
Proof.
  intros HR Hp. destruct o as [ex s evs cn|ex s cn|g|g ts|k s|s cn].
  1:{ destruct (step_save m L ex s evs cn HR Hp) as (x & L' & H1 & H2 & H3 & H4 & H5). exists x.
      assert (log_after L (OpSave ex s evs cn) x = L') as ->.
      { inversion H1; subst; cbn; [reflexivity| |discriminate]. symmetry. now apply H4. }
      split; auto. split; auto. now left. }
  1:{ destruct (step_delete m L ex s cn HR) as (x & L' & H1 & H2 & H3). exists x.
      assert (log_after L (OpDelete ex s cn) x = L') as ->; auto.
      inversion H1; subst; cbn; auto. discriminate. }
  all: match goal with |- exists x, log_step _ _ ?o _ _ /\ _ =>
         destruct (step_read m L o HR) as (x & E & Es); [cbn in *; auto|];
         exists x; rewrite Es; change (log_after L o x) with L;
         split; [now apply LRead|split; [now left|exact HR]] end.
Qed.

Lemma run_ok ops : forall m L, R m L -> Forall (plain_call c) ops ->
  exists xs L', log_run c L ops xs L' /\ all_agree ops xs (snd (run (mem_step c) m ops))
    /\ R (fst (run (mem_step c) m ops)) L'.
Proof.
  induction ops as [|o ops IH]; intros m L HR Hp; cbn [run].
  - exists [], L. split; [constructor|split; [constructor|exact HR]].
  - inversion Hp; subst. destruct (step_ok m L o HR H1) as (x & Hs & Ha & HR1).
    destruct (mem_step c m o) as [m1 y] eqn:Es. cbn [fst snd] in *.
    destruct (IH m1 _ HR1 H2) as (xs & L2 & Hr & Hf & HR2).
    destruct (run (mem_step c) m1 ops) as [m2 ys] eqn:Er. cbn [fst snd] in *.
    exists (x :: xs), L2. split; [econstructor; eauto|]. split; auto. cbn [all_agree]. auto.
Qed.

(** The specification answers a call in one way only. *)
Lemma log_step_out_det L L1 L2 o x y : log_step c L o x L1 -> log_step c L o y L2 -> x = y.
Proof.
  intros H1 H2. inversion H1; subst; inversion H2; subst; try reflexivity; try congruence; discriminate.
Qed.

(** Two states of the same log give the same answers ever after. *)
Lemma run_same ops : forall m m' L, R m L -> R m' L -> Forall (plain_call c) ops ->
  exists xs, all_agree ops xs (snd (run (mem_step c) m ops)) /\ all_agree ops xs (snd (run (mem_step c) m' ops)).
Proof.
  induction ops as [|o ops IH]; intros m m' L HR HR' Hp; cbn [run].
  - exists []. split; exact I.
  - inversion Hp; subst. destruct (step_ok m L o HR H1) as (x & Hs & Ha & HR1).
    destruct (step_ok m' L o HR' H1) as (x' & Hs' & Ha' & HR1').
    assert (x' = x) by (eapply log_step_out_det; eauto). subst x'.
    destruct (mem_step c m o) as [m1 y] eqn:Es. destruct (mem_step c m' o) as [m1' y'] eqn:Es'. cbn [fst snd] in *.
    destruct (IH m1 m1' _ HR1 HR1' H2) as (xs & Hf & Hf').
    destruct (run (mem_step c) m1 ops) as [m2 ys] eqn:Er. destruct (run (mem_step c) m1' ops) as [m2' ys'] eqn:Er'. cbn [fst snd] in *.
    exists (x :: xs). cbn [all_agree]. auto.
Qed.

Lemma reads_same m m' L L' : R m L -> R m' L' -> l_recs L = l_recs L' -> same_reads (mem_step c) m m'.
Proof.
  intros HR HR' E o Ho. destruct o as [| |g|g ts|k s|s cn]; try contradiction; cbn [mem_step];
    rewrite (R_locked _ _ HR), (R_locked _ _ HR'); cbn [andb].
  - rewrite (read_events m L), (read_events m' L') by auto. unfold log_events. now rewrite E.
  - assert (Eq : forall t, records_by_ids c m (from_gsn g) None true 0 (aget t (m_types m))
               = records_by_ids c m' (from_gsn g) None true 0 (aget t (m_types m'))).
    { intros t. rewrite (read_one_type m L), (read_one_type m' L') by auto. unfold log_by_types. now rewrite E. }
    assert (mem_by_types c m g ts = mem_by_types c m' g ts) as ->.
    { unfold mem_by_types. destruct ts as [|t [|t2 ts]]; [reflexivity|now rewrite Eq|].
      f_equal. apply map_ext. intros t'. now rewrite Eq. }
    destruct (mem_by_types c m' g ts); reflexivity.
  - rewrite (read_stream m L), (read_stream m' L') by auto. unfold stream_length, log_by_stream, of_stream. now rewrite E.
  - unfold mem_total. rewrite (stream_number m L), (stream_number m' L') by auto.
    unfold stream_length, of_stream. rewrite E. destruct (done_at cn 0); reflexivity.
Qed.

Lemma ssn_from_numbers l : forall k, ssn_from k l -> map r_ssn l = map (fun i => k + N.of_nat i) (seq 1 (length l)).
Proof.
  induction l as [|r l IH]; intros k; cbn [ssn_from map length seq]; auto.
  intros [E H]. rewrite (IH _ H). f_equal; [lia|]. rewrite <- (seq_shift (length l) 1), map_map.
  apply map_ext. intros i. lia.
Qed.

Lemma stream_numbers m L s : R m L -> map r_ssn (of_stream s L) = one_to (length (of_stream s L)).
Proof.
  intros HR. destruct (R_log _ _ HR) as (_ & _ & H). rewrite (ssn_from_numbers _ 0) by auto.
  unfold one_to. apply map_ext. intros. lia.
Qed.

(** Any tame history keeps the store in the image of some reachable log. *)
Lemma step_tame m L o : R m L -> tame_call c o -> exists L', R (fst (mem_step c m o)) L' /\ l_last L <= l_last L'.
Proof.
  intros HR Ht. destruct o as [ex s evs cn|ex s cn| | | | ].
  2:{ destruct (step_delete m L ex s cn HR) as (x & L' & Hs & _ & HR'). exists L'. split; auto.
      inversion Hs; subst; cbn; lia. }
  2-5: cbn [mem_step]; rewrite (R_locked _ _ HR); exists L; split; [|lia]; cbn [andb fst]; auto.
  2: destruct (mem_by_types _ _ _ _); exact HR.
  2: destruct (done_at _ _); exact HR.
  cbn [mem_step]. destruct evs as [|e evs]; [exists L; split; [exact HR|lia]|].
  rewrite (R_locked _ _ HR).
  assert (Hex : next_expected L s ex \/ exists x, ex = Some x /\ x <> stream_length s L).
  { unfold next_expected. destruct ex as [x|]; [|auto]. destruct (N.eq_dec x (stream_length s L)); [subst; auto|eauto]. }
  destruct Hex as [Hex|(x & -> & Hne)].
  2:{ destruct (done_at cn 0) eqn:Ecn.
      - exists L. split; [|lia]. cbn [mem_save mem_save_loop String.eqb negb andb]. rewrite Ecn. exact HR.
      - destruct (save_mismatch m L s x e evs cn HR Ecn Hne) as (m' & E & HR'). rewrite E.
        exists L. split; [exact HR'|lia]. }
  destruct (save_loop_weak s L (e :: evs) (R_log _ _ HR) [] m "" "" ex cn 0%nat [] 0)
    as [(m' & p & E & HR' & _)|(m' & er & last' & kept & rest & E & _ & _ & HR' & Hle)]; auto.
  - rewrite append_nil. exact HR.
  - rewrite append_nil. exact Hex.
  - right. discriminate.
  - destruct Ht as [G|[G|[G1 G2]]]; auto. right; right. exists (ev_atype e). apply Forall_forall.
    intros e' He'. split; [apply G1; cbn; auto|]. apply G2. exact He'.
  - unfold mem_save. change (map r_gsn (appended L s [])) with (@nil N) in E. rewrite E.
    exists (append_log L s (e :: evs)). split; [exact HR'|]. cbn. lia.
  - unfold mem_save. change (map r_gsn (appended L s [])) with (@nil N) in E. rewrite E.
    eexists. split; [exact HR'|]. cbn in *. lia.
Qed.

Lemma run_tame ops : forall m L, R m L -> Forall (tame_call c) ops -> exists L', R (fst (run (mem_step c) m ops)) L'.
Proof.
  induction ops as [|o ops IH]; intros m L HR Ht; cbn [run]; [exists L; exact HR|].
  inversion Ht; subst. destruct (step_tame m L o HR H1) as (L1 & HR1 & _).
  destruct (mem_step c m o) as [m1 y]. destruct (IH m1 L1 HR1 H2) as (L2 & HR2).
  destruct (run (mem_step c) m1 ops). exists L2. exact HR2.
Qed.

End WithCodec.
