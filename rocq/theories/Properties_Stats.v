(** C41, C42: the statistics per aggregate type. *)
From Coq Require Import ZArith Sorted.
From Verif Require Import Base LogSpec Core CoreSpec CoreProofs Json JsonText JsonTextSpec RecordIo EncodingsProofs
  Subscription SubscriptionSpec SubscriptionProofs SubscriptionCover SubscriptionRun Stats StatsSpec StatsProofs
  JsonSpec Properties_Core Properties_Subscription.
Open Scope string_scope.
Open Scope N_scope.
Open Scope list_scope.

(** * C41: the statistics equal the records consumed *)

(** In whatever order records arrive, the counts are exact, each type is listed once,
    in order, and the number reported is that of the record that came last. *)
Theorem C41_counts : forall rs, exists d, accept_all new_stats rs = Some d
  /\ (forall t, events_of_type t d = how_many (of_type t rs))
  /\ total_events d = how_many rs
  /\ latest_number d = last (map r_gsn rs) 0
  /\ (forall t, In t (sorted_types d) <-> exists r, In r rs /\ r_atype r = t)
  /\ StronglySorted (fun a b => String.compare a b = Lt) (sorted_types d).
Proof.
  intros rs. destruct (tells_all rs _ _ tells_new) as (d & E & [(m & M & S & C & T) La To]). cbn [app] in *.
  exists d. split; auto. unfold events_of_type, sorted_types. rewrite M. repeat (split; [assumption|]).
  clear -S. induction m as [|[k n] m IH]; cbn; constructor.
  - apply IH. eapply JsonProofs.sorted_tail; eauto.
  - apply Forall_forall. intros k' H. apply in_map_iff in H as ([k2 n2] & <- & H).
    eapply JsonProofs.sorted_below; eauto.
Qed.
Print Assumptions C41_counts.

(** With increasing numbers the number reported is the greatest. *)
Theorem C41_reports_partial : forall rs d, gsn_increasing rs -> accept_all new_stats rs = Some d -> reports d rs.
Proof.
  intros rs d I E. destruct (tells_all rs _ _ tells_new) as (d' & E' & T). rewrite E in E'. injection E' as <-.
  now apply tells_reports.
Qed.
Print Assumptions C41_reports_partial.
Example C41_reports_example : exists d,
  accept_all new_stats [ex_rec 1 "B"; ex_rec 2 "A"; ex_rec 4 "B"] = Some d
  /\ gsn_increasing [ex_rec 1 "B"; ex_rec 2 "A"; ex_rec 4 "B"]
  /\ sorted_types d = ["A"; "B"] /\ events_of_type "B" d = 2 /\ events_of_type "C" d = 0 /\ total_events d = 3
  /\ latest_number d = 4.
Proof.
  eexists. split; [reflexivity|]. split.
  - repeat (apply incr_cons; [|cbn; intros b Hb; repeat (destruct Hb as [<-|Hb]; [cbn; lia|]); destruct Hb]). apply incr_nil.
  - repeat split.
Qed.

(** Records do arrive like that: whatever a subscription has handed to the projection,
    the statistics report it. *)
Theorem C41_subscribed : forall m subs ls y i u, yrun m (sys_init subs) ls = Some y ->
  nth_error subs i = Some stats_sub -> l_last (y_log y) < max64 -> (forall g, In (YStartFrom i g) ls -> g < max64) ->
  nth_error (y_subs y) i = Some u ->
  exists d, accept_all new_stats (u_got u) = Some d /\ reports d (u_got u).
Proof.
  intros m subs ls y i u R Hs L G Hi.
  destruct (run_ordered m subs ls y i [None] 10%nat u R Hs) as [I _]; auto.
  { now left. } { repeat constructor; cbn; tauto. }
  destruct (tells_all (u_got u) _ _ tells_new) as (d & E & T). exists d. split; auto. now apply tells_reports.
Qed.
Print Assumptions C41_subscribed.
Example C41_subscribed_example : exists y u d, yrun leveldb_mode (sys_init [stats_sub]) ex_catch_up = Some y
  /\ nth_error (y_subs y) 0 = Some u /\ accept_all new_stats (u_got u) = Some d
  /\ total_events d = 3 /\ latest_number d = 4 /\ events_of_type "B" d = 2.
Proof. eexists. eexists. eexists. split; [vm_compute; reflexivity|]. repeat split. Qed.

(** The full statement is false: a record with a lower number lowers the number
    reported. *)
Theorem C41_greatest_refuted : exists rs d, accept_all new_stats rs = Some d /\ ~ greatest (latest_number d) rs.
Proof.
  exists [ex_rec 5 "A"; ex_rec 3 "A"]. eexists. split; [reflexivity|]. cbn. intros [_ H].
  specialize (H (ex_rec 5 "A") (or_introl eq_refl)). cbn in H. lia.
Qed.
Print Assumptions C41_greatest_refuted.

(** A snapshot brings back the projection it was saved from, so everything that
    follows is the same. *)
Theorem C41_snapshot_partial : forall rs d, ordinary rs -> accept_all new_stats rs = Some d ->
  load_snapshot (save_snapshot d) = Some d
  /\ forall rs' d', accept_all d rs' = Some d' -> accept_all new_stats (rs ++ rs') = Some d'.
Proof.
  intros rs d O E. destruct (tells_all rs _ _ tells_new) as (d0 & E' & T). rewrite E in E'. injection E' as <-. cbn [app] in T.
  split; [apply snapshot_back; eapply tells_storable; eauto|].
  intros rs' d' H. rewrite accept_all_app, E. exact H.
Qed.
Print Assumptions C41_snapshot_partial.
Example C41_snapshot_example : exists d,
  accept_all new_stats [ex_rec 1 "thing"; ex_rec 2 "another"] = Some d
  /\ ordinary [ex_rec 1 "thing"; ex_rec 2 "another"]
  /\ load_snapshot (save_snapshot d) = Some d.
Proof.
  eexists. split; [reflexivity|]. split; [|vm_compute; reflexivity]. split.
  - intros r [<-|[<-|[]]]; (split; [|unfold max64; cbn; lia]).
    + exact (repair_is_text "thing").
    + exact (repair_is_text "another").
  - unfold max64; cbn; lia.
Qed.

(** A snapshot file of which only a part was written (the file is emptied first,
    disk_snapshot_store.go:37) is refused as a whole. *)
Theorem C41_snapshot_cut : forall rs d p q, ordinary rs -> accept_all new_stats rs = Some d ->
  save_snapshot d = (p ++ q)%string -> (1 < String.length q)%nat -> init_projections (Some p) = (new_stats, 0).
Proof.
  intros rs d p q O E Es L. destruct (tells_all rs _ _ tells_new) as (d0 & E' & T). rewrite E in E'. injection E' as <-. cbn [app] in T.
  unfold init_projections. rewrite (snapshot_cut d p q); auto. eapply tells_storable; eauto.
Qed.
Print Assumptions C41_snapshot_cut.
Example C41_cut_example : load_snapshot "{""totalEventsByAggregateType"":{""thing"":1},""latestGlobalSequenceNumber"":1" = None
  /\ load_snapshot "{""totalEventsByAggregateType"":{""thing"":1},""latestGlobalSequenceNumber"":1,""totalEvents"":1}"
     = Some (mk_stats (Some [("thing", 1)]) 1 1).
Proof. split; vm_compute; reflexivity. Qed.

(** The full statement is false: types that are not valid UTF-8 are saved under one
    name and all but one of their counts are lost. *)
Theorem C41_snapshot_bytes_refuted : exists rs d d', accept_all new_stats rs = Some d
  /\ load_snapshot (save_snapshot d) = Some d'
  /\ (exists r, In r rs /\ events_of_type (r_atype r) d = 2 /\ events_of_type (r_atype r) d' = 0)
  /\ total_events d' = 3 /\ length (sorted_types d') = 1%nat
  /\ forall t, events_of_type t d' <= 2.
Proof.
  pose (a := String (ascii_of_N 254) ""). pose (b := String (ascii_of_N 255) "").
  exists [ex_rec 1 a; ex_rec 2 b; ex_rec 3 b]. eexists. eexists.
  split; [reflexivity|]. split; [vm_compute; reflexivity|]. split; [|split; [reflexivity|split; [reflexivity|]]].
  - exists (ex_rec 2 b). split; [cbn; auto|]. split; reflexivity.
  - intros t. unfold events_of_type, in_map. cbn [s_counts List.find fst snd]. destruct (String.eqb _ t); cbn; lia.
Qed.
Print Assumptions C41_snapshot_bytes_refuted.

(** A snapshot file without the map (null, or an empty object) is accepted, and the
    first record makes the projection panic. *)
Theorem C41_foreign_snapshot_refuted : exists d, load_snapshot "{}" = Some d /\ forall r, accept d r = None.
Proof. eexists. split; [vm_compute; reflexivity|]. reflexivity. Qed.
Print Assumptions C41_foreign_snapshot_refuted.
(** A null for the map takes away the map that was there. *)
Theorem C41_null_map_refuted : exists text d, text = print (JObj [(n_counts, map_json [("A", 2)]); (n_counts, JNull); (n_total, number_of 2)])
  /\ load_snapshot text = Some d /\ events_of_type "A" d = 0 /\ forall r, accept d r = None.
Proof. eexists. eexists. split; [reflexivity|]. split; [vm_compute; reflexivity|]. split; reflexivity. Qed.
Print Assumptions C41_null_map_refuted.

(** * C42: the statistics after a restart *)

(** Without a snapshot file, or with one that cannot be read, the statistics are
    those of the log, whatever was saved before and after the start. *)
Theorem C42_no_snapshot : forall m subs ls1 ls2 i file g y1 y u,
  init_projections file = (new_stats, g) ->
  yrun m (sys_init subs) ls1 = Some y1 ->
  yrun m (sys_init subs) (ls1 ++ YStartFrom i g :: ls2) = Some y ->
  m_locked m = true \/ in_turn (ls1 ++ YStartFrom i g :: ls2) ->
  undisturbed i (ls1 ++ YStartFrom i g :: ls2) -> no_deletion (ls1 ++ YStartFrom i g :: ls2) ->
  nth_error subs i = Some stats_sub -> l_last (y_log y) < max64 ->
  nth_error (y_subs y) i = Some u -> u_phase u = PLive -> quiet y u ->
  exists d, accept_all new_stats (u_got u) = Some d /\ reports d (l_recs (y_log y)).
Proof.
  intros m subs ls1 ls2 i file g y1 y u E R1 R O UD ND Hs LM Hi P Q.
  assert (g = 0). { unfold init_projections in E. injection E as E <-. rewrite E. reflexivity. } subst g.
  pose proof (restart_gets m subs ls1 ls2 i _ 0 y1 y u 0%nat R1 R O UD ND Hs LM Hi P Q (or_introl (conj eq_refl eq_refl))) as X.
  cbn [firstn app] in X. rewrite X.
  destruct (tells_all (u_got u) _ _ tells_new) as (d & Ed & T). exists d. split; auto. cbn [app] in T.
  apply tells_reports; auto. rewrite <- X. apply (yrun_log _ _ _ _ R (log_sorted_init subs)).
Qed.
Print Assumptions C42_no_snapshot.

(** With a snapshot that counted the first [k] records of the log: when something was
    saved between the snapshot and the restart, the statistics are those of the log. *)
Theorem C42_restart_partial : forall m subs ls1 ls2 i k ds d0 g y1 y u,
  yrun m (sys_init subs) ls1 = Some y1 ->
  (k < length (l_recs (y_log y1)))%nat ->
  accept_all new_stats (firstn k (l_recs (y_log y1))) = Some ds -> ordinary (firstn k (l_recs (y_log y1))) ->
  init_projections (Some (save_snapshot ds)) = (d0, g) ->
  yrun m (sys_init subs) (ls1 ++ YStartFrom i g :: ls2) = Some y ->
  m_locked m = true \/ in_turn (ls1 ++ YStartFrom i g :: ls2) ->
  undisturbed i (ls1 ++ YStartFrom i g :: ls2) -> no_deletion (ls1 ++ YStartFrom i g :: ls2) ->
  nth_error subs i = Some stats_sub -> l_last (y_log y) < max64 ->
  nth_error (y_subs y) i = Some u -> u_phase u = PLive -> quiet y u ->
  exists d, accept_all d0 (u_got u) = Some d /\ reports d (l_recs (y_log y)).
Proof.
  intros m subs ls1 ls2 i k ds d0 g y1 y u R1 K E Or I R O UD ND Hs LM Hi P Q.
  destruct (tells_all (firstn k (l_recs (y_log y1))) _ _ tells_new) as (d' & E' & T). rewrite E in E'. injection E' as <-. cbn [app] in T.
  unfold init_projections in I. rewrite snapshot_back in I by (eapply tells_storable; eauto).
  injection I as <- Eg.
  destruct (yrun_log _ _ _ _ R (log_sorted_init subs)) as [[S SL] _].
  assert (RR := R). rewrite run_app, R1 in RR. apply no_deletion_app in ND as NN. destruct NN as [_ ND2].
  pose proof (log_saved _ _ _ _ ND2 RR) as EL.
  assert (G : (g = 0 /\ k = 0%nat)
    \/ (g = last (map r_gsn (firstn k (l_recs (y_log y1)))) 0 + 1 /\ (0 < k < length (l_recs (y_log y1)))%nat)).
  { unfold total_events, latest_number in Eg. rewrite (te_total _ _ T), (te_latest _ _ T) in Eg. unfold how_many in Eg.
    rewrite firstn_length in Eg. destruct k as [|k]; [left; split; auto; cbn in Eg; congruence|right].
    split; [|lia]. destruct (N.ltb_spec 0 (N.of_nat (Nat.min (Datatypes.S k) (length (l_recs (y_log y1)))))); [|lia].
    rewrite <- Eg. unfold succ64. set (z := last _ 0) in *. destruct (N.eqb_spec z max64) as [Z|]; [|reflexivity].
    exfalso. assert (z <= l_last (y_log y)); [|lia].
    destruct (exists_last (l := firstn (Datatypes.S k) (l_recs (y_log y1)))) as (l' & x & X).
    { destruct (l_recs (y_log y1)); cbn in *; [lia|discriminate]. }
    subst z. rewrite X, map_app. cbn [map]. rewrite last_last. apply SL. rewrite EL. apply in_app_iff. left.
    eapply In_firstn. rewrite X. apply in_app_iff. right. now left. }
  pose proof (restart_gets m subs ls1 ls2 i _ g y1 y u k R1 R O UD ND Hs LM Hi P Q G) as X.
  destruct (tells_all (u_got u) _ _ T) as (d & Ed & Td). exists d. split; auto. rewrite X.
  apply tells_reports; auto. rewrite <- X. exact S.
Qed.
Print Assumptions C42_restart_partial.

(** Two events, a snapshot of the first, a restart, and a third event. *)
Definition ex_restart : list label :=
  [YFetch 0 None; YFetch 0 None; YDeliver 0 true; YSubscribe 0; YSubscribe 0; YFetch 0 None; YFetch 0 None;
   YCommit [ex_rec 3 "A"]; YAccept 0; YTake; YSend (TAll 0); YWork 0 true].
Example C42_restart_example : exists y1 ds d0 y u d,
  yrun leveldb_mode (sys_init [stats_sub]) (firstn 5 ex_catch_up) = Some y1
  /\ accept_all new_stats (firstn 1 (l_recs (y_log y1))) = Some ds
  /\ init_projections (Some (save_snapshot ds)) = (d0, 2)
  /\ yrun leveldb_mode (sys_init [stats_sub]) (firstn 5 ex_catch_up ++ YStartFrom 0 2 :: ex_restart) = Some y
  /\ undisturbed 0 (firstn 5 ex_catch_up ++ YStartFrom 0 2 :: ex_restart)
  /\ no_deletion (firstn 5 ex_catch_up ++ YStartFrom 0 2 :: ex_restart)
  /\ ordinary (firstn 1 (l_recs (y_log y1)))
  /\ nth_error (y_subs y) 0 = Some u /\ u_phase u = PLive /\ quiet y u
  /\ accept_all d0 (u_got u) = Some d /\ total_events d = 3 /\ latest_number d = 3.
Proof.
  eexists. eexists. eexists. eexists. eexists. eexists.
  split; [vm_compute; reflexivity|]. split; [reflexivity|]. split; [vm_compute; reflexivity|]. split; [vm_compute; reflexivity|].
  split; [|split; [|split; [split|repeat split]]].
  - intros l Hl. cbn in Hl. repeat (destruct Hl as [<-|Hl]; [exact Logic.I|]). destruct Hl.
  - intros s Hs. cbn in Hs. repeat (destruct Hs as [Hs|Hs]; [discriminate|]). destruct Hs.
  - intros r [<-|[]]. split; [exact (repair_is_text "A")|vm_compute; discriminate].
  - vm_compute; discriminate.
Qed.

(** The full statement is false, and always when nothing was saved between the
    snapshot and the moment the restarted API is live: the next event is never
    counted, whatever is saved after it. *)
Theorem C42_next_event_refuted : forall m subs ls1 ls2 ls3 i ds d0 g y u y' u' r d,
  yrun m (sys_init subs) (ls1 ++ YStartFrom i g :: ls2) = Some y ->
  accept_all new_stats (l_recs (y_log y)) = Some ds -> ordinary (l_recs (y_log y)) -> l_recs (y_log y) <> [] ->
  init_projections (Some (save_snapshot ds)) = (d0, g) ->
  nth_error subs i = Some stats_sub -> nth_error (y_subs y) i = Some u -> u_phase u = PLive ->
  yrun m y ls3 = Some y' -> nth_error (y_subs y') i = Some u' -> l_last (y_log y') < max64 ->
  no_deletion (ls1 ++ YStartFrom i g :: ls2 ++ ls3) ->
  In r (l_recs (y_log y')) -> r_gsn r = g ->
  accept_all d0 (u_got u') = Some d -> total_events d < how_many (l_recs (y_log y')).
Proof.
  intros m subs ls1 ls2 ls3 i ds d0 g y u y' u' r d R E Or NE I Hs Hi P R3 Hi' LM ND Hr Eg Ed.
  destruct (tells_all (l_recs (y_log y)) _ _ tells_new) as (d' & E' & T). rewrite E in E'. injection E' as <-. cbn [app] in T.
  unfold init_projections in I. rewrite snapshot_back in I by (eapply tells_storable; eauto). injection I as <- G.
  destruct (yrun_log _ _ _ _ R (log_sorted_init subs)) as [SS _]. pose proof SS as [S SL].
  destruct (yrun_log _ _ _ _ R3 SS) as [[_ SL'] [LL _]].
  unfold total_events, latest_number in G. rewrite (te_total _ _ T), (te_latest _ _ T) in G. unfold how_many in G.
  destruct (N.ltb_spec 0 (N.of_nat (length (l_recs (y_log y))))); [|destruct (l_recs (y_log y)); [congruence|cbn in *; lia]].
  assert (La : last (map r_gsn (l_recs (y_log y))) 0 < max64 /\ forall x, In x (l_recs (y_log y)) -> r_gsn x <= last (map r_gsn (l_recs (y_log y))) 0).
  { pose proof (incr_last _ S NE) as Gr. unfold greatest in Gr. destruct (l_recs (y_log y)) as [|a l] eqn:El; [congruence|].
    rewrite <- El in *. destruct Gr as [(x & Hx & <-) B]. split; auto. specialize (SL x Hx). lia. }
  destruct La as [La Le]. unfold succ64 in G. destruct (N.eqb_spec (last (map r_gsn (l_recs (y_log y))) 0) max64); [lia|].
  assert (GM : g < max64). { specialize (SL' r Hr). lia. }
  assert (Old : forall x, In x (l_recs (y_log y)) -> r_gsn x < g) by (intros x Hx; specialize (Le x Hx); lia).
  pose proof (restart_misses m subs ls1 ls2 ls3 i _ g y u y' u' r Hs GM LM R Hi P Old R3 Hi' ND Hr Eg) as X.
  destruct (tells_all (u_got u') _ _ T) as (d2 & Ed2 & T2). rewrite Ed in Ed2. injection Ed2 as <-.
  unfold total_events. rewrite (te_total _ _ T2). unfold how_many. rewrite app_length. lia.
Qed.
Print Assumptions C42_next_event_refuted.

(** It does happen: one event, a snapshot, a restart, two more events; the
    statistics say two. *)
Definition ex_idle_restart : list label :=
  [YFetch 0 None; YFetch 0 None; YSubscribe 0; YSubscribe 0; YFetch 0 None; YFetch 0 None].
Definition ex_later : list label :=
  [YCommit [ex_rec 2 "A"]; YAccept 0; YTake; YSend (TAll 0); YWork 0 true;
   YCommit [ex_rec 3 "A"]; YAccept 0; YTake; YSend (TAll 0); YWork 0 true].
Example C42_next_event_example : exists ds d0 y u y' u' d,
  yrun leveldb_mode (sys_init [stats_sub]) ([YCommit [ex_rec 1 "A"]; YAccept 0; YTake] ++ YStartFrom 0 2 :: ex_idle_restart) = Some y
  /\ accept_all new_stats (l_recs (y_log y)) = Some ds /\ ordinary (l_recs (y_log y))
  /\ init_projections (Some (save_snapshot ds)) = (d0, 2)
  /\ nth_error (y_subs y) 0 = Some u /\ u_phase u = PLive
  /\ yrun leveldb_mode y ex_later = Some y' /\ nth_error (y_subs y') 0 = Some u' /\ quiet y' u'
  /\ accept_all d0 (u_got u') = Some d
  /\ total_events d = 2 /\ how_many (l_recs (y_log y')) = 3.
Proof.
  eexists. eexists. eexists. eexists. eexists. eexists. eexists.
  split; [vm_compute; reflexivity|]. split; [reflexivity|]. split.
  { split; [|vm_compute; discriminate]. intros r [<-|[]]. split; [exact (repair_is_text "A")|vm_compute; discriminate]. }
  split; [vm_compute; reflexivity|]. split; [reflexivity|]. split; [reflexivity|]. split; [vm_compute; reflexivity|].
  repeat split.
Qed.

(** False too when a stream is deleted: its events stay counted. *)
Theorem C42_deletion_refuted : exists ls y u d,
  yrun leveldb_mode (sys_init [stats_sub]) ls = Some y /\ undisturbed 0 ls
  /\ nth_error (y_subs y) 0 = Some u /\ u_phase u = PLive /\ quiet y u
  /\ accept_all new_stats (u_got u) = Some d
  /\ total_events d = 1 /\ events_of_type "A" d = 1 /\ how_many (l_recs (y_log y)) = 0.
Proof.
  set (r := ex_rec 1 "A").
  exists [YStartFrom 0 0; YFetch 0 None; YFetch 0 None; YSubscribe 0; YSubscribe 0; YFetch 0 None; YFetch 0 None;
    YCommit [r]; YAccept 0; YTake; YSend (TAll 0); YWork 0 true; YDelete (r_stream r)].
  eexists. eexists. eexists. split; [vm_compute; reflexivity|]. split; [|repeat split].
  intros l Hl. cbn in Hl. repeat (destruct Hl as [<-|Hl]; [exact Logic.I|]). destruct Hl.
Qed.
Print Assumptions C42_deletion_refuted.

(** * C79: subscribers are handed only what was saved *)

Theorem C79_only_saved : forall m subs ls y i p u r, yrun m (sys_init subs) ls = Some y ->
  nth_error subs i = Some p -> nth_error (y_subs y) i = Some u -> In r (u_got u) -> exists rs, In (YCommit rs) ls /\ In r rs.
Proof.
  intros m subs ls y i p u r R Hs Hi Hr. pose proof (got_saved _ _ _ _ _ _ _ _ R Hs Hi Hr) as H.
  unfold saved_by in H. apply in_flat_map in H as (l & Hl & H). destruct l; try contradiction. eauto.
Qed.
Print Assumptions C79_only_saved.
Example C79_witness : exists y u, yrun leveldb_mode (sys_init [all_sub]) ex_catch_up = Some y
  /\ nth_error (y_subs y) 0 = Some u /\ In (ex_rec 3 "A") (u_got u) /\ In (YCommit [ex_rec 3 "A"]) ex_catch_up.
Proof. eexists. eexists. split; [vm_compute; reflexivity|]. split; [reflexivity|]. cbn. auto 20. Qed.
