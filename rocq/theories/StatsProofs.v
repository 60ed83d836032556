(** Proofs about the statistics. *)
From Coq Require Import ZArith.
From Verif Require Import Base LogSpec Core CoreSpec CoreProofs Json JsonSpec JsonProofs JsonText JsonTextSpec JsonTextProofs EncodingsProofs
  RecordIo Subscription SubscriptionSpec SubscriptionProofs SubscriptionCover SubscriptionRun InMemoryNumbers Stats StatsSpec.
Open Scope string_scope.
Open Scope N_scope.
Open Scope list_scope.

(** * Counting *)

Lemma in_map_put t k n m : in_map t (put k n m) = if String.eqb t k then n else in_map t m.
Proof.
  unfold in_map. induction m as [|[k' n'] m IH]; cbn [put List.find fst].
  - rewrite (String.eqb_sym k t). now destruct (String.eqb t k).
  - destruct (String.compare k k') eqn:E; cbn [List.find fst].
    + apply compare_eq in E as ->. rewrite (String.eqb_sym k' t). now destruct (String.eqb t k').
    + rewrite (String.eqb_sym k t). now destruct (String.eqb t k).
    + destruct (String.eqb_spec k' t) as [->|N].
      * destruct (String.eqb_spec t k) as [->|]; [rewrite compare_refl in E; discriminate|reflexivity].
      * exact IH.
Qed.

Lemma put_fst {A} t k (v : A) m : In t (map fst (put k v m)) <-> t = k \/ In t (map fst m).
Proof.
  induction m as [|[k' v'] m IH]; cbn [put map fst].
  - cbn. intuition.
  - destruct (String.compare k k') eqn:E; cbn [map fst].
    + apply compare_eq in E as ->. cbn. intuition.
    + cbn. intuition.
    + cbn [In]. rewrite IH. cbn. intuition.
Qed.

Definition total_sum (l : list record) : N := N.of_nat (length l).

(** What the statistics are after some records. *)
Record tells (d : stats) (rs : list record) : Prop := {
  te_map : exists m, s_counts d = Some m /\ keys_sorted m
           /\ (forall t, in_map t m = how_many (of_type t rs))
           /\ (forall t, In t (map fst m) <-> exists r, In r rs /\ r_atype r = t);
  te_latest : s_latest d = last (map r_gsn rs) 0;
  te_total : s_total d = how_many rs
}.

Lemma tells_new : tells new_stats [].
Proof. constructor; cbn; auto. exists []. split; [auto|]. split; [exact Logic.I|]. split; [auto|]. intros t; split; [intros []|intros (r & [] & _)]. Qed.

Lemma tells_accept d rs r : tells d rs -> exists d', accept d r = Some d' /\ tells d' (rs ++ [r]).
Proof.
  intros [(m & E & S & C & T) La To]. unfold accept. rewrite E. eexists. split; [reflexivity|]. constructor; cbn.
  - eexists. split; [reflexivity|]. split; [now apply put_sorted|]. split.
    + intros t. rewrite in_map_put. unfold of_type. rewrite filter_app. cbn [filter]. rewrite (String.eqb_sym (r_atype r) t).
      destruct (String.eqb_spec t (r_atype r)) as [->|].
      * rewrite C. unfold how_many, of_type. rewrite app_length. cbn. lia.
      * rewrite app_nil_r. apply C.
    + intros t. rewrite put_fst, T. split.
      * intros [->|(r' & H & <-)]; [exists r|exists r']; (split; [apply in_app_iff; cbn; auto|reflexivity]).
      * intros (r' & H & <-). apply in_app_iff in H as [H|[<-|[]]]; [right; eauto|now left].
  - rewrite map_app. cbn. rewrite last_last. reflexivity.
  - rewrite To. unfold how_many. rewrite app_length. cbn. lia.
Qed.

Lemma tells_all rs' : forall d rs, tells d rs -> exists d', accept_all d rs' = Some d' /\ tells d' (rs ++ rs').
Proof.
  induction rs' as [|r rs' IH]; intros d rs T; cbn [accept_all].
  - exists d. rewrite app_nil_r. auto.
  - destruct (tells_accept _ _ r T) as (d1 & -> & T1). destruct (IH _ _ T1) as (d2 & E & T2).
    exists d2. split; auto. now rewrite <- app_assoc in T2.
Qed.

Lemma accept_all_app d a : forall b, accept_all d (a ++ b) =
  match accept_all d a with Some d1 => accept_all d1 b | None => None end.
Proof. revert d. induction a as [|r a IH]; intros d b; cbn; auto. destruct (accept d r); auto. Qed.

Lemma incr_last rs : gsn_increasing rs -> rs <> [] -> greatest (last (map r_gsn rs) 0) rs.
Proof.
  intros I N. destruct (exists_last N) as (l & x & ->). rewrite map_app. cbn [map]. rewrite last_last.
  assert (G : (exists r, In r (l ++ [x]) /\ r_gsn r = r_gsn x) /\ forall r, In r (l ++ [x]) -> r_gsn r <= r_gsn x); [split|].
  - exists x. split; [apply in_app_iff; cbn; auto|auto].
  - intros r Hr. eapply gsn_last_app; eauto.
  - unfold greatest. destruct (l ++ [x]); [congruence|exact G].
Qed.

Lemma tells_reports d rs : tells d rs -> gsn_increasing rs -> reports d rs.
Proof.
  intros [(m & E & S & C & T) La To] I. constructor.
  - intros t. unfold events_of_type. rewrite E. apply C.
  - exact To.
  - unfold latest_number. rewrite La. destruct rs as [|r rs]; [reflexivity|]. apply incr_last; [auto|discriminate].
  - intros t. unfold sorted_types. rewrite E. apply T.
Qed.

(** * Snapshots *)

Lemma put_end {A} (l : list (string * A)) k v : (forall k' x, In (k', x) l -> String.compare k' k = Lt) -> put k v l = (l ++ [(k, v)])%list.
Proof.
  induction l as [|[k' v'] l IH]; intros H; cbn [put]; [reflexivity|].
  assert (E : String.compare k k' = Gt) by (apply compare_gt; eapply H; left; reflexivity).
  rewrite E, IH; [reflexivity|]. intros; eapply H; right; eauto.
Qed.

Lemma sorted_app {A} (a b : list (string * A)) k v : keys_sorted (a ++ (k, v) :: b)%list ->
  forall k' x, In (k', x) a -> String.compare k' k = Lt.
Proof.
  induction a as [|[k1 v1] a IH]; intros S k' x H; [destruct H|]. destruct H as [E|H].
  - injection E as -> ->. eapply sorted_below; [exact S|]. apply in_app_iff. right. left. reflexivity.
  - eapply IH; eauto. eapply sorted_tail. exact S.
Qed.

Lemma uint_back n n' : n <= max64 -> set_field (TUint n') (number_of n) = Some (TUint n).
Proof.
  unfold max64. intros H. unfold number_of. cbn [set_field].
  replace (0 <=? Z.of_N n)%Z with true by (symmetry; apply Z.leb_le; lia).
  replace (Z.of_N n <? 2 ^ 64)%Z with true by (symmetry; apply Z.ltb_lt; lia). cbn [andb].
  now rewrite N2Z.id.
Qed.

Lemma fill_back l : forall acc, keys_sorted (acc ++ l)%list -> (forall k n, In (k, n) l -> n <= max64) ->
  fill_map acc (map (fun p => (fst p, number_of (snd p))) l) = Some (acc ++ l)%list.
Proof.
  induction l as [|[k n] l IH]; intros acc S B; cbn [map fill_map].
  - now rewrite app_nil_r.
  - cbn [fst snd]. rewrite uint_back by (eapply B; left; reflexivity).
    rewrite put_end by (eapply sorted_app; eauto). rewrite IH; rewrite <- ?app_assoc; auto.
    intros; eapply B; right; eauto.
Qed.

Definition storable (d : stats) : Prop :=
  exists m, s_counts d = Some m /\ keys_sorted m /\ (forall k n, In (k, n) m -> is_text k /\ n <= max64)
            /\ s_latest d <= max64 /\ s_total d <= max64.

Lemma names_text : is_text n_counts /\ is_text n_latest /\ is_text n_total.
Proof. exact (conj (repair_is_text n_counts) (conj (repair_is_text n_latest) (repair_is_text n_total))). Qed.

Lemma sound_stats d : storable d -> sound (stats_json d) /\ nesting (stats_json d) <= max_nesting /\ is_num (stats_json d) = false.
Proof.
  intros (m & E & S & K & L1 & L2). unfold stats_json. rewrite E. split; [|split].
  - constructor. intros k x [[= <- <-]|[[= <- <-]|[[= <- <-]|[]]]].
    + split; [apply names_text|constructor].
      * intros k x H. apply in_map_iff in H as ([k' n] & [= <- <-] & H). split; [eapply K; eauto|]. constructor. exact Logic.I.
    + split; [apply names_text|constructor; exact Logic.I].
    + split; [apply names_text|constructor; exact Logic.I].
  - assert (Z : nesting (map_json m) <= 1).
    { assert (Y : fold_right N.max 0 (map (fun p => nesting (snd p)) (map (fun p => (fst p, number_of (snd p))) m)) = 0).
      { clear. induction m as [|p m IH]; cbn [map fold_right]; [reflexivity|]. rewrite IH. reflexivity. }
      change (nesting (map_json m)) with (1 + fold_right N.max 0 (map (fun p => nesting (snd p)) (map (fun p => (fst p, number_of (snd p))) m))).
      lia. }
    cbn [nesting map fold_right snd number_of]. unfold max_nesting. lia.
  - reflexivity.
Qed.

Lemma snapshot_back d : storable d -> load_snapshot (save_snapshot d) = Some d.
Proof.
  intros H. destruct (sound_stats d H) as (A & B & C). unfold load_snapshot, save_snapshot.
  rewrite read_back by (auto; rewrite C; discriminate).
  destruct H as (m & E & S & K & L1 & L2). unfold stats_json. rewrite E. cbn [fill_stats].
  change (stat_field n_counts) with (Some n_counts). change (stat_field n_latest) with (Some n_latest).
  change (stat_field n_total) with (Some n_total). cbn [String.eqb n_counts n_latest n_total Ascii.eqb Bool.eqb].
  unfold map_json. cbn [set_map s_counts]. rewrite fill_back; cbn [app]; auto; [|intros; eapply K; eauto].
  unfold set_number. cbn [s_latest s_total s_counts]. rewrite !uint_back by auto. destruct d. cbn in *. congruence.
Qed.

Lemma snapshot_cut d p q : storable d -> save_snapshot d = (p ++ q)%string -> (1 < String.length q)%nat -> load_snapshot p = None.
Proof.
  intros H E L. destruct (sound_stats d H) as (A & B & C). unfold save_snapshot in E.
  assert (X : exists q', print (stats_json d) = (p ++ q')%string /\ q' <> "").
  { revert E. generalize (print (stats_json d)). intros s. revert p. induction s as [|a s IH]; intros p E.
    - destruct p as [|b p]; cbn in E.
      + subst q. cbn in L. lia.
      + injection E as _ E. destruct p; cbn in E; [subst q; cbn in L; lia|discriminate].
    - destruct p as [|b p]; cbn in E; [exists (String a s); split; [reflexivity|discriminate]|].
      injection E as -> E. destruct (IH _ E) as (q' & -> & N). exists q'. auto. }
  destruct X as (q' & Ep & N). unfold load_snapshot, read_value.
  now rewrite (value_cut _ _ _ _ A B C Ep N).
Qed.

Lemma map_bound m (rs : list record) : keys_sorted m -> (forall t, in_map t m = how_many (of_type t rs)) ->
  (forall k n, In (k, n) m -> n <= how_many rs).
Proof.
  intros S C k n H. assert (E : in_map k m = n).
  { clear C. unfold in_map. induction m as [|[k' n'] m IH]; [destruct H|]. cbn [List.find fst].
    destruct H as [[= -> ->]|H]; [now rewrite String.eqb_refl|].
    destruct (String.eqb_spec k' k) as [->|]; [|apply IH; auto; eapply sorted_tail; eauto].
    pose proof (sorted_below _ _ _ S _ _ H) as X. rewrite compare_refl in X. discriminate. }
  rewrite <- E, C. unfold how_many, of_type. clear. induction rs as [|r rs IH]; cbn; [lia|].
  destruct (String.eqb (r_atype r) k); cbn in *; lia.
Qed.

Lemma tells_storable d rs : tells d rs -> ordinary rs -> storable d.
Proof.
  intros [(m & E & S & C & T) La To] [O1 O2]. exists m. split; auto. split; auto. split; [|split].
  - intros k n H. split.
    + destruct (proj1 (T k)) as (r & Hr & <-); [|now apply O1]. apply in_map_iff. exists (k, n). auto.
    + pose proof (map_bound m rs S C k n H). lia.
  - rewrite La. destruct rs as [|r rs]; [cbn; unfold max64; lia|].
    assert (N : r :: rs <> []) by discriminate. destruct (exists_last N) as (l & x & X). rewrite X in *.
    rewrite map_app. cbn [map]. rewrite last_last. apply O1. apply in_app_iff; cbn; auto.
  - lia.
Qed.

(** * Where delivered records come from *)

Section Saved.
Variable S : record -> Prop.

Definition chan_from (c : list result) : Prop := forall r, In (RRec r) c -> S r.
Definition phase_from (p : phase) : Prop :=
  match p with
  | PFetch _ _ _ chans => Forall chan_from chans
  | PDeliver _ rest => forall r, In r rest -> S r
  | _ => True
  end.
Record sub_from (u : sub) : Prop := {
  sf_buf : forall r, In r (u_buf u) -> S r;
  sf_got : forall r, In r (u_got u) -> S r;
  sf_phase : phase_from (u_phase u)
}.
Record sys_from (y : sys) : Prop := {
  yf_log : forall r, In r (l_recs (y_log y)) -> S r;
  yf_pend : forall rs r, In rs (y_pend y) -> In r rs -> S r;
  yf_queue : forall r, In r (y_queue y) -> S r;
  yf_now : forall r ts, y_now y = Some (r, ts) -> S r
}.

Lemma before_error_in c r : In r (before_error c) -> In (RRec r) c.
Proof. induction c as [|[x|e] c IH]; cbn; [tauto| |tauto]. intros [->|H]; auto. Qed.

Lemma gathered_from chans : Forall chan_from chans -> forall r, In r (gathered chans) -> S r.
Proof.
  intros F r H. assert (K : forall c, In c chans -> forall r, In r (before_error c) -> S r).
  { intros c Hc r' Hr. rewrite Forall_forall in F. eapply F; eauto. now apply before_error_in. }
  assert (G : In r match merge_results (map new_iter chans) with Some l => before_error l | None => [] end -> S r).
  { destruct (merge_results _) as [l|] eqn:E; [|intros []]. intros Hr.
    assert (A : Forall (iter_all S) (map new_iter chans)).
    { apply Forall_forall. intros it Hit. apply in_map_iff in Hit as (c & <- & Hc). split; [|discriminate].
      rewrite Forall_forall in F. intros x Hx. exact (F c Hc x Hx). }
    pose proof (merge_results_all S _ _ A E) as R. rewrite Forall_forall in R. apply R.
    apply before_error_in in Hr. clear -Hr. induction l as [|[x|e] l IH]; cbn in *; [tauto| |].
    - destruct Hr as [[= ->]|Hr]; auto.
    - destruct Hr as [|Hr]; [discriminate|auto]. }
  unfold gathered in H. destruct chans as [|c [|c' cs]]; auto. eapply (K c); [left|]; auto.
Qed.

Lemma answer_from L from q fail : (forall r, In r (l_recs L) -> S r) -> chan_from (answer L from q fail).
Proof.
  intros H r Hr. unfold answer in Hr. set (rs := filter _ _) in Hr.
  assert (X : In r rs -> S r) by (intros Y; apply filter_In in Y as [Y _]; auto).
  destruct fail as [k|]; [apply in_app_iff in Hr as [Hr|[Hr|[]]]; [|discriminate]|];
    apply in_map_iff in Hr as (r' & [= <-] & Hr); auto. apply X. eapply In_firstn; eauto.
Qed.

Lemma change_from m y i u l u' : change m y i u l u' -> sys_from y -> sub_from u -> sub_from u'.
Proof.
  intros C Y [B G P]. destruct C; cbn in *; try (constructor; cbn; auto; fail).
  - constructor; cbn; auto. intros r' H2. apply in_app_iff in H2 as [H2|[<-|[]]]; auto. eapply yf_now; eauto.
  - constructor; cbn; auto. now destruct (u_stop u).
  - rewrite H in P. cbn in P. pose proof (gathered_from _ P) as Q. destruct (gathered chans) as [|r rs]; constructor; cbn; auto.
    now destruct second.
  - rewrite H in P. cbn in P. constructor; cbn; auto. apply Forall_app. split; auto. constructor; auto.
    apply answer_from. apply (yf_log _ Y).
  - rewrite H in P. cbn in P.
    assert (Q : forall r', In r' (u_got u ++ [r]) -> S r').
    { intros r' Hr. apply in_app_iff in Hr as [Hr|[<-|[]]]; auto. }
    destruct ok; [destruct rest as [|r2 rest]|]; constructor; cbn; auto; destruct second; cbn; auto.
  - constructor; cbn; auto. destruct second; cbn; auto.
  - rewrite H0 in B. assert (Q : forall r', In r' (u_got u ++ [r]) -> S r').
    { intros r' Hr. apply in_app_iff in Hr as [Hr|[<-|[]]]; cbn in *; auto. }
    destruct (r_gsn r <=? u_last u); [|destruct ok]; constructor; cbn; auto; intros; apply B; cbn; auto.
  - constructor; cbn; auto. now destruct fin.
Qed.

Lemma sys_from_step m y l y' : ystep m y l = Some y' -> sys_from y ->
  (forall rs, l = YCommit rs -> forall r, In r rs -> S r) -> sys_from y'.
Proof.
  intros H [L P Q N] C. destruct (ystep_env _ _ _ _ H) as [l _ E1 E2 E3 E4 _|rs _ E1 E2 E3 E4 _|s E1 E2 E3 E4 _
    |k r rest E0 E1 E2 E3 E4 _|r E0 E3 E1 E2 E4 _|t r ts E0 _ E4 E1 E2 E3 _|t r ts E0 _ E4 E1 E2 E3 _
    |j q qs second u _ _ E1 E2 E3 E4 _|j q qs fin u _ _ E1 E2 E3 E4 _].
  - constructor; rewrite ?E1, ?E2, ?E3, ?E4; auto.
  - constructor; rewrite ?E1, ?E2, ?E3, ?E4; auto; cbn.
    + intros r Hr. apply in_app_iff in Hr as [Hr|Hr]; eauto.
    + intros rs' r Hr Hi. apply in_app_iff in Hr as [Hr|[<-|[]]]; eauto.
  - constructor; rewrite ?E1, ?E2, ?E3, ?E4; auto; cbn. intros r Hr. apply filter_In in Hr as [Hr _]. auto.
  - pose proof (P _ r (nth_error_In _ _ E0) (or_introl eq_refl)) as Hr.
    constructor; rewrite ?E1, ?E2, ?E3, ?E4; auto.
    + intros rs x Hx Hi. destruct rest as [|r2 rest].
      * eapply P; [|exact Hi]. revert Hx. clear. revert k. induction (y_pend y) as [|a l IH]; intros [|k]; cbn; auto.
        intros [->|Hx]; eauto.
      * assert (X : In rs (y_pend y) \/ rs = r2 :: rest).
        { revert Hx. clear. revert k. induction (y_pend y) as [|a l IH]; intros [|k]; cbn; auto.
          - intros [<-|Hx]; auto.
          - intros [->|Hx]; auto. destruct (IH _ Hx); auto. }
        destruct X as [X| ->]; [eapply P; eauto|]. eapply P; [eapply nth_error_In; exact E0|now right].
    + intros x Hx. apply in_app_iff in Hx as [Hx|[<-|[]]]; auto.
  - assert (Hr : S r) by (apply Q; rewrite E3; now left). constructor; rewrite ?E1, ?E2, ?E4; auto.
    + intros x Hx. apply Q. rewrite E3. now right.
    + intros x ts. destruct (targets r (y_b y)); [discriminate|]. intros [= <- _]. auto.
  - constructor; rewrite ?E1, ?E2, ?E3, ?E4; auto. intros x ts'. destruct (remove_target t ts); [discriminate|].
    intros [= <- _]. eauto.
  - constructor; rewrite ?E1, ?E2, ?E3, ?E4; auto. intros x ts'. destruct (remove_target t ts); [discriminate|].
    intros [= <- _]. eauto.
  - constructor; rewrite ?E1, ?E2, ?E3, ?E4; auto.
  - constructor; rewrite ?E1, ?E2, ?E3, ?E4; auto.
Qed.

Lemma run_from m ls : forall y y' i u u', yrun m y ls = Some y' -> nth_error (y_subs y) i = Some u ->
  nth_error (y_subs y') i = Some u' -> sys_from y -> sub_from u -> (forall r, In r (saved_by ls) -> S r) ->
  sys_from y' /\ sub_from u'.
Proof.
  induction ls as [|l ls IH]; cbn; intros y y' i u u' R Hi Hi' Y U H.
  - injection R as <-. replace u' with u by congruence. auto.
  - destruct (ystep m y l) as [y1|] eqn:E; [|discriminate].
    destruct (ystep_sub _ _ _ _ _ _ E Hi) as (u1 & Hi1 & C).
    eapply (IH y1 y' i u1); eauto.
    + eapply sys_from_step; eauto. intros rs -> r Hr. apply H. apply in_app_iff. auto.
    + eapply change_from; eauto.
    + intros r Hr. apply H. apply in_app_iff. auto.
Qed.
End Saved.

(** Everything handed to a subscriber was saved. *)
Lemma got_saved m subs ls y i p u r : yrun m (sys_init subs) ls = Some y -> nth_error subs i = Some p ->
  nth_error (y_subs y) i = Some u -> In r (u_got u) -> In r (saved_by ls).
Proof.
  intros R Hs Hi Hr. destruct p as [qs cap].
  assert (H0 : nth_error (y_subs (sys_init subs)) i = Some (new_sub qs cap)) by (cbn; rewrite nth_error_map, Hs; reflexivity).
  destruct (run_from (fun r => In r (saved_by ls)) m ls _ _ _ _ _ R H0 Hi) as [_ U]; auto.
  - constructor; cbn; intros; try contradiction; discriminate.
  - constructor; cbn; intros; try contradiction; auto.
  - now apply (sf_got _ _ U).
Qed.

Lemma log_saved m ls : forall y y', no_deletion ls -> yrun m y ls = Some y' ->
  l_recs (y_log y') = l_recs (y_log y) ++ saved_by ls.
Proof.
  induction ls as [|l ls IH]; cbn; intros y y' N R.
  - injection R as <-. now rewrite app_nil_r.
  - destruct (ystep m y l) as [y1|] eqn:E; [|discriminate].
    rewrite (IH y1 y'); auto; [|intros s Hs; apply (N s); now right].
    destruct (ystep_env _ _ _ _ E) as [l F E1|rs _ E1|s E1|k r rest _ E1|r _ _ E1|t r ts _ _ _ E1|t r ts _ _ _ E1
      |j q qs second u _ _ E1|j q qs fin u _ _ E1]; rewrite E1; cbn; auto.
    + destruct l; auto; contradiction.
    + now rewrite app_assoc.
    + exfalso. apply (N s). now left.
Qed.

Lemma no_deletion_app a b : no_deletion (a ++ b) <-> no_deletion a /\ no_deletion b.
Proof.
  split; [intros H; split; intros s Hs; apply (H s), in_app_iff; auto|].
  intros [A B] s Hs. apply in_app_iff in Hs as [Hs|Hs]; [eapply A|eapply B]; eauto.
Qed.

Lemma firstn_last_le k l d : gsn_increasing l -> forall r, In r (firstn k l) -> r_gsn r <= last (map r_gsn (firstn k l)) d.
Proof.
  intros I r Hr. pose proof (incr_firstn k l I) as F. destruct (firstn k l) as [|a rest] eqn:E; [destruct Hr|].
  assert (N : a :: rest <> []) by discriminate. destruct (exists_last N) as (l' & x & X). rewrite X in *.
  rewrite map_app. cbn [map]. rewrite last_last. eapply gsn_last_app; eauto.
Qed.

Lemma skipn_at {A} k : forall (l : list A) x, nth_error l k = Some x -> skipn k l = x :: skipn (S k) l.
Proof. induction k as [|k IH]; intros [|a l] x H; try discriminate; [cbn in *; congruence|]. apply IH. exact H. Qed.

(** A subscription is started once. *)
Lemma only_start m subs ls1 ls2 i p g g' y u : nth_error subs i = Some p ->
  yrun m (sys_init subs) (ls1 ++ YStartFrom i g :: ls2) = Some y -> nth_error (y_subs y) i = Some u ->
  In (YStartFrom i g') (ls1 ++ YStartFrom i g :: ls2) -> g' = g.
Proof.
  intros Hs R Hi H. destruct p as [qs cap].
  assert (H0 : nth_error (y_subs (sys_init subs)) i = Some (new_sub qs cap)) by (cbn; rewrite nth_error_map, Hs; reflexivity).
  destruct (run_split _ _ _ _ _ _ _ R H0 Hi eq_refl) as [[_ N]|(l1 & l & l2 & y1 & u1 & y2 & u2 & E & S & _ & _ & _ & _ & _ & _ & _ & N)].
  - exfalso. apply (N (YStartFrom i g)); [apply in_app_iff; right; now left|right; eauto].
  - assert (K : forall x, In (YStartFrom i x) (ls1 ++ YStartFrom i g :: ls2) -> l = YStartFrom i x).
    { intros x Hx. rewrite E in Hx. apply in_app_iff in Hx as [Hx|[Hx|Hx]]; auto;
        exfalso; (eapply N; [|right; exists x; reflexivity]); auto. }
    pose proof (K g' H) as A. rewrite (K g) in A; [congruence|]. apply in_app_iff. right. now left.
Qed.

(** The subscription of a restarted API gets exactly the records the snapshot lacks. *)
Lemma restart_gets m subs ls1 ls2 i cap g y1 y u k :
  yrun m (sys_init subs) ls1 = Some y1 ->
  yrun m (sys_init subs) (ls1 ++ YStartFrom i g :: ls2) = Some y ->
  m_locked m = true \/ in_turn (ls1 ++ YStartFrom i g :: ls2) ->
  undisturbed i (ls1 ++ YStartFrom i g :: ls2) -> no_deletion (ls1 ++ YStartFrom i g :: ls2) ->
  nth_error subs i = Some ([None], cap) -> l_last (y_log y) < max64 ->
  nth_error (y_subs y) i = Some u -> u_phase u = PLive -> quiet y u ->
  (g = 0 /\ k = 0%nat)
  \/ (g = last (map r_gsn (firstn k (l_recs (y_log y1)))) 0 + 1 /\ (0 < k < length (l_recs (y_log y1)))%nat) ->
  l_recs (y_log y) = firstn k (l_recs (y_log y1)) ++ u_got u.
Proof.
  intros R1 R O UD ND Hs LM Hi P Q G.
  pose proof R as R'. rewrite run_app, R1 in R'.
  apply no_deletion_app in ND as ND'. destruct ND' as [ND1 ND2].
  pose proof (log_saved _ _ _ _ ND2 R') as EL.
  pose proof (log_saved _ _ _ _ ND R) as EL0. cbn [l_recs y_log sys_init empty_log app] in EL0.
  destruct (yrun_log _ _ _ _ R (log_sorted_init subs)) as [S [_ LT]].
  destruct (yrun_log _ _ _ _ R1 (log_sorted_init subs)) as [S1 _].
  set (L1 := l_recs (y_log y1)) in *. set (L := l_recs (y_log y)) in *.
  assert (EF : firstn k L1 = firstn k L).
  { rewrite EL. rewrite firstn_app. destruct G as [[_ ->]|[_ K]]; [reflexivity|].
    replace (k - length L1)%nat with 0%nat by lia. cbn [firstn]. now rewrite app_nil_r. }
  assert (ES : L = firstn k L1 ++ skipn k L) by (rewrite EF; symmetry; apply firstn_skipn).
  assert (GM : g < max64).
  { destruct G as [[-> _]|[-> K]]; [unfold max64; lia|].
    destruct (nth_error L1 k) as [x|] eqn:Ex; [|apply nth_error_None in Ex; lia].
    assert (Hx : In x L1) by (eapply nth_error_In; eauto).
    assert (last (map r_gsn (firstn k L1)) 0 < r_gsn x).
    { destruct (exists_last (l := firstn k L1)) as (l' & z & Z). { destruct L1, k; cbn in *; try lia; discriminate. }
      rewrite Z. rewrite map_app. cbn [map]. rewrite last_last.
      destruct S1 as [S1 _]. fold L1 in S1. rewrite <- (firstn_skipn k L1) in S1. apply incr_app_inv in S1 as (_ & _ & X).
      apply X; [rewrite Z; apply in_app_iff; cbn; auto|]. rewrite <- (firstn_skipn k L1) in Ex.
      rewrite nth_error_app2 in Ex by (rewrite firstn_length; lia). eapply nth_error_In; eauto. }
    assert (r_gsn x <= l_last (y_log y)). { apply S. fold L. rewrite EL. apply in_app_iff. auto. } lia. }
  rewrite ES at 1. f_equal.
  destruct (run_ordered m subs _ y i [None] cap u R Hs) as [I Lo]; auto.
  { now left. } { repeat constructor; cbn; tauto. }
  { intros g' Hg. now rewrite (only_start _ _ _ _ _ _ _ _ _ _ Hs R Hi Hg). }
  assert (Lg : forall r, In r (u_got u) -> g <= r_gsn r).
  { apply Lo. apply in_app_iff. right. now left. }
  destruct S as [S SL]. fold L in S, SL. pose proof S as S'. rewrite ES in S'. apply incr_app_inv in S' as (F1 & F2 & F3).
  assert (Fp : forall r, In r (firstn k L1) -> r_gsn r < g).
  { intros r Hr. destruct G as [[-> ->]|[-> K]]; [destruct Hr|]. destruct S1 as [S1 _].
    pose proof (firstn_last_le k L1 0 S1 r Hr). lia. }
  assert (Above : forall r, In r (skipn k L) -> g <= r_gsn r).
  { intros r Hr. destruct G as [[-> _]|[-> K]]; [lia|].
    destruct (exists_last (l := firstn k L1)) as (l' & z & Z). { destruct L1, k; cbn in *; try lia; discriminate. }
    rewrite Z, map_app. cbn [map]. rewrite last_last.
    assert (r_gsn z < r_gsn r) by (apply F3; auto; rewrite Z; apply in_app_iff; cbn; auto). lia. }
  symmetry. apply incr_same_elements; auto. intros r. split; intros Hr.
  - assert (HL : In r L) by (rewrite EL0; eapply got_saved; eauto). rewrite ES in HL. apply in_app_iff in HL as [HL|HL]; auto.
    specialize (Fp r HL). specialize (Lg r Hr). lia.
  - assert (HL : In r L) by (rewrite ES; apply in_app_iff; auto).
    apply (run_complete m subs ls1 ls2 i None cap g y1 y u R1 R O UD Hs GM LM Hi P Q r HL eq_refl).
    pose proof (Above r Hr) as A. destruct (N.eq_dec (r_gsn r) g) as [Eg|]; [right|left; lia]. split; auto.
    destruct G as [[-> ->]|[G K]].
    { exfalso. destruct (LT r HL) as [[]|Z]. cbn in Z. lia. }
    destruct (nth_error L1 k) as [x|] eqn:Ex; [|apply nth_error_None in Ex; lia].
    assert (Hx : In x L1) by (eapply nth_error_In; eauto).
    assert (Ex' : nth_error L k = Some x) by (rewrite EL; rewrite nth_error_app1 by lia; auto).
    pose proof (skipn_at _ _ _ Ex') as Sk.
    assert (Hx2 : In x (skipn k L)) by (rewrite Sk; now left).
    assert (Ax : r_gsn x <= r_gsn r).
    { rewrite Sk in F2, Hr. apply incr_cons_inv in F2 as [_ F2]. destruct Hr as [<-|Hr]; [lia|]. specialize (F2 r Hr). lia. }
    specialize (Above x Hx2). assert (r = x); [|now subst].
    apply (incr_same_gsn L r x S HL); [rewrite ES; apply in_app_iff; auto|lia].
Qed.

(** * The number a subscription stands at *)
Definition stands (g : N) (u : sub) : Prop := u_phase u <> PInit /\ u_last u = last (map r_gsn (u_got u)) g.

Lemma last_snoc (l : list record) r d : last (map r_gsn (l ++ [r])) d = r_gsn r.
Proof. rewrite map_app. cbn [map]. apply last_last. Qed.

Lemma change_stands m y i u l u' g : change m y i u l u' -> stands g u -> stands g u'.
Proof.
  intros C [P L]. destruct (change_started _ _ _ _ _ _ C P) as [P' _]. split; auto. clear P'.
  destruct C; cbn; auto; try contradiction.
  - destruct (gathered chans); auto.
  - destruct ok; [destruct rest|]; cbn; now rewrite last_snoc.
  - destruct (_ <=? _); cbn; auto. destruct ok; cbn; now rewrite last_snoc.
Qed.

Lemma run_stands m ls : forall y y' i u u' g, yrun m y ls = Some y' -> nth_error (y_subs y) i = Some u ->
  nth_error (y_subs y') i = Some u' -> stands g u -> stands g u'.
Proof.
  induction ls as [|l ls IH]; cbn; intros y y' i u u' g R Hi Hi' S.
  - injection R as <-. now replace u' with u by congruence.
  - destruct (ystep m y l) as [y1|] eqn:E; [|discriminate].
    destruct (ystep_sub _ _ _ _ _ _ E Hi) as (u1 & Hi1 & C). eapply IH; eauto. eapply change_stands; eauto.
Qed.

Lemma started_stands m subs ls1 ls2 i p g y u : nth_error subs i = Some p ->
  yrun m (sys_init subs) (ls1 ++ YStartFrom i g :: ls2) = Some y -> nth_error (y_subs y) i = Some u -> stands g u.
Proof.
  intros Hs R Hi. destruct p as [qs cap].
  assert (H0 : nth_error (y_subs (sys_init subs)) i = Some (new_sub qs cap)) by (cbn; rewrite nth_error_map, Hs; reflexivity).
  rewrite run_app in R. destruct (yrun m (sys_init subs) ls1) as [y1|] eqn:R1; [|discriminate].
  cbn [yrun] in R. destruct (ystep m y1 (YStartFrom i g)) as [y2|] eqn:E; [|discriminate].
  destruct (yrun_keeps _ _ _ _ _ _ R1 H0) as (u1 & Hi1 & _).
  destruct (ystep_sub _ _ _ _ _ _ E Hi1) as (u2 & Hi2 & C).
  assert (P : u_phase u1 = PInit).
  { cbn in E. rewrite Hi1 in E. destruct (u_phase u1); congruence. }
  destruct (yrun_before _ _ _ _ _ _ _ R1 H0 Hi1 P) as (_ & G & _ & _). cbn in G.
  eapply run_stands; eauto. inversion C; subst; cbn in *; try congruence.
  - rewrite Nat.eqb_refl in *. discriminate.
  - match goal with K : _ \/ _ |- _ => destruct K as [K|[K|(t & K & _)]]; discriminate end.
  - split; cbn; [discriminate|]. now rewrite G.
Qed.

(** An event numbered [g] that is saved once the subscription is live is never handed over. *)
Definition passed (r : record) (u : sub) : Prop :=
  r_gsn r <= u_last u /\ ~ In r (u_got u)
  /\ match u_phase u with PLive | PLeave _ _ | PDone | PGone => True | _ => False end.
Lemma change_passed m y i u l u' r : change m y i u l u' -> passed r u -> passed r u'.
Proof.
  intros Ch (A & B & C). unfold passed. destruct Ch; cbn; auto; try (rewrite H in C; contradiction).
  - destruct (N.leb_spec (r_gsn r0) (u_last u)); cbn; [rewrite H; auto|].
    assert (~ In r (u_got u ++ [r0])). { rewrite in_app_iff. intros [?|[->|[]]]; auto. lia. }
    destruct ok; cbn; rewrite ?H; repeat split; auto; lia.
  - destruct fin; auto.
Qed.
Lemma run_passed m ls : forall y y' i u u' r, yrun m y ls = Some y' -> nth_error (y_subs y) i = Some u ->
  nth_error (y_subs y') i = Some u' -> passed r u -> passed r u'.
Proof.
  induction ls as [|l ls IH]; cbn; intros y y' i u u' r R Hi Hi' S.
  - injection R as <-. now replace u' with u by congruence.
  - destruct (ystep m y l) as [y1|] eqn:E; [|discriminate].
    destruct (ystep_sub _ _ _ _ _ _ E Hi) as (u1 & Hi1 & C). eapply IH; eauto. eapply change_passed; eauto.
Qed.

Lemma incr_NoDup_recs l : gsn_increasing l -> NoDup l.
Proof. intros H. apply (NoDup_map_inv r_gsn). now apply incr_NoDup. Qed.

Lemma restart_misses m subs ls1 ls2 ls3 i cap g y u y' u' r :
  nth_error subs i = Some ([None], cap) -> g < max64 -> l_last (y_log y') < max64 ->
  yrun m (sys_init subs) (ls1 ++ YStartFrom i g :: ls2) = Some y ->
  nth_error (y_subs y) i = Some u -> u_phase u = PLive ->
  (forall x, In x (l_recs (y_log y)) -> r_gsn x < g) ->
  yrun m y ls3 = Some y' -> nth_error (y_subs y') i = Some u' -> no_deletion (ls1 ++ YStartFrom i g :: ls2 ++ ls3) ->
  In r (l_recs (y_log y')) -> r_gsn r = g ->
  (length (l_recs (y_log y)) + length (u_got u') < length (l_recs (y_log y')))%nat.
Proof.
  intros Hs GM LM R Hi P Old R3 Hi' ND Hr Eg.
  destruct (started_stands _ _ _ _ _ _ _ _ _ Hs R Hi) as [_ St].
  assert (RR : yrun m (sys_init subs) ((ls1 ++ YStartFrom i g :: ls2) ++ ls3) = Some y') by (rewrite run_app, R; auto).
  assert (ND' : no_deletion ((ls1 ++ YStartFrom i g :: ls2) ++ ls3)) by (rewrite <- app_assoc; exact ND).
  apply no_deletion_app in ND' as ND''. destruct ND'' as [ND1 ND3].
  pose proof (log_saved _ _ _ _ ND' RR) as EL0. pose proof (log_saved _ _ _ _ ND3 R3) as EL.
  pose proof (log_saved _ _ _ _ ND1 R) as EL1. cbn [l_recs y_log sys_init empty_log app] in EL0, EL1.
  destruct (yrun_log _ _ _ _ RR (log_sorted_init subs)) as [[S _] _].
  assert (NY : ~ In r (l_recs (y_log y))) by (intros K; specialize (Old r K); lia).
  assert (Got : forall x, In x (u_got u) -> In x (l_recs (y_log y))).
  { intros x Hx. rewrite EL1. eapply got_saved; eauto. }
  assert (Gls : forall g', In (YStartFrom i g') ((ls1 ++ YStartFrom i g :: ls2) ++ ls3) -> g' = g).
  { intros g' Hg. rewrite <- app_assoc in Hg, RR. cbn [app] in Hg, RR. eapply only_start; eauto. }
  destruct (run_ordered m subs _ y' i [None] cap u' RR Hs) as [I Lo]; auto.
  { now left. } { repeat constructor; cbn; tauto. } { intros g' Hg. now rewrite (Gls g' Hg). }
  assert (Lg : forall x, In x (u_got u') -> g <= r_gsn x).
  { apply Lo. rewrite <- app_assoc. apply in_app_iff. right. now left. }
  destruct (run_ordered m subs _ y i [None] cap u R Hs) as [_ Lo']; auto.
  { now left. } { repeat constructor; cbn; tauto. }
  { destruct (yrun_log m ls3 y y' R3) as [_ [X _]]; [apply (yrun_log _ _ _ _ R (log_sorted_init subs))|lia]. }
  { intros g' Hg. rewrite (Gls g'); auto. apply in_app_iff; auto. }
  assert (Nil : u_got u = []).
  { destruct (u_got u) as [|x l]; [reflexivity|exfalso].
    assert (g <= r_gsn x) by (apply (Lo' g); [apply in_app_iff; right; now left|now left]).
    specialize (Old x (Got x (or_introl eq_refl))). lia. }
  rewrite Nil in St. cbn in St.
  assert (Pa : passed r u). { split; [lia|]. split; [rewrite Nil; intros []|]. now rewrite P. }
  destruct (run_passed _ _ _ _ _ _ _ _ R3 Hi Hi' Pa) as (_ & Nr & _).
  rewrite EL in *. rewrite app_length.
  apply in_app_iff in Hr as [Hr|Hr]; [contradiction|].
  assert (Len : (length (r :: u_got u') <= length (saved_by ls3))%nat); [|cbn in Len; lia].
  apply NoDup_incl_length.
  - constructor; auto. now apply incr_NoDup_recs.
  - intros x [<-|Hx]; auto.
    assert (Hx' : In x (saved_by ((ls1 ++ YStartFrom i g :: ls2) ++ ls3))) by (eapply got_saved; eauto).
    rewrite <- EL0 in Hx'. apply in_app_iff in Hx' as [Hx'|]; auto. specialize (Old x Hx'). specialize (Lg x Hx). lia.
Qed.
