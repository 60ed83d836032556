(** Proofs about the live page of one aggregate type. *)
From Coq Require Import PeanoNat.
From Verif Require Import Base LogSpec Core CoreSpec CoreProofs LogProofs Subscription SubscriptionSpec SubscriptionProofs SubscriptionCover
  SubscriptionRun SubscriptionGap SubscriptionOnly Stats StatsSpec StatsProofs Ui UiSpec UiProofs.
Open Scope N_scope.
Open Scope list_scope.

Lemma envelopes_nth n rs : forall k e, nth_error (envelopes n rs) k = Some e ->
  nth_error rs k = Some (e_record e) /\ e_total e = n + N.of_nat k + 1.
Proof.
  revert n. induction rs as [|r rs IH]; intros n k e H; destruct k as [|k]; cbn in H; try discriminate.
  - injection H as <-. cbn. split; auto. lia.
  - destruct (IH _ _ _ H) as [A B]. split; auto. rewrite B. lia.
Qed.

Lemma incr_filter f l : gsn_increasing l -> gsn_increasing (filter f l).
Proof.
  induction l as [|r l IH]; cbn; auto. intros H. apply (incr_app_inv [r] l) in H as (_ & H & L).
  destruct (f r); auto. apply incr_cons; auto. intros b Hb. apply filter_In in Hb as [Hb _]. apply L; auto. now left.
Qed.

Lemma filter_swap {A} (f h : A -> bool) l : filter f (filter h l) = filter h (filter f l).
Proof. induction l as [|a l IH]; cbn; auto. destruct (f a) eqn:F, (h a) eqn:H; cbn; rewrite ?F, ?H, ?IH; auto. Qed.

Lemma incr_firstn k l : gsn_increasing l -> gsn_increasing (firstn k l).
Proof. intros H. rewrite <- (firstn_skipn k l) in H. now apply incr_app_inv in H as (H & _ & _). Qed.

(** The events up to number [x] of an increasing list are its first ones. *)
Lemma incr_firstn_until k l r : gsn_increasing l -> nth_error l k = Some r ->
  forall x, In x (firstn (S k) l) <-> In x l /\ r_gsn x <= r_gsn r.
Proof.
  intros I Hk x. assert (E : l = firstn (S k) l ++ skipn (S k) l) by (symmetry; apply firstn_skipn).
  rewrite E in I. apply incr_app_inv in I as (I1 & I2 & X).
  assert (L : firstn (S k) l = firstn k l ++ [r]).
  { clear -Hk. revert k Hk. induction l as [|a l IH]; intros [|k] H; cbn in *; try discriminate.
    - injection H as ->. reflexivity. - now rewrite (IH _ H). }
  assert (Hr : In r (firstn (S k) l)) by (rewrite L; apply in_app_iff; right; now left).
  split.
  - intros Hx. split; [eapply In_firstn; eauto|]. rewrite L in Hx, I1. apply in_app_iff in Hx as [Hx|[<-|[]]]; [|lia].
    apply incr_app_inv in I1 as (_ & _ & Z). specialize (Z x r Hx (or_introl eq_refl)). lia.
  - intros [Hx Le]. rewrite E in Hx. apply in_app_iff in Hx as [Hx|Hx]; auto. specialize (X _ _ Hr Hx). lia.
Qed.

Lemma count_split g x (l : list record) : g <= x ->
  (length (filter (fun r => (r_gsn r <=? g)%N) l) + length (filter (fun r => ((g <=? r_gsn r) && (r_gsn r <=? x))%N) l)
   = length (filter (fun r => (r_gsn r <=? x)%N) l) + length (filter (fun r => (r_gsn r =? g)%N) l))%nat.
Proof.
  intros H. induction l as [|r l IH]; cbn; auto.
  destruct (N.leb_spec (r_gsn r) g), (N.leb_spec g (r_gsn r)), (N.leb_spec (r_gsn r) x), (N.eqb_spec (r_gsn r) g);
    cbn; try lia.
Qed.

Lemma count_at g l : gsn_increasing l -> (length (filter (fun r => (r_gsn r =? g)%N) l) <= 1)%nat.
Proof.
  intros I. apply (incr_filter (fun r => r_gsn r =? g)) in I.
  assert (A : forall r, In r (filter (fun r => r_gsn r =? g) l) -> r_gsn r = g).
  { intros r H. apply filter_In in H as [_ H]. now apply N.eqb_eq. }
  destruct (filter _ l) as [|a [|b m]]; cbn; try lia. exfalso.
  apply (incr_app_inv [a] (b :: m)) in I as (_ & _ & I). specialize (I a b (or_introl eq_refl) (or_introl eq_refl)).
  rewrite (A a), (A b) in I; cbn; auto. lia.
Qed.

(** Nothing numbered zero is ever saved. *)
Lemma log_positive m ls : forall y y', yrun m y ls = Some y' ->
  (forall r, In r (l_recs (y_log y)) -> 0 < r_gsn r) -> forall r, In r (l_recs (y_log y')) -> 0 < r_gsn r.
Proof.
  induction ls as [|l ls IH]; cbn; intros y y' R H.
  - injection R as <-. auto.
  - destruct (ystep m y l) as [y1|] eqn:E; [|discriminate]. eapply IH; eauto.
    destruct (ystep_env _ _ _ _ E) as [l _ E1|rs G E1|s E1|k r rest _ E1|r _ _ E1|t r ts _ _ _ E1|t r ts _ _ _ E1
      |j q qs second u _ _ E1|j q qs fin u _ _ E1]; rewrite E1; cbn; auto.
    + intros r Hr. apply in_app_iff in Hr as [Hr|Hr]; auto. destruct (grows_spec _ _ G) as (_ & A & _). specialize (A r Hr). lia.
    + intros r Hr. apply filter_In in Hr as [Hr _]. auto.
Qed.

(** What the statistics have been handed is the log up to a number. *)
Lemma stats_prefix m subs ls0 lsa i cap t y1 u1 d :
  yrun m (sys_init subs) (ls0 ++ YStartFrom i 0 :: lsa) = Some y1 ->
  m_locked m = true \/ in_turn (ls0 ++ YStartFrom i 0 :: lsa) -> no_deletion (ls0 ++ YStartFrom i 0 :: lsa) ->
  (forall k, ~ In (YFetch i (Some k)) lsa) ->
  nth_error subs i = Some ([None], cap) -> l_last (y_log y1) < max64 ->
  nth_error (y_subs y1) i = Some u1 -> accept_all new_stats (u_got u1) = Some d ->
  u_got u1 = filter (fun r => r_gsn r <=? latest_number d) (l_recs (y_log y1)) /\ latest_number d <= l_last (y_log y1)
  /\ events_of_type t d = how_many (of_type t (u_got u1)).
Proof.
  intros R O ND RF Hs LM Hi A.
  assert (GF : forall g, In (YStartFrom i g) (ls0 ++ YStartFrom i 0 :: lsa) -> g < max64).
  { intros g Hg. assert (g = 0) as ->; [|reflexivity]. eapply (only_start m subs ls0 lsa i); eauto. }
  destruct (run_ordered m subs _ y1 i [None] cap u1 R Hs) as [I _]; auto. { now left. } { repeat constructor; cbn; tauto. }
  destruct (tells_all (u_got u1) _ _ tells_new) as (d' & A' & T). rewrite A in A'. injection A' as <-. cbn [app] in T.
  pose proof (log_saved _ _ _ _ ND R) as EL. cbn [l_recs y_log sys_init empty_log app] in EL.
  destruct (yrun_log _ _ _ _ R (log_sorted_init subs)) as [[SO SL] _].
  assert (SV : forall r, In r (u_got u1) -> In r (l_recs (y_log y1))).
  { intros r Hr. rewrite EL. eapply got_saved; eauto. }
  pose proof (te_latest _ _ T) as La.
  assert (G : greatest (latest_number d) (u_got u1)).
  { unfold latest_number. rewrite La. destruct (u_got u1) as [|r rs] eqn:E; [reflexivity|]. apply incr_last; auto. discriminate. }
  split; [|split].
  - apply incr_same_elements; auto; [now apply incr_filter|]. intros r. rewrite filter_In, N.leb_le. split.
    + intros Hr. split; auto. unfold greatest in G. destruct (u_got u1); [destruct Hr|]. now apply G.
    + intros [Hr Le]. unfold greatest in G. destruct (u_got u1) as [|a rs] eqn:E.
      * pose proof (log_positive m _ _ _ R (fun r H => match H with end) r Hr). lia.
      * destruct G as [(x & Hx & Ex) _]. rewrite <- E in *.
        destruct (yrun m (sys_init subs) ls0) as [y0|] eqn:R0; [|rewrite run_app, R0 in R; discriminate].
        eapply (run_gapless m subs ls0 lsa i None cap 0 y0 y1 u1); eauto; try reflexivity; [|lia].
        left. apply (log_positive m _ _ _ R (fun r H => match H with end) r Hr).
  - unfold greatest in G. destruct (u_got u1) as [|a rs]; [lia|]. destruct G as [(x & Hx & <-) _]. auto.
  - now apply tells_count.
Qed.

Lemma page_counts m subs ls0 lsa lsb lsc i j t cap1 cap2 y1 u1 d y w :
  yrun m (sys_init subs) (ls0 ++ YStartFrom i 0 :: lsa) = Some y1 ->
  nth_error (y_subs y1) i = Some u1 -> accept_all new_stats (u_got u1) = Some d ->
  yrun m (sys_init subs) ((ls0 ++ YStartFrom i 0 :: lsa) ++ lsb ++ YStartFrom j (latest_number d) :: lsc) = Some y ->
  m_locked m = true \/ in_turn ((ls0 ++ YStartFrom i 0 :: lsa) ++ lsb ++ YStartFrom j (latest_number d) :: lsc) ->
  no_deletion ((ls0 ++ YStartFrom i 0 :: lsa) ++ lsb ++ YStartFrom j (latest_number d) :: lsc) ->
  (forall k, ~ In (YFetch i (Some k)) lsa) -> (forall k, ~ In (YFetch j (Some k)) lsc) ->
  nth_error subs i = Some ([None], cap1) -> nth_error subs j = Some ([Some t], cap2) -> l_last (y_log y) < max64 ->
  nth_error (y_subs y) j = Some w ->
  forall k e, nth_error (envelopes (events_of_type t d) (u_got w)) k = Some e ->
  e_total e = how_many (of_type_until t (r_gsn (e_record e)) (l_recs (y_log y)))
              + how_many (filter (fun r => r_gsn r =? latest_number d) (of_type t (l_recs (y_log y)))).
Proof.
  intros R1 Hi A R O ND RF1 RF2 Hs1 Hs2 LM Hw k e He.
  set (lsA := ls0 ++ YStartFrom i 0 :: lsa) in *. set (g := latest_number d) in *.
  assert (RR := R). rewrite run_app, R1 in RR.
  assert (O1 : m_locked m = true \/ in_turn lsA). { destruct O as [O|O]; auto. right. intros z Hz. apply O, in_app_iff. auto. }
  apply no_deletion_app in ND as NN. destruct NN as [ND1 ND2].
  destruct (yrun_log _ _ _ _ R1 (log_sorted_init subs)) as [S1 _].
  destruct (yrun_log _ _ _ _ RR S1) as [[SO SL] [LT LN]].
  destruct (stats_prefix m subs ls0 lsa i cap1 t y1 u1 d R1 O1 ND1 RF1 Hs1) as (EU & GL & EC); auto; [lia|]. fold g in EU, GL.
  assert (EL : l_recs (y_log y) = l_recs (y_log y1) ++ saved_by (lsb ++ YStartFrom j g :: lsc)) by (eapply log_saved; eauto).
  rewrite (app_assoc lsA lsb) in R, O, ND.
  destruct (yrun m (sys_init subs) (lsA ++ lsb)) as [y2|] eqn:R2; [|rewrite run_app, R2 in R; discriminate].
  assert (GM : g < max64) by lia.
  assert (GF : forall g', In (YStartFrom j g') ((lsA ++ lsb) ++ YStartFrom j g :: lsc) -> g' = g).
  { intros g' Hg. eapply (only_start m subs (lsA ++ lsb) lsc j); eauto. }
  destruct (run_ordered m subs _ y j [Some t] cap2 w R Hs2) as [IW GW]; auto.
  { right. now exists [t]. } { repeat constructor; cbn; tauto. } { intros g' Hg. now rewrite (GF _ Hg). }
  specialize (GW g). destruct (envelopes_nth _ _ _ _ He) as [Hk ->]. set (x := e_record e) in *.
  assert (SW : forall r, In r (u_got w) -> In r (of_type t (l_recs (y_log y))) /\ g <= r_gsn r).
  { intros r Hr. split; [|apply GW; auto; apply in_app_iff; right; now left]. apply filter_In. split.
    - pose proof (log_saved _ _ _ _ ND R) as E. cbn [l_recs y_log sys_init empty_log app] in E. rewrite E. eapply got_saved; eauto.
    - destruct (got_asked m subs _ y j [Some t] cap2 w r R Hs2 Hw Hr) as [[H|[]]|[H|[]]]; [discriminate|].
      injection H as ->. apply String.eqb_refl. }
  assert (Hx : In x (u_got w)) by (eapply nth_error_In; eauto). destruct (SW _ Hx) as [Hx1 Hx2].
  set (L := of_type t (l_recs (y_log y))) in *.
  assert (IL : gsn_increasing L) by now apply incr_filter.
  assert (EW : firstn (S k) (u_got w) = filter (fun r => (g <=? r_gsn r) && (r_gsn r <=? r_gsn x)) L).
  { apply incr_same_elements; [now apply incr_firstn|now apply incr_filter|]. intros r.
    rewrite (incr_firstn_until _ _ _ IW Hk), filter_In, andb_true_iff, !N.leb_le. split.
    - intros [Hr Le]. destruct (SW r Hr). auto.
    - intros [Hr [G Le]]. split; auto. unfold L, of_type in Hr. apply filter_In in Hr as [Hr Er].
      eapply (run_gapless m subs (lsA ++ lsb) lsc j (Some t) cap2 g y2 y w) with (r' := x); eauto.
      destruct (N.eq_dec (r_gsn r) g) as [Eg|]; [right; split; auto|left; lia].
      assert (RR2 := R2). rewrite run_app, R1 in RR2. apply no_deletion_app in ND2 as [ND3 _].
      rewrite (log_saved _ _ _ _ ND3 RR2). apply in_app_iff. left.
      destruct (LN r Hr) as [|B]; auto. lia. }
  assert (EK : N.of_nat (length (firstn (S k) (u_got w))) = N.of_nat k + 1).
  { rewrite firstn_length. assert (k < length (u_got w))%nat by (apply nth_error_Some; congruence). lia. }
  assert (EN : events_of_type t d = N.of_nat (length (filter (fun r => r_gsn r <=? g) L))).
  { rewrite EC, EU. unfold how_many, of_type, L, of_type. rewrite EL, !filter_app, app_length.
    assert (Z : filter (fun r => r_gsn r <=? g) (filter (fun r => String.eqb (r_atype r) t) (saved_by (lsb ++ YStartFrom j g :: lsc))) = []).
    { apply filter_none. intros r Hr. apply filter_In in Hr as [Hr _]. apply N.leb_gt.
      destruct (LN r) as [B|B]; [rewrite EL; apply in_app_iff; auto| |lia].
      rewrite EL in SO. apply incr_app_inv in SO as (_ & _ & X). specialize (X r r B Hr). lia. }
    rewrite Z, filter_swap. cbn. f_equal. lia. }
  pose proof (count_split g (r_gsn x) L Hx2) as CS. rewrite <- EW in CS.
  unfold how_many, of_type_until. fold L. lia.
Qed.

Lemma page_first_none m subs ls0 lsa lsb lsc i j t cap1 cap2 y1 u1 d y w :
  yrun m (sys_init subs) (ls0 ++ YStartFrom i 0 :: lsa) = Some y1 ->
  nth_error (y_subs y1) i = Some u1 -> accept_all new_stats (u_got u1) = Some d ->
  yrun m (sys_init subs) ((ls0 ++ YStartFrom i 0 :: lsa) ++ lsb ++ YStartFrom j (latest_number d) :: lsc) = Some y ->
  m_locked m = true \/ in_turn ((ls0 ++ YStartFrom i 0 :: lsa) ++ lsb ++ YStartFrom j (latest_number d) :: lsc) ->
  no_deletion ((ls0 ++ YStartFrom i 0 :: lsa) ++ lsb ++ YStartFrom j (latest_number d) :: lsc) ->
  (forall k, ~ In (YFetch i (Some k)) lsa) -> (forall k, ~ In (YFetch j (Some k)) lsc) ->
  nth_error subs i = Some ([None], cap1) -> nth_error subs j = Some ([Some t], cap2) -> l_last (y_log y) < max64 ->
  nth_error (y_subs y) j = Some w ->
  ~ (exists r, In r (u_got u1) /\ r_gsn r = latest_number d /\ r_atype r = t) ->
  filter (fun r => r_gsn r =? latest_number d) (of_type t (l_recs (y_log y))) = [].
Proof.
  intros R1 Hi A R O ND RF1 RF2 Hs1 Hs2 LM Hw NE.
  set (lsA := ls0 ++ YStartFrom i 0 :: lsa) in *. set (g := latest_number d) in *.
  assert (RR := R). rewrite run_app, R1 in RR.
  assert (O1 : m_locked m = true \/ in_turn lsA). { destruct O as [O|O]; auto. right. intros z Hz. apply O, in_app_iff. auto. }
  apply no_deletion_app in ND as NN. destruct NN as [ND1 ND2].
  destruct (yrun_log _ _ _ _ R1 (log_sorted_init subs)) as [S1 _].
  destruct (yrun_log _ _ _ _ RR S1) as [[SO SL] [LT LN]].
  destruct (stats_prefix m subs ls0 lsa i cap1 t y1 u1 d R1 O1 ND1 RF1 Hs1) as (EU & GL & EC); auto; [lia|]. fold g in EU, GL.
  apply filter_none. intros r Hr. apply filter_In in Hr as [Hr Er]. apply N.eqb_neq. intros Eg. apply NE. exists r.
  split; [|split; auto; now apply String.eqb_eq]. rewrite EU. apply filter_In. split; [|apply N.leb_le; lia].
  destruct (LN r Hr); auto. lia.
Qed.

Lemma page_first m subs ls0 lsa lsb lsc i j t cap1 cap2 y1 u1 d y w :
  yrun m (sys_init subs) (ls0 ++ YStartFrom i 0 :: lsa) = Some y1 ->
  nth_error (y_subs y1) i = Some u1 -> accept_all new_stats (u_got u1) = Some d ->
  yrun m (sys_init subs) ((ls0 ++ YStartFrom i 0 :: lsa) ++ lsb ++ YStartFrom j (latest_number d) :: lsc) = Some y ->
  m_locked m = true \/ in_turn ((ls0 ++ YStartFrom i 0 :: lsa) ++ lsb ++ YStartFrom j (latest_number d) :: lsc) ->
  no_deletion ((ls0 ++ YStartFrom i 0 :: lsa) ++ lsb ++ YStartFrom j (latest_number d) :: lsc) ->
  (forall k, ~ In (YFetch i (Some k)) lsa) -> (forall k, ~ In (YFetch j (Some k)) lsc) ->
  nth_error subs i = Some ([None], cap1) -> nth_error subs j = Some ([Some t], cap2) -> l_last (y_log y) < max64 ->
  nth_error (y_subs y) j = Some w ->
  forall r, In r (u_got u1) -> r_gsn r = latest_number d -> r_atype r = t -> u_got w <> [] ->
  hd_error (u_got w) = Some r /\ how_many (filter (fun r => r_gsn r =? latest_number d) (of_type t (l_recs (y_log y)))) = 1.
Proof.
  intros R1 Hi A R O ND RF1 RF2 Hs1 Hs2 LM Hw r Hr Eg Et NE.
  set (lsA := ls0 ++ YStartFrom i 0 :: lsa) in *. set (g := latest_number d) in *.
  assert (RR := R). rewrite run_app, R1 in RR.
  assert (O1 : m_locked m = true \/ in_turn lsA). { destruct O as [O|O]; auto. right. intros z Hz. apply O, in_app_iff. auto. }
  apply no_deletion_app in ND as NN. destruct NN as [ND1 ND2].
  destruct (yrun_log _ _ _ _ R1 (log_sorted_init subs)) as [S1 _].
  destruct (yrun_log _ _ _ _ RR S1) as [[SO SL] [LT LN]].
  destruct (stats_prefix m subs ls0 lsa i cap1 t y1 u1 d R1 O1 ND1 RF1 Hs1) as (EU & GL & EC); auto; [lia|]. fold g in EU, GL.
  assert (EL : l_recs (y_log y) = l_recs (y_log y1) ++ saved_by (lsb ++ YStartFrom j g :: lsc)) by (eapply log_saved; eauto).
  assert (Hr1 : In r (l_recs (y_log y1))) by (rewrite EU in Hr; now apply filter_In in Hr as [Hr _]).
  assert (Hr2 : In r (l_recs (y_log y))) by (rewrite EL; apply in_app_iff; auto).
  split.
  - rewrite (app_assoc lsA lsb) in R, O, ND.
    destruct (yrun m (sys_init subs) (lsA ++ lsb)) as [y2|] eqn:R2; [|rewrite run_app, R2 in R; discriminate].
    assert (GM : g < max64) by lia.
    destruct (run_ordered m subs _ y j [Some t] cap2 w R Hs2) as [IW GW]; auto.
    { right. now exists [t]. } { repeat constructor; cbn; tauto. }
    { intros g' Hg. enough (g' = g) by lia. eapply (only_start m subs (lsA ++ lsb) lsc j); eauto. }
    specialize (GW g).
    assert (exists x xs, u_got w = x :: xs) as (x & xs & EW) by (destruct (u_got w); [congruence|eauto]).
    assert (Hx : In x (u_got w)) by (rewrite EW; now left).
    assert (Gx : g <= r_gsn x) by (apply GW; auto; apply in_app_iff; right; now left).
    assert (Hw' : In r (u_got w)).
    { eapply (run_gapless m subs (lsA ++ lsb) lsc j (Some t) cap2 g y2 y w) with (r' := x); eauto; [cbn; rewrite Et; apply String.eqb_refl| |lia].
      right. split; auto. assert (RR2 := R2). rewrite run_app, R1 in RR2. apply no_deletion_app in ND2 as [ND3 _].
      rewrite (log_saved _ _ _ _ ND3 RR2). apply in_app_iff. now left. }
    rewrite EW in Hw', IW. rewrite EW. cbn. destruct Hw' as [->|Hw']; auto. exfalso.
    apply (incr_app_inv [x] xs) in IW as (_ & _ & X). specialize (X x r (or_introl eq_refl) Hw'). lia.
  - pose proof (count_at g (of_type t (l_recs (y_log y))) (incr_filter _ _ SO)) as C. unfold how_many.
    assert (Hf : In r (filter (fun r => r_gsn r =? g) (of_type t (l_recs (y_log y))))).
    { apply filter_In. split; [|now apply N.eqb_eq]. apply filter_In. split; auto. rewrite Et. apply String.eqb_refl. }
    destruct (filter (fun r => r_gsn r =? g) (of_type t (l_recs (y_log y)))) as [|a [|b l]]; [destruct Hf|reflexivity|cbn in C; lia].
Qed.
