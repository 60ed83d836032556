(** Whole runs of the subscription machine: start, shutdown. *)
From Coq Require Import PeanoNat.
From Verif Require Import Base LogSpec Core CoreSpec CoreProofs LogProofs Broadcaster BroadcasterProofs
  Subscription SubscriptionSpec SubscriptionProofs SubscriptionCover.

Definition starts (i : nat) (l : label) : Prop := l = YStart i \/ exists g, l = YStartFrom i g.

Lemma change_started m y i u l u' : change m y i u l u' -> u_phase u <> PInit -> u_phase u' <> PInit /\ ~ starts i l.
Proof.
  intros C N. assert (NS : forall l0, touches i l0 = false -> ~ starts i l0).
  { intros l0 T [->|[g ->]]; cbn in T; rewrite Nat.eqb_refl in T; discriminate. }
  destruct C; try contradiction; (split; [|try (intros [S|[g0 S]]; discriminate)]); cbn; auto; try discriminate.
  - destruct H as [->|[->|(t & -> & _)]]; intros [S|[g0 S]]; discriminate.
  - destruct (gathered chans); [destruct second|]; discriminate.
  - destruct ok; [destruct rest; [destruct second|]|destruct second]; discriminate.
  - destruct second; discriminate.
  - destruct (_ <=? _); cbn; auto. destruct ok; cbn; auto. discriminate.
  - destruct fin; discriminate.
Qed.

Lemma run_started m ls : forall y y' i u u', yrun m y ls = Some y' -> nth_error (y_subs y) i = Some u ->
  nth_error (y_subs y') i = Some u' -> u_phase u <> PInit -> forall l, In l ls -> ~ starts i l.
Proof.
  induction ls as [|l ls IH]; cbn; intros y y' i u u' H Hi Hi' N l0 Hl; [destruct Hl|].
  destruct (ystep m y l) as [y1|] eqn:E; [|discriminate].
  destruct (ystep_sub _ _ _ _ _ _ E Hi) as (u1 & Hi1 & C).
  destruct (change_started _ _ _ _ _ _ C N) as [N1 S]. destruct Hl as [<-|Hl]; auto. eapply IH; eauto.
Qed.

Lemma change_init m y i u l u' : change m y i u l u' -> u_phase u = PInit -> u_phase u' = PInit \/ starts i l.
Proof.
  intros C P. destruct C; cbn; auto; try congruence.
  - right. now left.
  - right. right. eauto.
Qed.

(** A run either leaves the subscriber unstarted or splits at its only start. *)
Lemma run_split m ls : forall y y' i u u', yrun m y ls = Some y' -> nth_error (y_subs y) i = Some u ->
  nth_error (y_subs y') i = Some u' -> u_phase u = PInit ->
  (u_phase u' = PInit /\ forall l, In l ls -> ~ starts i l)
  \/ exists l1 l l2 y1 u1 y2 u2, ls = l1 ++ l :: l2 /\ starts i l /\ yrun m y l1 = Some y1
       /\ nth_error (y_subs y1) i = Some u1 /\ u_phase u1 = PInit
       /\ ystep m y1 l = Some y2 /\ nth_error (y_subs y2) i = Some u2 /\ change m y1 i u1 l u2
       /\ yrun m y2 l2 = Some y' /\ (forall x, In x l1 \/ In x l2 -> ~ starts i x).
Proof.
  induction ls as [|l ls IH]; cbn; intros y y' i u u' H Hi Hi' P.
  - injection H as <-. left. split; [congruence|]. intros ? [].
  - destruct (ystep m y l) as [y1|] eqn:E; [|discriminate].
    destruct (ystep_sub _ _ _ _ _ _ E Hi) as (u1 & Hi1 & C).
    assert (D : starts i l \/ ~ starts i l).
    { destruct l; try (right; intros [S|[g0 S]]; discriminate);
        (destruct (Nat.eq_dec i0 i) as [->|N]; [left|right; intros [S|[g0 S]]; congruence]).
      - now left.
      - right. eauto. }
    destruct D as [D|D].
    + right. exists [], l, ls, y, u, y1, u1. cbn. split; auto. split; auto. split; auto. split; auto. split; auto. split; auto.
      split; auto. split; auto. split; auto. intros x [[]|Hx].
      eapply run_started; eauto.
      destruct D as [->|[g ->]]; inversion C; subst; cbn in *; try (rewrite Nat.eqb_refl in *; discriminate);
        try (match goal with K : _ \/ _ |- _ => destruct K as [K|[K|(t & K & _)]]; discriminate end); try discriminate.
      destruct (u_stop u); discriminate.
    + destruct (change_init _ _ _ _ _ _ C P) as [P1|S]; [|contradiction].
      destruct (IH _ _ _ _ _ H Hi1 Hi' P1) as [[A B]|(l1 & l0 & l2 & y2 & u2 & y3 & u3 & -> & S & R & X)].
      * left. split; auto. intros x [<-|Hx]; auto.
      * right. exists (l :: l1), l0, l2, y2, u2, y3, u3. split; auto. split; auto. split.
        { cbn. now rewrite E. }
        destruct X as (X1 & X2 & X3 & X4 & X5 & X6 & X7). repeat (split; [assumption|]).
        intros x [[<-|Hx]|Hx]; auto.
Qed.

(** C20 *)
Lemma run_ordered_from m y0 ls y i qs cap u : yrun m y0 ls = Some y -> log_sorted (y_log y0) ->
  nth_error (y_subs y0) i = Some (new_sub qs cap) -> asks_for qs -> NoDup qs ->
  l_last (y_log y) < max64 -> (forall g, In (YStartFrom i g) ls -> g < max64) ->
  nth_error (y_subs y) i = Some u ->
  gsn_increasing (u_got u) /\ (forall g, In (YStartFrom i g) ls -> forall r, In r (u_got u) -> g <= r_gsn r).
Proof.
  intros H S0 H0 AF ND LM GM Hi.
  destruct (run_split _ _ _ _ _ _ _ H H0 Hi eq_refl)
    as [[P B]|(l1 & l & l2 & y1 & u1 & y2 & u2 & -> & S & R & Hi1 & P1 & St & Hi2 & C & R2 & X)].
  - destruct (yrun_before _ _ _ _ _ _ _ H H0 Hi P) as (_ & G & _). rewrite G. cbn. split; [apply incr_nil|intros ? ? ? []].
  - destruct (yrun_before _ _ _ _ _ _ _ R H0 Hi1 P1) as (_ & G & Z & Q). cbn in G, Z, Q.
    destruct (yrun_log _ _ _ _ R S0) as [S1 _].
    destruct (ystep_log _ _ _ _ St S1) as [S2 L2].
    assert (exists lo, sub_ok lo (y_log y2) u2 /\ u_queries u2 = qs /\ forall g, In (YStartFrom i g) (l1 ++ l :: l2) -> g = lo)
      as (lo & OK & Q2 & LO).
    { destruct S as [->|[g ->]].
      - exists 0. inversion C; subst; try (cbn in *; rewrite Nat.eqb_refl in *; discriminate);
          try (match goal with K : _ \/ _ |- _ => destruct K as [K|[K|(t & K & _)]]; discriminate end).
        split; [eapply sub_ok_later; [now apply start_ok|exact L2]|]. split; [auto|].
        intros g Hg. exfalso. apply in_app_iff in Hg as [Hg|[Hg|Hg]]; [|discriminate|];
          (eapply X; [|right; exists g; reflexivity]); auto.
      - exists g. inversion C; subst; try (cbn in *; rewrite Nat.eqb_refl in *; discriminate);
          try (match goal with K : _ \/ _ |- _ => destruct K as [K|[K|(t & K & _)]]; discriminate end).
        split; [eapply sub_ok_later; [apply start_from_ok; auto|exact L2]|].
        { apply GM. apply in_app_iff. right. now left. }
        split; [auto|]. intros g' Hg. apply in_app_iff in Hg as [Hg|[Hg|Hg]]; [|congruence|];
          exfalso; (eapply X; [|right; exists g'; reflexivity]); auto. }
    destruct (yrun_ok _ _ _ _ _ _ lo R2 S2 LM Hi2) as (u' & Hu & OK' & _); auto; try (rewrite Q2; auto; fail).
    assert (u' = u) by congruence. subst u'. destruct OK' as [A B _ _ _].
    apply incr_app_inv in A as (A & _ & _). split; auto.
    intros g Hg r Hr. rewrite (LO g Hg). apply B. apply in_app_iff. auto.
Qed.

Lemma run_ordered m subs ls y i qs cap u : yrun m (sys_init subs) ls = Some y ->
  nth_error subs i = Some (qs, cap) -> asks_for qs -> NoDup qs ->
  l_last (y_log y) < max64 -> (forall g, In (YStartFrom i g) ls -> g < max64) ->
  nth_error (y_subs y) i = Some u ->
  gsn_increasing (u_got u) /\ (forall g, In (YStartFrom i g) ls -> forall r, In r (u_got u) -> g <= r_gsn r).
Proof. intros H Hs. apply (run_ordered_from m _ ls y i qs cap u H (log_sorted_init subs)). apply (good_init i qs cap subs Hs). Qed.

(** C21 *)
Lemma run_complete_from m y0 ls1 ls2 i q cap g y1 y u :
  nth_error (y_subs y0) i = Some (new_sub [q] cap) -> good i [q] y0 (new_sub [q] cap) ->
  yrun m y0 ls1 = Some y1 ->
  yrun m y0 (ls1 ++ YStartFrom i g :: ls2) = Some y ->
  ordered m y0 (ls1 ++ YStartFrom i g :: ls2) ->
  undisturbed i (ls1 ++ YStartFrom i g :: ls2) ->
  g < max64 -> l_last (y_log y) < max64 ->
  nth_error (y_subs y) i = Some u -> u_phase u = PLive -> quiet y u ->
  forall r, In r (l_recs (y_log y)) -> q_match q r = true ->
    g < r_gsn r \/ In r (l_recs (y_log y1)) /\ r_gsn r = g -> In r (u_got u).
Proof.
  intros H0 G0 R1 R O UD GM LM Hi P Q r Hr M W.
  assert (AF : asks_for [q]).
  { destruct q as [t|]; [right; exists [t]; reflexivity|now left]. }
  destruct (ordered_app _ _ _ _ _ R1 O) as [O1 O2]. apply undisturbed_app in UD as [UD1 UD2].
  destruct (run_good _ _ _ _ AF _ _ _ R1 O1 UD1 H0 G0) as (u1 & Hi1 & G1).
  rewrite run_app, R1 in R. cbn [yrun] in R. destruct (ystep m y1 (YStartFrom i g)) as [y2|] eqn:E; [|discriminate].
  destruct (cover_start _ _ _ _ _ _ _ _ H0 _ _ R1 Hi1 G1 E) as (u2 & Hi2 & V2).
  apply calm_cons in UD2 as [K UD2]. destruct (ordered_cons _ _ _ _ _ E O2) as [O3 O4].
  destruct (step_good _ _ _ _ _ _ _ AF E O3 K Hi1 G1) as (u2' & Hi2' & C & G2).
  assert (u2' = u2) by congruence. subst u2'.
  destruct (run_cover _ _ _ _ _ _ AF GM _ _ _ R O4 UD2 LM Hi2 G2 V2) as (u' & Hi' & _ & V).
  assert (u' = u) by congruence. subst u'.
  eapply covered; eauto. split.
  - destruct q as [t|]; [right|left]; cbn in *; auto. apply String.eqb_eq in M. subst. auto.
  - destruct W as [W|[W1 W2]]; auto. right. split; auto. rewrite <- W2.
    destruct G1 as (F1 & _). apply (f_sorted _ _ _ _ F1). auto.
Qed.

Lemma run_complete m subs ls1 ls2 i q cap g y1 y u :
  yrun m (sys_init subs) ls1 = Some y1 ->
  yrun m (sys_init subs) (ls1 ++ YStartFrom i g :: ls2) = Some y ->
  m_locked m = true \/ in_turn (ls1 ++ YStartFrom i g :: ls2) ->
  undisturbed i (ls1 ++ YStartFrom i g :: ls2) ->
  nth_error subs i = Some ([q], cap) -> g < max64 -> l_last (y_log y) < max64 ->
  nth_error (y_subs y) i = Some u -> u_phase u = PLive -> quiet y u ->
  forall r, In r (l_recs (y_log y)) -> q_match q r = true ->
    g < r_gsn r \/ In r (l_recs (y_log y1)) /\ r_gsn r = g -> In r (u_got u).
Proof.
  intros R1 R O UD Hs. destruct (good_init i [q] cap subs Hs) as [H0 G0]. apply (ordered_init m subs) in O.
  exact (run_complete_from m _ ls1 ls2 i q cap g y1 y u H0 G0 R1 R O UD).
Qed.

(** C22 *)
Lemma run_live_complete_from m y0 ls1 ls2 i qs cap y1 u1 y u :
  nth_error (y_subs y0) i = Some (new_sub qs cap) -> good i qs y0 (new_sub qs cap) ->
  yrun m y0 ls1 = Some y1 ->
  yrun m y1 ls2 = Some y ->
  ordered m y0 (ls1 ++ ls2) -> undisturbed i (ls1 ++ ls2) ->
  asks_for qs -> l_last (y_log y) < max64 ->
  nth_error (y_subs y1) i = Some u1 -> u_phase u1 = PLive ->
  nth_error (y_subs y) i = Some u -> u_phase u = PLive -> quiet y u ->
  forall r, In r (l_recs (y_log y)) -> asked qs r ->
    l_last (y_log y1) < r_gsn r -> u_last u1 < r_gsn r -> In r (u_got u).
Proof.
  intros H0 G0 R1 R O UD AF LM Hi1 P1 Hi P Q r Hr M W1 W2.
  destruct (ordered_app _ _ _ _ _ R1 O) as [O1 O2]. apply undisturbed_app in UD as [UD1 UD2].
  destruct (run_good _ _ _ _ AF _ _ _ R1 O1 UD1 H0 G0) as (u1' & Hi1' & G1).
  assert (u1' = u1) by congruence. subst u1'.
  pose proof (cover_live i qs y1 u1 (proj1 G1) P1) as V1.
  assert (GM : N.max (u_last u1) (l_last (y_log y1)) < max64).
  { destruct G1 as (F1 & _). destruct (yrun_log _ _ _ _ R (f_sorted _ _ _ _ F1)) as [S _].
    pose proof (proj2 S r Hr). lia. }
  destruct (run_cover _ _ _ _ _ _ AF GM _ _ _ R O2 UD2 LM Hi1 G1 V1) as (u' & Hi' & _ & V).
  assert (u' = u) by congruence. subst u'.
  eapply covered; eauto. split; auto. left. lia.
Qed.

Lemma run_live_complete m subs ls1 ls2 i qs cap y1 u1 y u :
  yrun m (sys_init subs) ls1 = Some y1 ->
  yrun m y1 ls2 = Some y ->
  m_locked m = true \/ in_turn (ls1 ++ ls2) -> undisturbed i (ls1 ++ ls2) ->
  nth_error subs i = Some (qs, cap) -> asks_for qs -> l_last (y_log y) < max64 ->
  nth_error (y_subs y1) i = Some u1 -> u_phase u1 = PLive ->
  nth_error (y_subs y) i = Some u -> u_phase u = PLive -> quiet y u ->
  forall r, In r (l_recs (y_log y)) -> asked qs r ->
    l_last (y_log y1) < r_gsn r -> u_last u1 < r_gsn r -> In r (u_got u).
Proof.
  intros R1 R O UD Hs. destruct (good_init i qs cap subs Hs) as [H0 G0]. apply (ordered_init m subs) in O.
  exact (run_live_complete_from m _ ls1 ls2 i qs cap y1 u1 y u H0 G0 R1 R O UD).
Qed.

(** * Shutdown *)
Lemma step_closed m y l y' : ystep m y l = Some y' -> y_open y = false -> y_open y' = false.
Proof.
  intros H O. destruct l; cbn [ystep] in H; unfold idle in H; rewrite ?O in H; cbn [andb] in H;
    step_cases H; try discriminate; injection H as <-; try exact O; reflexivity.
Qed.

Definition never_finishes (u : sub) : Prop :=
  u_queries u <> [] /\ u_phase u <> PDone /\ u_phase u <> PLeave [] true.

Lemma change_never m y i u l u' : change m y i u l u' -> y_open y = false -> never_finishes u -> never_finishes u'.
Proof.
  intros C O (Q & D & L). assert (I : idle y = true -> False) by (unfold idle; rewrite O; discriminate).
  unfold never_finishes. destruct C; cbn; auto; try (split; [assumption|split; congruence]).
  - split; auto. destruct (u_stop u); split; discriminate.
  - destruct (gathered chans); [destruct second|]; cbn; (split; [assumption|split; discriminate]).
  - destruct ok; [destruct rest; [destruct second|]|destruct second]; cbn; (split; [assumption|split; congruence]).
  - destruct second; split; auto; split; discriminate.
  - destruct (_ <=? _); cbn; auto. destruct ok; cbn; auto. split; auto. split; [discriminate|congruence].
  - destruct fin; [congruence|]. split; auto. split; discriminate.
Qed.

Lemma run_never m ls : forall y y' i u u', yrun m y ls = Some y' -> y_open y = false ->
  nth_error (y_subs y) i = Some u -> nth_error (y_subs y') i = Some u' -> never_finishes u -> never_finishes u'.
Proof.
  induction ls as [|l ls IH]; cbn; intros y y' i u u' H O Hi Hi' N.
  - injection H as <-. congruence.
  - destruct (ystep m y l) as [y1|] eqn:E; [|discriminate].
    destruct (ystep_sub _ _ _ _ _ _ E Hi) as (u1 & Hi1 & C).
    eapply IH; eauto using step_closed, change_never.
Qed.

Lemma run_reg m i qs ls : forall y y' u, yrun m y ls = Some y' -> undisturbed i ls ->
  nth_error (y_subs y) i = Some u -> u_queries u = qs -> reg_ok i qs y u ->
  exists u', nth_error (y_subs y') i = Some u' /\ u_queries u' = qs /\ reg_ok i qs y' u'.
Proof.
  induction ls as [|l ls IH]; cbn; intros y y' u H UD Hi Q R.
  - injection H as <-. eauto.
  - destruct (ystep m y l) as [y1|] eqn:E; [|discriminate]. apply calm_cons in UD as [K UD].
    destruct (ystep_sub _ _ _ _ _ _ E Hi) as (u1 & Hi1 & C).
    eapply IH; eauto. { rewrite (change_queries _ _ _ _ _ _ C). auto. }
    eapply reg_step; eauto.
Qed.

Lemma stop_listed_stops l : forall y i u, nth_error (y_subs y) i = Some u -> In i l ->
  exists u', nth_error (y_subs (fold_left (fun s j => stop_listed j s) l y)) i = Some u' /\ u_stop u' = true.
Proof.
  induction l as [|j l IH]; intros y i u Hi Hl; [destruct Hl|]. cbn [fold_left].
  assert (exists u1, nth_error (y_subs (stop_listed j y)) i = Some u1 /\ (j = i -> u_stop u1 = true)) as (u1 & H1 & S1).
  { unfold stop_listed. destruct (nth_error (y_subs y) j) as [v|] eqn:E; cbn.
    - destruct (Nat.eq_dec i j) as [->|N].
      + rewrite (nth_set_same _ _ _ _ E). eauto.
      + rewrite nth_set_other by auto. exists u. split; auto.
    - exists u. split; auto. intros ->. congruence. }
  destruct (in_dec Nat.eq_dec i l) as [D|D]; [eapply IH; eauto|].
  destruct Hl as [->|Hl]; [|contradiction].
  destruct (stop_listed_subs l _ _ _ H1) as [K|K]; eexists; (split; [exact K|]); cbn; auto.
Qed.

(** A stopped subscriber of an idle open broadcaster gets to Done. *)
Lemma leave_all m : forall qs y i u fin, nth_error (y_subs y) i = Some u -> u_phase u = PLeave qs fin -> idle y = true ->
  exists y' u', yrun m y (repeat (YUnsubscribe i) (S (length qs))) = Some y' /\ nth_error (y_subs y') i = Some u'
    /\ u_phase u' = (if fin then PDone else PGone).
Proof.
  induction qs as [|q qs IH]; intros y i u fin Hi P I.
  - cbn. rewrite Hi, P. cbn. eexists. eexists. split; [reflexivity|]. cbn. rewrite (nth_set_same _ _ _ _ Hi). split; reflexivity.
  - cbn [length repeat yrun ystep]. rewrite Hi, P, I.
    apply (IH _ i (with_phase (PLeave qs fin) u)); auto. cbn. now rewrite (nth_set_same _ _ _ _ Hi).
Qed.
