(** Proofs about the subscription machine. *)
From Coq Require Import PeanoNat.
From Verif Require Import Base LogSpec Core CoreSpec CoreProofs LogProofs Broadcaster BroadcasterProofs
  Subscription SubscriptionSpec.

(** * Lists *)
Lemma nth_set_same {A} i (x y : A) l : nth_error l i = Some y -> nth_error (set_nth i x l) i = Some x.
Proof. revert i. induction l as [|a l IH]; intros [|i]; cbn; intros H; try discriminate; auto. Qed.
Lemma nth_set_other {A} i j (x : A) l : i <> j -> nth_error (set_nth j x l) i = nth_error l i.
Proof.
  revert i j. induction l as [|a l IH]; intros [|i] [|j] H; cbn; auto; try congruence.
Qed.

Lemma run_app m ls1 : forall y ls2, yrun m y (ls1 ++ ls2) =
  match yrun m y ls1 with Some y1 => yrun m y1 ls2 | None => None end.
Proof. induction ls1 as [|l ls1 IH]; intros y ls2; cbn; auto. destruct (ystep m y l); auto. Qed.

(** * What a step does to subscriber [i] *)
Definition touches (i : nat) (l : label) : bool :=
  match l with
  | YSend t | YTimeout t => Nat.eqb (t_id t) i
  | YStart j | YStartFrom j _ | YFetch j _ | YDeliver j _ | YSubscribe j | YWork j _ | YStop j | YQuit j
  | YUnsubscribe j => Nat.eqb j i
  | _ => false
  end.

Inductive change (m : mode) (y : sys) (i : nat) (u : sub) : label -> sub -> Prop :=
| ch_same : forall l, touches i l = false -> change m y i u l u
| ch_stop : forall l, l = YStop i \/ l = YShutdown \/ (exists t, l = YTimeout t /\ t_id t = i) ->
    change m y i u l (with_stop u)
| ch_send : forall t r ts, t_id t = i -> y_now y = Some (r, ts) -> servable t ts = true ->
    change m y i u (YSend t) (with_buf (u_buf u ++ [r]) u)
| ch_start : u_phase u = PInit ->
    change m y i u (YStart i) (with_phase (if u_stop u then PCanceled else PSubscribe (u_queries u) false) u)
| ch_start_from : forall g, u_phase u = PInit ->
    change m y i u (YStartFrom i g) (with_last g (with_phase (PFetch false g (u_queries u) []) u))
| ch_gather : forall fail second from chans, u_phase u = PFetch second from [] chans ->
    change m y i u (YFetch i fail) (match gathered chans with
       | [] => loop_ended second u | rs => with_phase (PDeliver second rs) u end)
| ch_fetch : forall fail second from q qs chans, u_phase u = PFetch second from (q :: qs) chans ->
    change m y i u (YFetch i fail)
      (with_locks (u_locks u + (if Nat.eqb (length (answer (y_log y) from q fail)) 0 then 0 else 1))
         (with_phase (PFetch second from qs (chans ++ [answer (y_log y) from q fail])) u))
| ch_deliver : forall (ok : bool) (second : bool) r rest, u_phase u = PDeliver second (r :: rest) ->
    change m y i u (YDeliver i ok)
      (if ok then match rest with [] => loop_ended second (hand r u) | _ => with_phase (PDeliver second rest) (hand r u) end
       else with_phase (if second then PLeave (u_queries u) false else PGone) (hand r u))
| ch_subscribe : forall q qs second, u_phase u = PSubscribe (q :: qs) second -> idle y = true ->
    change m y i u (YSubscribe i) (with_phase (PSubscribe qs second) u)
| ch_subscribed : forall second : bool, u_phase u = PSubscribe [] second ->
    change m y i u (YSubscribe i)
      (with_phase (if second then PFetch true (succ64 (u_last u)) (u_queries u) [] else PLive) u)
| ch_work : forall (ok : bool) r rest, u_phase u = PLive -> u_buf u = r :: rest ->
    change m y i u (YWork i ok)
      (if r_gsn r <=? u_last u then with_buf rest u
       else if ok then hand r (with_buf rest u)
       else with_phase (PLeave (u_queries u) false) (hand r (with_buf rest u)))
| ch_quit : u_phase u = PLive -> u_stop u = true ->
    change m y i u (YQuit i) (with_phase (PLeave (u_queries u) true) u)
| ch_unsubscribe : forall q qs fin, u_phase u = PLeave (q :: qs) fin -> idle y = true ->
    change m y i u (YUnsubscribe i) (with_phase (PLeave qs fin) u)
| ch_left : forall fin : bool, u_phase u = PLeave [] fin ->
    change m y i u (YUnsubscribe i) (with_phase (if fin then PDone else PGone) u).

Lemma with_stop_idem u : with_stop (with_stop u) = with_stop u.
Proof. reflexivity. Qed.

Lemma stop_listed_subs l : forall y i u, nth_error (y_subs y) i = Some u ->
  nth_error (y_subs (fold_left (fun s j => stop_listed j s) l y)) i = Some u
  \/ nth_error (y_subs (fold_left (fun s j => stop_listed j s) l y)) i = Some (with_stop u).
Proof.
  induction l as [|j l IH]; intros y i u H; cbn [fold_left]; auto.
  assert (nth_error (y_subs (stop_listed j y)) i = Some u
          \/ nth_error (y_subs (stop_listed j y)) i = Some (with_stop u)) as [K|K].
  { unfold stop_listed. destruct (nth_error (y_subs y) j) as [v|] eqn:E; auto. cbn.
    destruct (Nat.eq_dec i j) as [->|Hn].
    - right. rewrite (nth_set_same _ _ _ _ E). congruence.
    - left. now rewrite nth_set_other. }
  - now apply IH.
  - destruct (IH _ _ _ K) as [Q|Q]; auto.
Qed.

Lemma stop_listed_rest l : forall y,
  let y' := fold_left (fun s j => stop_listed j s) l y in
  y_log y' = y_log y /\ y_pend y' = y_pend y /\ y_queue y' = y_queue y /\ y_now y' = y_now y
  /\ y_b y' = y_b y /\ y_open y' = y_open y /\ y_closing y' = y_closing y.
Proof.
  induction l as [|j l IH]; intros y; cbn [fold_left]; [repeat split|].
  destruct (IH (stop_listed j y)) as (A & B & C & D & E & F & G).
  unfold stop_listed in *. destruct (nth_error (y_subs y) j); cbn in *; repeat split; auto.
Qed.

Ltac step_cases H :=
  repeat match type of H with
  | context [match ?x with _ => _ end] => let E := fresh "E" in destruct x eqn:E; try discriminate H
  end.

Lemma ystep_sub m y l y' i u : ystep m y l = Some y' -> nth_error (y_subs y) i = Some u ->
  exists u', nth_error (y_subs y') i = Some u' /\ change m y i u l u'.
Proof.
  intros H Hi. destruct l; cbn [ystep] in H.
  - destruct (_ && _)%bool; [|discriminate]. injection H as <-. exists u. split; auto. apply ch_same; cbn; try reflexivity; apply Nat.eqb_neq; congruence.
  - destruct (_ && _)%bool; [|discriminate]. injection H as <-. exists u. split; auto. apply ch_same; cbn; try reflexivity; apply Nat.eqb_neq; congruence.
  - destruct (nth_error (y_pend y) k) as [[|r rest]|]; try discriminate.
    destruct (Nat.ltb _ _); [|discriminate]. injection H as <-. exists u. split; auto. apply ch_same; cbn; try reflexivity; apply Nat.eqb_neq; congruence.
  - destruct (y_queue y); [discriminate|]. destruct (idle y); [|discriminate].
    injection H as <-. exists u. split; auto. apply ch_same; cbn; try reflexivity; apply Nat.eqb_neq; congruence.
  - destruct (y_now y) as [[r ts]|] eqn:En; [|discriminate].
    destruct (nth_error (y_subs y) (t_id t)) as [v|] eqn:Ev; [|discriminate].
    destruct (servable t ts) eqn:Es; [|discriminate].
    destruct (Nat.ltb _ _); [|discriminate]. injection H as <-. cbn.
    destruct (Nat.eq_dec i (t_id t)) as [->|Hn].
    + rewrite (nth_set_same _ _ _ _ Ev). eexists. split; [reflexivity|].
      assert (v = u) by congruence. subst. eapply ch_send; eauto.
    + rewrite nth_set_other by auto. exists u. split; auto. apply ch_same; cbn; try reflexivity; apply Nat.eqb_neq; congruence.
  - destruct (y_now y) as [[r ts]|] eqn:En; [|discriminate].
    destruct (nth_error (y_subs y) (t_id t)) as [v|] eqn:Ev; [|discriminate].
    destruct (servable t ts) eqn:Es; [|discriminate]. injection H as <-. cbn.
    destruct (Nat.eq_dec i (t_id t)) as [->|Hn].
    + rewrite (nth_set_same _ _ _ _ Ev). eexists. split; [reflexivity|].
      assert (v = u) by congruence. subst. apply ch_stop; eauto.
    + rewrite nth_set_other by auto. exists u. split; auto. apply ch_same; cbn; try reflexivity; apply Nat.eqb_neq; congruence.
  - destruct (nth_error (y_subs y) i0) as [v|] eqn:Ev; [|discriminate].
    destruct (u_phase v) eqn:Ep; try discriminate. injection H as <-. cbn.
    destruct (Nat.eq_dec i i0) as [->|Hn].
    + rewrite (nth_set_same _ _ _ _ Ev). eexists. split; [reflexivity|].
      assert (v = u) by congruence. subst. now apply ch_start.
    + rewrite nth_set_other by auto. exists u. split; auto. apply ch_same; cbn; try reflexivity; apply Nat.eqb_neq; congruence.
  - destruct (nth_error (y_subs y) i0) as [v|] eqn:Ev; [|discriminate].
    destruct (u_phase v) eqn:Ep; try discriminate. injection H as <-. cbn.
    destruct (Nat.eq_dec i i0) as [->|Hn].
    + rewrite (nth_set_same _ _ _ _ Ev). eexists. split; [reflexivity|].
      assert (v = u) by congruence. subst. now apply ch_start_from.
    + rewrite nth_set_other by auto. exists u. split; auto. apply ch_same; cbn; try reflexivity; apply Nat.eqb_neq; congruence.
  - destruct (nth_error (y_subs y) i0) as [v|] eqn:Ev; [|discriminate].
    destruct (u_phase v) eqn:Ep; try discriminate. destruct qs as [|q qs].
    + injection H as <-. cbn.
      destruct (Nat.eq_dec i i0) as [->|Hn].
      * rewrite (nth_set_same _ _ _ _ Ev). eexists. split; [reflexivity|].
        assert (v = u) by congruence. subst. eapply ch_gather; eauto.
      * rewrite nth_set_other by auto. exists u. split; auto. apply ch_same; cbn; try reflexivity; apply Nat.eqb_neq; congruence.
    + destruct (_ || _)%bool; [|discriminate]. injection H as <-. cbn.
      destruct (Nat.eq_dec i i0) as [->|Hn].
      * rewrite (nth_set_same _ _ _ _ Ev). eexists. split; [reflexivity|].
        assert (v = u) by congruence. subst. eapply ch_fetch; eauto.
      * rewrite nth_set_other by auto. exists u. split; auto. apply ch_same; cbn; try reflexivity; apply Nat.eqb_neq; congruence.
  - destruct (nth_error (y_subs y) i0) as [v|] eqn:Ev; [|discriminate].
    destruct (u_phase v) eqn:Ep; try discriminate. destruct rest as [|r rest]; [discriminate|].
    injection H as <-. cbn.
    destruct (Nat.eq_dec i i0) as [->|Hn].
    + rewrite (nth_set_same _ _ _ _ Ev). eexists. split; [reflexivity|].
      assert (v = u) by congruence. subst. eapply ch_deliver; eauto.
    + rewrite nth_set_other by auto. exists u. split; auto. apply ch_same; cbn; try reflexivity; apply Nat.eqb_neq; congruence.
  - destruct (nth_error (y_subs y) i0) as [v|] eqn:Ev; [|discriminate].
    destruct (u_phase v) eqn:Ep; try discriminate. destruct qs as [|q qs].
    + injection H as <-. cbn.
      destruct (Nat.eq_dec i i0) as [->|Hn].
      * rewrite (nth_set_same _ _ _ _ Ev). eexists. split; [reflexivity|].
        assert (v = u) by congruence. subst. eapply ch_subscribed; eauto.
      * rewrite nth_set_other by auto. exists u. split; auto. apply ch_same; cbn; try reflexivity; apply Nat.eqb_neq; congruence.
    + destruct (idle y) eqn:Ei; [|discriminate]. injection H as <-. cbn.
      destruct (Nat.eq_dec i i0) as [->|Hn].
      * rewrite (nth_set_same _ _ _ _ Ev). eexists. split; [reflexivity|].
        assert (v = u) by congruence. subst. eapply ch_subscribe; eauto.
      * rewrite nth_set_other by auto. exists u. split; auto. apply ch_same; cbn; try reflexivity; apply Nat.eqb_neq; congruence.
  - destruct (nth_error (y_subs y) i0) as [v|] eqn:Ev; [|discriminate].
    destruct (u_phase v) eqn:Ep; try discriminate. destruct (u_buf v) as [|r rest] eqn:Eb; [discriminate|].
    injection H as <-. cbn [y_subs set_sub].
    destruct (Nat.eq_dec i i0) as [->|Hn].
    + rewrite (nth_set_same _ _ _ _ Ev). eexists. split; [reflexivity|].
      assert (v = u) by congruence. subst. eapply ch_work; eauto.
    + rewrite nth_set_other by auto. exists u. split; auto. apply ch_same; cbn; try reflexivity; apply Nat.eqb_neq; congruence.
  - destruct (nth_error (y_subs y) i0) as [v|] eqn:Ev; [|discriminate]. injection H as <-. cbn.
    destruct (Nat.eq_dec i i0) as [->|Hn].
    + rewrite (nth_set_same _ _ _ _ Ev). eexists. split; [reflexivity|].
      assert (v = u) by congruence. subst. apply ch_stop; eauto.
    + rewrite nth_set_other by auto. exists u. split; auto. apply ch_same; cbn; try reflexivity; apply Nat.eqb_neq; congruence.
  - destruct (nth_error (y_subs y) i0) as [v|] eqn:Ev; [|discriminate].
    destruct (u_phase v) eqn:Ep; try discriminate. destruct (u_stop v) eqn:Es; [|discriminate].
    injection H as <-. cbn.
    destruct (Nat.eq_dec i i0) as [->|Hn].
    + rewrite (nth_set_same _ _ _ _ Ev). eexists. split; [reflexivity|].
      assert (v = u) by congruence. subst. now apply ch_quit.
    + rewrite nth_set_other by auto. exists u. split; auto. apply ch_same; cbn; try reflexivity; apply Nat.eqb_neq; congruence.
  - destruct (nth_error (y_subs y) i0) as [v|] eqn:Ev; [|discriminate].
    destruct (u_phase v) eqn:Ep; try discriminate. destruct qs as [|q qs].
    + injection H as <-. cbn.
      destruct (Nat.eq_dec i i0) as [->|Hn].
      * rewrite (nth_set_same _ _ _ _ Ev). eexists. split; [reflexivity|].
        assert (v = u) by congruence. subst. eapply ch_left; eauto.
      * rewrite nth_set_other by auto. exists u. split; auto. apply ch_same; cbn; try reflexivity; apply Nat.eqb_neq; congruence.
    + destruct (idle y) eqn:Ei; [|discriminate]. injection H as <-. cbn.
      destruct (Nat.eq_dec i i0) as [->|Hn].
      * rewrite (nth_set_same _ _ _ _ Ev). eexists. split; [reflexivity|].
        assert (v = u) by congruence. subst. eapply ch_unsubscribe; eauto.
      * rewrite nth_set_other by auto. exists u. split; auto. apply ch_same; cbn; try reflexivity; apply Nat.eqb_neq; congruence.
  - destruct (y_closing y); [discriminate|]. injection H as <-. exists u. split; auto. apply ch_same; cbn; try reflexivity; apply Nat.eqb_neq; congruence.
  - destruct (_ && _)%bool; [|discriminate]. injection H as <-.
    destruct (stop_listed_subs (b_all (y_b y) ++ map snd (b_types (y_b y)))
      (mk_sys (y_log y) (y_pend y) (y_queue y) (y_now y) (y_b y) false true (y_subs y)) i u Hi) as [K|K];
      eexists; (split; [exact K|]); [now apply ch_same|apply ch_stop; auto].
Qed.

(** * The log *)
Definition log_sorted (L : log) : Prop :=
  gsn_increasing (l_recs L) /\ forall r, In r (l_recs L) -> r_gsn r <= l_last L.

(** [L'] is a later state of [L]. *)
Definition later (L L' : log) : Prop :=
  l_last L <= l_last L' /\ forall r, In r (l_recs L') -> In r (l_recs L) \/ l_last L < r_gsn r.

Lemma later_refl L : later L L.
Proof. split; [lia|auto]. Qed.
Lemma later_trans A B C : later A B -> later B C -> later A C.
Proof.
  intros [H1 H2] [H3 H4]. split; [lia|]. intros r Hr. destruct (H4 r Hr) as [K|K]; [|right; lia]. auto.
Qed.

Lemma last_default {A} (l : list A) a b : l <> [] -> last l a = last l b.
Proof.
  induction l as [|x l IH]; intros H; [congruence|]. destruct l; [reflexivity|]. cbn in *. apply IH. discriminate.
Qed.

Lemma grows_spec rs : forall n, grows n rs = true ->
  gsn_increasing rs /\ (forall r, In r rs -> n < r_gsn r) /\ n <= last (map r_gsn rs) n
  /\ (forall r, In r rs -> r_gsn r <= last (map r_gsn rs) n).
Proof.
  induction rs as [|r rs IH]; intros n H; cbn [grows] in H.
  - cbn. repeat split; try (intros ? []); [apply incr_nil|lia].
  - apply andb_true_iff in H as [H1 H2]. apply N.ltb_lt in H1.
    destruct (IH _ H2) as (A & B & C & D).
    assert (E : last (map r_gsn (r :: rs)) n = last (map r_gsn rs) (r_gsn r)).
    { cbn. destruct rs as [|b rs']; [reflexivity|]. apply last_default. discriminate. }
    rewrite E. split; [|split; [|split]].
    + apply incr_cons; auto.
    + intros b [->|Hb]; auto. specialize (B b Hb). lia.
    + lia.
    + intros b [->|Hb]; auto.
Qed.

Lemma ystep_log m y l y' : ystep m y l = Some y' -> log_sorted (y_log y) ->
  log_sorted (y_log y') /\ later (y_log y) (y_log y').
Proof.
  intros H S.
  assert (Q : y_log y' = y_log y -> log_sorted (y_log y') /\ later (y_log y) (y_log y')).
  { intros ->. split; auto. apply later_refl. }
  destruct l; cbn [ystep] in H.
  - destruct (_ && grows _ rs && _ && _)%bool eqn:G; [|discriminate]. injection H as <-. cbn.
    apply andb_true_iff in G as [G _]. apply andb_true_iff in G as [G _]. apply andb_true_iff in G as [_ G].
    destruct (grows_spec _ _ G) as (A & B & C & D). destruct S as [S1 S2]. split.
    + split; cbn.
      * apply incr_app; auto. intros a b Ha Hb. specialize (S2 a Ha). specialize (B b Hb). lia.
      * intros r Hr. apply in_app_iff in Hr as [Hr|Hr]; auto. specialize (S2 r Hr). lia.
    + split; cbn; auto. intros r Hr. apply in_app_iff in Hr as [Hr|Hr]; auto.
  - destruct (_ && _)%bool; [|discriminate]. injection H as <-. cbn. destruct S as [S1 S2]. split.
    + split; cbn; [now apply incr_filter|]. intros r Hr. apply filter_In in Hr. now apply S2.
    + split; cbn; [lia|]. intros r Hr. apply filter_In in Hr. tauto.
  - destruct (nth_error (y_pend y) k) as [[|r rest]|]; try discriminate.
    destruct (Nat.ltb _ _); [|discriminate]. injection H as <-. now apply Q.
  - destruct (y_queue y); [discriminate|]. destruct (idle y); [|discriminate]. injection H as <-. now apply Q.
  - destruct (y_now y) as [[r ts]|]; [|discriminate]. destruct (nth_error _ _); [|discriminate].
    destruct (_ && _)%bool; [|discriminate]. injection H as <-. now apply Q.
  - destruct (y_now y) as [[r ts]|]; [|discriminate]. destruct (nth_error _ _); [|discriminate].
    destruct (servable _ _); [|discriminate]. injection H as <-. now apply Q.
  - step_cases H; injection H as <-; now apply Q.
  - step_cases H; injection H as <-; now apply Q.
  - destruct (nth_error _ _) as [v|]; [|discriminate]. destruct (u_phase v); try discriminate.
    destruct qs; [|destruct (_ || _)%bool; [|discriminate]]; injection H as <-; now apply Q.
  - destruct (nth_error _ _) as [v|]; [|discriminate]. destruct (u_phase v); try discriminate.
    destruct rest; [discriminate|]. injection H as <-; now apply Q.
  - destruct (nth_error _ _) as [v|]; [|discriminate]. destruct (u_phase v); try discriminate.
    destruct qs; [|destruct (idle y); [|discriminate]]; injection H as <-; now apply Q.
  - destruct (nth_error _ _) as [v|]; [|discriminate]. destruct (u_phase v); try discriminate.
    destruct (u_buf v); [discriminate|]. injection H as <-; now apply Q.
  - destruct (nth_error _ _) as [v|]; [|discriminate]. injection H as <-; now apply Q.
  - destruct (nth_error _ _) as [v|]; [|discriminate]. destruct (u_phase v); try discriminate.
    destruct (u_stop v); [|discriminate]. injection H as <-; now apply Q.
  - destruct (nth_error _ _) as [v|]; [|discriminate]. destruct (u_phase v); try discriminate.
    destruct qs; [|destruct (idle y); [|discriminate]]; injection H as <-; now apply Q.
  - destruct (y_closing y); [discriminate|]. injection H as <-; now apply Q.
  - destruct (_ && _)%bool; [|discriminate]. injection H as <-. apply Q.
    destruct (stop_listed_rest (b_all (y_b y) ++ map snd (b_types (y_b y)))
      (mk_sys (y_log y) (y_pend y) (y_queue y) (y_now y) (y_b y) false true (y_subs y))) as (A & _). exact A.
Qed.

Lemma yrun_log m ls : forall y y', yrun m y ls = Some y' -> log_sorted (y_log y) ->
  log_sorted (y_log y') /\ later (y_log y) (y_log y').
Proof.
  induction ls as [|l ls IH]; cbn; intros y y' H S.
  - injection H as <-. split; auto. apply later_refl.
  - destruct (ystep m y l) as [y1|] eqn:E; [|discriminate].
    destruct (ystep_log _ _ _ _ E S) as [S1 L1]. destruct (IH _ _ H S1) as [S2 L2].
    split; auto. eapply later_trans; eauto.
Qed.

(** * Order (C20) *)

(** A channel answered by query [q] from number [from] on, now or earlier. *)
Definition chan_ok (L : log) (from : N) (q : query) (c : list result) : Prop :=
  gsn_increasing (before_error c)
  /\ forall r, In r (before_error c) ->
       from <= r_gsn r /\ q_match q r = true /\ r_gsn r <= l_last L
       /\ forall r', In r' (l_recs L) -> r_gsn r' = r_gsn r -> r' = r.

Lemma chan_ok_later L L' from q c : chan_ok L from q c -> later L L' -> chan_ok L' from q c.
Proof.
  intros [A B] [L1 L2]. split; auto. intros r Hr. destruct (B r Hr) as (H1 & H2 & H3 & H4).
  repeat split; auto; [lia|]. intros r' Hr' E. destruct (L2 r' Hr') as [K|K]; [now apply H4|lia].
Qed.

Lemma incr_same_gsn l a b : gsn_increasing l -> In a l -> In b l -> r_gsn a = r_gsn b -> a = b.
Proof.
  induction l as [|x l IH]; intros S Ha Hb E; [destruct Ha|].
  apply incr_cons_inv in S as [S1 S2]. destruct Ha as [->|Ha], Hb as [->|Hb]; auto.
  - specialize (S2 b Hb). lia.
  - specialize (S2 a Ha). lia.
Qed.

Lemma before_error_answer L from q fail :
  exists k, before_error (answer L from q fail)
    = firstn k (filter (fun r => (from <=? r_gsn r) && q_match q r) (l_recs L))
      /\ (fail = None -> k = length (filter (fun r => (from <=? r_gsn r) && q_match q r) (l_recs L))).
Proof.
  unfold answer. set (rs := filter _ _). destruct fail as [k|].
  - exists k. split; [|discriminate]. generalize (firstn k rs). induction l; cbn; congruence.
  - exists (length rs). rewrite firstn_all, before_error_map. auto.
Qed.

Lemma incr_firstn k l : gsn_increasing l -> gsn_increasing (firstn k l).
Proof. intros H. rewrite <- (firstn_skipn k l) in H. now apply incr_app_inv in H. Qed.
Lemma In_firstn {A} k (l : list A) x : In x (firstn k l) -> In x l.
Proof. intros H. rewrite <- (firstn_skipn k l). apply in_app_iff. auto. Qed.

Lemma answer_ok L from q fail : log_sorted L -> chan_ok L from q (answer L from q fail).
Proof.
  intros [S1 S2]. destruct (before_error_answer L from q fail) as (k & E & _). split.
  - rewrite E. apply incr_firstn. now apply incr_filter.
  - intros r Hr. rewrite E in Hr. apply In_firstn in Hr. apply filter_In in Hr as [Hr Hf].
    apply andb_true_iff in Hf as [H1 H2]. apply N.leb_le in H1.
    repeat split; auto. intros r' Hr' E'. now apply (incr_same_gsn (l_recs L)).
Qed.

Lemma q_match_excl q q' r : q <> q' -> q <> None -> q' <> None ->
  q_match q r = true -> q_match q' r = true -> False.
Proof.
  destruct q as [t|], q' as [t'|]; cbn; try congruence. intros N _ _ H1 H2.
  apply String.eqb_eq in H1, H2. congruence.
Qed.

(** Records of the same number in the channels of one read are the same record. *)
Definition chans_agree (chans : list (list result)) : Prop :=
  forall r r', In r (flat_map before_error chans) -> In r' (flat_map before_error chans) ->
    r_gsn r = r_gsn r' -> r = r'.

Lemma NoDup_app_intro {A} (a b : list A) : NoDup a -> NoDup b -> (forall x, In x a -> ~ In x b) -> NoDup (a ++ b).
Proof.
  induction a as [|x a IH]; cbn; intros Ha Hb D; auto. inversion Ha; subst. constructor.
  - rewrite in_app_iff. intros [?|?]; auto. apply (D x); auto.
  - apply IH; auto.
Qed.

Lemma chans_NoDup L from : forall qd chans, Forall2 (chan_ok L from) qd chans ->
  NoDup qd -> ~ In None qd -> chans_agree chans ->
  NoDup (map r_gsn (flat_map before_error chans)).
Proof.
  induction qd as [|q qd IH]; intros chans F ND NN AG; inversion F as [|? c ? cs Hc F']; subst; cbn; [constructor|].
  inversion ND; subst. rewrite map_app. apply NoDup_app_intro.
  - apply incr_NoDup. apply Hc.
  - apply IH; auto; [cbn in NN; tauto|]. intros r r' Hr Hr' E. apply AG; auto; cbn; apply in_app_iff; auto.
  - intros n Hn Hn'. apply in_map_iff in Hn as (r & <- & Hr). apply in_map_iff in Hn' as (r' & E & Hr').
    assert (r' = r).
    { apply AG; auto; cbn; apply in_app_iff; auto. }
    subst r'. apply in_flat_map in Hr' as (c' & Hc' & Hr').
    destruct Hc as [_ Hc]. destruct (Hc r Hr) as (_ & Q & _).
    assert (exists q', In q' qd /\ chan_ok L from q' c') as (q' & Hq' & K).
    { clear -F' Hc'. induction F' as [|q0 c0 qs cs0 Hc0 F0 IH]; [destruct Hc'|].
      destruct Hc' as [->|Hc']; [exists q0; split; auto; now left|].
      destruct (IH Hc') as (q' & A & B). exists q'. split; auto. now right. }
    destruct K as [_ K]. destruct (K r Hr') as (_ & Q' & _).
    apply (q_match_excl q q' r); auto.
    + intros ->. contradiction.
    + intros ->. apply NN. now left.
    + intros ->. apply NN. now right.
Qed.

Lemma gathered_ok L from qd chans : Forall2 (chan_ok L from) qd chans ->
  NoDup qd -> (In None qd -> qd = [None]) -> chans_agree chans ->
  gsn_increasing (gathered chans)
  /\ forall r, In r (gathered chans) <-> In r (flat_map before_error chans).
Proof.
  intros F ND NN AG.
  assert (G : ~ In None qd -> (length qd <> 1)%nat ->
    gsn_increasing (match merge_results (map new_iter chans) with Some l => before_error l | None => [] end)
    /\ forall r, In r (match merge_results (map new_iter chans) with Some l => before_error l | None => [] end)
                 <-> In r (flat_map before_error chans)).
  { intros Hn _. destruct (merge_ok (map new_iter chans)) as (rs & E & S & P).
    - apply Forall_map. clear -F. induction F as [|q c qs cs Hc F IH]; constructor; auto. cbn. split; auto. apply Hc.
    - unfold delivered_by. replace (flat_map _ (map new_iter chans)) with (flat_map before_error chans)
        by (clear; induction chans; cbn; congruence).
      eapply chans_NoDup; eauto.
    - rewrite E, before_error_map. split; auto. intros r.
      replace (flat_map before_error chans) with (delivered_by (map new_iter chans))
        by (unfold delivered_by; clear; induction chans; cbn; congruence).
      split; apply Permutation_in; auto. now apply Permutation_sym. }
  destruct qd as [|q [|q' qd]].
  - inversion F; subst. apply G; cbn; auto.
  - inversion F as [|? c ? cs Hc F']; subst. inversion F'; subst. cbn [gathered]. split; [apply Hc|].
    cbn. intros r. now rewrite app_nil_r.
  - assert (Hn : ~ In None (q :: q' :: qd)). { intros K. discriminate (NN K). }
    inversion F as [|? c ? cs Hc F']; subst. inversion F' as [|? c' ? cs' Hc' F'']; subst.
    unfold gathered. apply G; auto. cbn. lia.
Qed.

Definition pending (u : sub) : list record :=
  match u_phase u with PDeliver _ rest => rest | _ => [] end.

(** [lo]: the lower bound promised to the subscriber. *)
Record sub_ok (lo : N) (L : log) (u : sub) : Prop := {
  so_incr : gsn_increasing (u_got u ++ pending u);
  so_lo : forall r, In r (u_got u ++ pending u) -> lo <= r_gsn r;
  so_last : forall r, In r (u_got u) -> r_gsn r <= u_last u;
  so_lolast : lo <= u_last u;
  so_phase : match u_phase u with
    | PInit => False
    | PFetch second from qs chans =>
        u_last u < max64
        /\ (if second then from = u_last u + 1 else from = u_last u /\ u_got u = [])
        /\ (exists qd, u_queries u = qd ++ qs /\ Forall2 (chan_ok L from) qd chans)
        /\ chans_agree chans
    | PDeliver second rest => u_last u < max64 /\ (forall r, In r rest -> r_gsn r <= l_last L)
    | PSubscribe _ second => u_last u < max64
    | _ => True
    end
}.

Lemma sub_ok_later lo L L' u : sub_ok lo L u -> later L L' -> sub_ok lo L' u.
Proof.
  intros [A B C D E] H. constructor; auto. destruct (u_phase u); auto.
  - destruct E as (E1 & E2 & (qd & E3 & E4) & E5). split; [|split; [|split]]; auto.
    exists qd. split; auto. clear -E4 H. induction E4; constructor; auto. eapply chan_ok_later; eauto.
  - destruct E as [E0 E]. split; auto. intros r Hr. specialize (E r Hr). destruct H. lia.
Qed.

Lemma sub_ok_ext lo L u u' : sub_ok lo L u -> u_queries u' = u_queries u -> u_phase u' = u_phase u ->
  u_last u' = u_last u -> u_got u' = u_got u -> sub_ok lo L u'.
Proof.
  intros [A B C D E] H1 H2 H3 H4. unfold pending in *.
  constructor; unfold pending; rewrite ?H1, ?H2, ?H3, ?H4; auto.
Qed.

Lemma chans_agree_snoc L from qd chans q a : Forall2 (chan_ok L from) qd chans -> log_sorted L ->
  chans_agree chans -> chan_ok L from q a -> (forall r, In r (before_error a) -> In r (l_recs L)) ->
  chans_agree (chans ++ [a]).
Proof.
  intros F S AG [Ha1 Ha2] Sub r r' Hr Hr' E.
  rewrite flat_map_app in Hr, Hr'. cbn in Hr, Hr'. rewrite app_nil_r in Hr, Hr'.
  assert (K : forall x, In x (flat_map before_error chans) -> forall x', In x' (l_recs L) -> r_gsn x' = r_gsn x -> x' = x).
  { intros x Hx. apply in_flat_map in Hx as (c & Hc & Hx). clear -F Hc Hx. induction F as [|q c0 qs cs Hc0 F IH]; [destruct Hc|].
    destruct Hc as [->|Hc]; auto. destruct Hc0 as [_ Hc0]. apply (Hc0 x Hx). }
  apply in_app_iff in Hr as [Hr|Hr], Hr' as [Hr'|Hr']; auto.
  - symmetry. apply (K r Hr r'); auto.
  - apply (incr_same_gsn (before_error a)); auto.
Qed.

Lemma gsn_last_app l r : gsn_increasing (l ++ [r]) -> forall x, In x (l ++ [r]) -> r_gsn x <= r_gsn r.
Proof.
  intros H x Hx. apply incr_app_inv in H as (_ & _ & H). apply in_app_iff in Hx as [Hx|[->|[]]]; [|lia].
  specialize (H x r Hx (or_introl eq_refl)). lia.
Qed.

Lemma change_ok m y i u l u' lo : change m y i u l u' -> log_sorted (y_log y) ->
  l_last (y_log y) < max64 ->
  NoDup (u_queries u) -> asks_for (u_queries u) ->
  sub_ok lo (y_log y) u -> sub_ok lo (y_log y) u' /\ u_queries u' = u_queries u.
Proof.
  intros C S LM ND AF [A B Cl D E].
  assert (NN : In None (u_queries u) -> u_queries u = [None]).
  { intros H. destruct AF as [AF|[ts AF]]; auto. rewrite AF in H. apply in_map_iff in H as (? & ? & ?). discriminate. }
  inversion C; subst; clear C.
  - split; [constructor; auto|auto].
  - split; auto. eapply sub_ok_ext; [constructor; eauto|..]; reflexivity.
  - split; auto. eapply sub_ok_ext; [constructor; eauto|..]; reflexivity.
  - rewrite H in E. contradiction.
  - rewrite H in E. contradiction.
  - (* gather *)
    rewrite H in E. destruct E as (E1 & E2 & (qd & E3 & E4) & E5). rewrite app_nil_r in E3. subst qd.
    destruct (gathered_ok _ _ _ _ E4 ND NN E5) as [G1 G2].
    assert (Ap : forall r, In r (gathered chans) -> from <= r_gsn r /\ r_gsn r <= l_last (y_log y)).
    { intros r Hr. apply G2 in Hr. apply in_flat_map in Hr as (c & Hc & Hr). clear -E4 Hc Hr.
      induction E4 as [|q c0 qs cs Hc0 F IH]; [destruct Hc|]. destruct Hc as [->|Hc]; auto.
      destruct Hc0 as [_ Hc0]. destruct (Hc0 r Hr) as (? & _ & ? & _). auto. }
    unfold pending in A, B. rewrite H, app_nil_r in A, B.
    assert (Base : gsn_increasing (u_got u ++ gathered chans)
       /\ forall r, In r (u_got u ++ gathered chans) -> lo <= r_gsn r).
    { split.
      - apply incr_app; auto. intros a b Ha Hb. destruct (Ap b Hb). specialize (Cl a Ha).
        destruct second; [lia|]. destruct E2 as [_ E2]. rewrite E2 in Ha. destruct Ha.
      - intros r Hr. apply in_app_iff in Hr as [Hr|Hr]; auto. destruct (Ap r Hr).
        destruct second; [lia|]. destruct E2 as [-> _]. lia. }
    destruct (gathered chans) as [|r0 rs] eqn:Eg.
    + split; [|destruct second; reflexivity]. destruct Base as [Ba Bb]. rewrite app_nil_r in Ba, Bb.
      unfold loop_ended. destruct second; constructor; cbn; rewrite ?app_nil_r; auto.
    + split; [|reflexivity]. constructor; cbn; auto; try apply Base. split; auto. apply Ap.
  - (* fetch *)
    rewrite H in E. destruct E as (E1 & E2 & (qd & E3 & E4) & E5). split; [|reflexivity].
    unfold pending in A, B. rewrite H in A, B.
    constructor; cbn; auto. split; [exact E1|]. split; [exact E2|]. split.
    + exists (qd ++ [q]). rewrite <- app_assoc. split; auto.
      apply Forall2_app; auto. constructor; [now apply answer_ok|constructor].
    + eapply chans_agree_snoc; eauto. { now apply answer_ok. }
      intros r Hr. destruct (before_error_answer (y_log y) from q fail) as (k & Ek & _). rewrite Ek in Hr.
      apply In_firstn in Hr. apply filter_In in Hr. tauto.
  - (* deliver *)
    rewrite H in E. destruct E as [E0 E]. unfold pending in A, B. rewrite H in A, B.
    assert (A' : gsn_increasing ((u_got u ++ [r]) ++ rest)) by now rewrite <- app_assoc.
    assert (B' : forall x, In x ((u_got u ++ [r]) ++ rest) -> lo <= r_gsn x) by now rewrite <- app_assoc.
    pose proof (incr_app_inv _ _ A') as (A1 & A2 & A3).
    assert (R : r_gsn r <= l_last (y_log y)) by (apply E; now left).
    assert (Lr : lo <= r_gsn r). { apply B. apply in_app_iff. right. now left. }
    split.
    2:{ destruct ok; [destruct rest|]; [destruct second| |]; reflexivity. }
    destruct ok.
    + destruct rest as [|b rest].
      * rewrite app_nil_r in B'.
        unfold loop_ended. destruct second; constructor; cbn; rewrite ?app_nil_r; auto;
          try (now apply gsn_last_app); lia.
      * constructor; cbn; auto; [now apply gsn_last_app|]. split; [lia|]. intros x Hx. apply E. now right.
    + assert (B1 : forall x, In x (u_got u ++ [r]) -> lo <= r_gsn x).
      { intros x Hx. apply B'. apply in_app_iff. now left. }
      destruct second; constructor; cbn; rewrite ?app_nil_r; auto; now apply gsn_last_app.
  - (* subscribe *)
    rewrite H in E. unfold pending in A, B. rewrite H in A, B. split; [|reflexivity]. constructor; cbn; auto.
  - (* subscribed *)
    rewrite H in E. unfold pending in A, B. rewrite H in A, B. split; [|reflexivity].
    destruct second; constructor; cbn; auto. split; auto. split.
    + unfold succ64. destruct (N.eqb_spec (u_last u) max64); [lia|reflexivity].
    + split; [exists []; split; auto|]. intros r r' [].
  - (* work *)
    unfold pending in A, B. rewrite H, app_nil_r in A, B.
    split; [|destruct (_ <=? _); [reflexivity|destruct ok; reflexivity]].
    destruct (N.leb_spec (r_gsn r) (u_last u)).
    + constructor; cbn; unfold pending; cbn; rewrite ?H, ?app_nil_r; auto.
    + assert (I : gsn_increasing (u_got u ++ [r])).
      { apply incr_app; auto; [apply incr_cons; [apply incr_nil|intros ? []]|].
        intros a b Ha [<-|[]]. specialize (Cl a Ha). lia. }
      assert (J : forall x, In x (u_got u ++ [r]) -> lo <= r_gsn x).
      { intros x Hx. apply in_app_iff in Hx as [Hx|[<-|[]]]; auto. lia. }
      destruct ok; constructor; cbn; unfold pending; cbn; rewrite ?H, ?app_nil_r; auto;
        try (now apply gsn_last_app); lia.
  - unfold pending in A, B. rewrite H in A, B. split; [|reflexivity]. constructor; cbn; auto.
  - unfold pending in A, B. rewrite H in A, B. split; [|reflexivity]. constructor; cbn; auto.
  - unfold pending in A, B. rewrite H in A, B. split; [|reflexivity]. destruct fin; constructor; cbn; auto.
Qed.

Lemma yrun_ok m ls : forall y y' i u lo, yrun m y ls = Some y' -> log_sorted (y_log y) ->
  l_last (y_log y') < max64 -> nth_error (y_subs y) i = Some u ->
  NoDup (u_queries u) -> asks_for (u_queries u) -> sub_ok lo (y_log y) u ->
  exists u', nth_error (y_subs y') i = Some u' /\ sub_ok lo (y_log y') u' /\ u_queries u' = u_queries u.
Proof.
  induction ls as [|l ls IH]; intros y y' i u lo H S LM Hi ND AF OK; cbn in H.
  - injection H as <-. eauto.
  - destruct (ystep m y l) as [y1|] eqn:E; [|discriminate].
    destruct (ystep_log _ _ _ _ E S) as [S1 L1].
    destruct (yrun_log _ _ _ _ H S1) as [_ L2].
    destruct (ystep_sub _ _ _ _ _ _ E Hi) as (u1 & Hi1 & C).
    destruct (change_ok _ _ _ _ _ _ lo C S) as [OK1 Q1]; auto.
    { destruct L1, L2. lia. }
    destruct (IH y1 y' i u1 lo) as (u' & A & B & Q); auto.
    + now rewrite Q1.
    + now rewrite Q1.
    + eapply sub_ok_later; eauto.
    + exists u'. split; auto. split; auto. congruence.
Qed.

(** Before it is started a subscriber has nothing, and keeps its configuration. *)
Lemma yrun_before m ls : forall y y' i u u', yrun m y ls = Some y' ->
  nth_error (y_subs y) i = Some u -> nth_error (y_subs y') i = Some u' ->
  u_phase u' = PInit -> u_phase u = PInit /\ u_got u' = u_got u /\ u_last u' = u_last u /\ u_queries u' = u_queries u.
Proof.
  induction ls as [|l ls IH]; cbn; intros y y' i u u' H Hi Hi' P.
  - injection H as <-. assert (u = u') by congruence. subst. auto.
  - destruct (ystep m y l) as [y1|] eqn:E; [|discriminate].
    destruct (ystep_sub _ _ _ _ _ _ E Hi) as (u1 & Hi1 & C).
    destruct (IH _ _ _ _ _ H Hi1 Hi' P) as (P1 & G1 & Q1 & R1).
    inversion C; subst; cbn in *; auto; try discriminate.
    + destruct (gathered chans); [destruct second|]; discriminate.
    + destruct ok; [destruct rest; [destruct second|]|destruct second]; discriminate.
    + destruct second; discriminate.
    + destruct (_ <=? _); cbn in *; [congruence|]. destruct ok; cbn in *; congruence.
    + destruct fin; discriminate.
Qed.

Lemma yrun_keeps m ls : forall y y' i u, yrun m y ls = Some y' -> nth_error (y_subs y) i = Some u ->
  exists u', nth_error (y_subs y') i = Some u' /\ u_queries u' = u_queries u.
Proof.
  induction ls as [|l ls IH]; cbn; intros y y' i u H Hi.
  - injection H as <-. eauto.
  - destruct (ystep m y l) as [y1|] eqn:E; [|discriminate].
    destruct (ystep_sub _ _ _ _ _ _ E Hi) as (u1 & Hi1 & C).
    destruct (IH _ _ _ _ H Hi1) as (u' & A & B). exists u'. split; auto. rewrite B.
    inversion C; subst; cbn; auto.
    + destruct (gathered chans); [destruct second|]; reflexivity.
    + destruct ok; [destruct rest; [destruct second|]|destruct second]; reflexivity.
    + destruct (_ <=? _); cbn in *; auto. destruct ok; auto.
Qed.

Lemma log_sorted_init subs : log_sorted (y_log (sys_init subs)).
Proof. split; cbn; [apply incr_nil|intros ? []]. Qed.

Lemma init_sub subs i u : nth_error (y_subs (sys_init subs)) i = Some u ->
  exists qs cap, nth_error subs i = Some (qs, cap) /\ u = new_sub qs cap.
Proof.
  cbn. rewrite nth_error_map. destruct (nth_error subs i) as [[qs cap]|]; cbn; [|discriminate].
  intros H. injection H as <-. eauto.
Qed.

Lemma start_from_ok L u g : g < max64 -> u_got u = [] -> NoDup (u_queries u) ->
  sub_ok g L (with_last g (with_phase (PFetch false g (u_queries u) []) u)).
Proof.
  intros Hg G ND. constructor; cbn; rewrite ?G; cbn; try (intros ? []); try apply incr_nil; try lia.
  split; auto. split; auto. split; [exists []; auto|]. intros ? ? [].
Qed.

Lemma start_ok L u : u_got u = [] -> u_last u = 0 ->
  sub_ok 0 L (with_phase (if u_stop u then PCanceled else PSubscribe (u_queries u) false) u).
Proof.
  intros G Z. constructor; unfold pending; cbn; destruct (u_stop u); cbn; rewrite ?G, ?Z; cbn; try (intros ? []); try apply incr_nil; try lia; auto;
  reflexivity.
Qed.
