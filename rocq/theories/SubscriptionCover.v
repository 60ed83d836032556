(** Completeness of subscriptions: nothing is lost when saves hand over their records in
    turn. *)
From Coq Require Import PeanoNat.
From Verif Require Import Base LogSpec Core CoreSpec CoreProofs LogProofs Broadcaster BroadcasterProofs
  Subscription SubscriptionSpec SubscriptionProofs.

(** * What a step does outside the subscribers *)
Inductive env (y y' : sys) : label -> Prop :=
| e_same : forall l, (match l with YCommit _ | YDelete _ | YAccept _ | YTake | YSend _ | YTimeout _ => False | _ => True end) ->
    y_log y' = y_log y -> y_pend y' = y_pend y -> y_queue y' = y_queue y -> y_now y' = y_now y ->
    y_b y' = y_b y -> env y y' l
| e_commit : forall rs, grows (l_last (y_log y)) rs = true -> y_log y' = commit_log rs (y_log y) ->
    y_pend y' = y_pend y ++ [rs] -> y_queue y' = y_queue y -> y_now y' = y_now y -> y_b y' = y_b y ->
    env y y' (YCommit rs)
| e_delete : forall s, y_log y' = remove_stream s (y_log y) -> y_pend y' = y_pend y -> y_queue y' = y_queue y ->
    y_now y' = y_now y -> y_b y' = y_b y -> env y y' (YDelete s)
| e_accept : forall k r rest, nth_error (y_pend y) k = Some (r :: rest) -> y_log y' = y_log y ->
    y_pend y' = match rest with [] => drop_nth k (y_pend y) | _ => set_nth k rest (y_pend y) end ->
    y_queue y' = y_queue y ++ [r] -> y_now y' = y_now y -> y_b y' = y_b y -> env y y' (YAccept k)
| e_take : forall r, y_now y = None -> y_queue y = r :: y_queue y' -> y_log y' = y_log y -> y_pend y' = y_pend y ->
    y_now y' = match targets r (y_b y) with [] => None | ts => Some (r, ts) end ->
    y_b y' = y_b y -> env y y' YTake
| e_send : forall t r ts, y_now y = Some (r, ts) -> servable t ts = true ->
    y_now y' = match remove_target t ts with [] => None | ts' => Some (r, ts') end ->
    y_log y' = y_log y -> y_pend y' = y_pend y -> y_queue y' = y_queue y ->
    y_b y' = y_b y -> env y y' (YSend t)
| e_timeout : forall t r ts, y_now y = Some (r, ts) -> servable t ts = true ->
    y_now y' = match remove_target t ts with [] => None | ts' => Some (r, ts') end ->
    y_log y' = y_log y -> y_pend y' = y_pend y -> y_queue y' = y_queue y ->
    y_b y' = match t with TAll i => del_all i (y_b y) | TType i => del_type (r_atype r) i (y_b y) end ->
    env y y' (YTimeout t)
| e_register : forall j q qs second u, nth_error (y_subs y) j = Some u -> u_phase u = PSubscribe (q :: qs) second ->
    y_log y' = y_log y -> y_pend y' = y_pend y -> y_queue y' = y_queue y -> y_now y' = y_now y ->
    y_b y' = register q j (y_b y) -> env y y' (YSubscribe j)
| e_unregister : forall j q qs fin u, nth_error (y_subs y) j = Some u -> u_phase u = PLeave (q :: qs) fin ->
    y_log y' = y_log y -> y_pend y' = y_pend y -> y_queue y' = y_queue y -> y_now y' = y_now y ->
    y_b y' = unregister q j (y_b y) -> env y y' (YUnsubscribe j).

Lemma ystep_env m y l y' : ystep m y l = Some y' -> env y y' l.
Proof.
  intros H. destruct l; cbn [ystep] in H.
  - destruct (_ && grows _ rs && _ && _)%bool eqn:G; [|discriminate]. injection H as <-.
    apply andb_true_iff in G as [G _]. apply andb_true_iff in G as [G _]. apply andb_true_iff in G as [_ G].
    now apply e_commit.
  - destruct (_ && _)%bool; [|discriminate]. injection H as <-. now apply e_delete.
  - destruct (nth_error (y_pend y) k) as [[|r rest]|] eqn:E; try discriminate.
    destruct (Nat.ltb _ _); [|discriminate]. injection H as <-. eapply e_accept; eauto.
  - destruct (y_queue y) as [|r rest] eqn:Eq; [discriminate|]. destruct (idle y) eqn:I; [|discriminate].
    injection H as <-. unfold idle in I. apply andb_true_iff in I as [_ I].
    eapply e_take; eauto. destruct (y_now y); [discriminate|reflexivity].
  - destruct (y_now y) as [[r ts]|] eqn:En; [|discriminate]. destruct (nth_error _ _); [|discriminate].
    destruct (servable t ts) eqn:Es; [|discriminate]. destruct (Nat.ltb _ _); [|discriminate].
    injection H as <-. eapply e_send; eauto.
  - destruct (y_now y) as [[r ts]|] eqn:En; [|discriminate]. destruct (nth_error _ _); [|discriminate].
    destruct (servable t ts) eqn:Es; [|discriminate]. injection H as <-. eapply e_timeout; eauto.
  - destruct (nth_error _ _) as [v|]; [|discriminate]. destruct (u_phase v); try discriminate.
    injection H as <-. now apply e_same.
  - destruct (nth_error _ _) as [v|]; [|discriminate]. destruct (u_phase v); try discriminate.
    injection H as <-. now apply e_same.
  - destruct (nth_error _ _) as [v|]; [|discriminate]. destruct (u_phase v); try discriminate.
    destruct qs; [|destruct (_ || _)%bool; [|discriminate]]; injection H as <-; now apply e_same.
  - destruct (nth_error _ _) as [v|]; [|discriminate]. destruct (u_phase v); try discriminate.
    destruct rest; [discriminate|]. injection H as <-. now apply e_same.
  - destruct (nth_error _ _) as [v|] eqn:Ev; [|discriminate]. destruct (u_phase v) eqn:Ep; try discriminate.
    destruct qs; [|destruct (idle y); [|discriminate]]; injection H as <-; [now apply e_same|].
    eapply e_register; eauto.
  - destruct (nth_error _ _) as [v|]; [|discriminate]. destruct (u_phase v); try discriminate.
    destruct (u_buf v); [discriminate|]. injection H as <-. now apply e_same.
  - destruct (nth_error _ _) as [v|]; [|discriminate]. injection H as <-. now apply e_same.
  - destruct (nth_error _ _) as [v|]; [|discriminate]. destruct (u_phase v); try discriminate.
    destruct (u_stop v); [|discriminate]. injection H as <-. now apply e_same.
  - destruct (nth_error _ _) as [v|] eqn:Ev; [|discriminate]. destruct (u_phase v) eqn:Ep; try discriminate.
    destruct qs; [|destruct (idle y); [|discriminate]]; injection H as <-; [now apply e_same|].
    eapply e_unregister; eauto.
  - destruct (y_closing y); [discriminate|]. injection H as <-. now apply e_same.
  - destruct (_ && _)%bool; [|discriminate]. injection H as <-.
    destruct (stop_listed_rest (b_all (y_b y) ++ map snd (b_types (y_b y)))
      (mk_sys (y_log y) (y_pend y) (y_queue y) (y_now y) (y_b y) false true (y_subs y))) as (A & B & C & D & E & _).
    now apply e_same.
Qed.

Section Cover.
Variable i : nat.
Variable qs : list query.
Hypothesis qs_shape : asks_for qs.

Definition has_id (t : target) : bool := Nat.eqb (t_id t) i.
Definition now_for (y : sys) : list record :=
  match y_now y with
  | Some (r, ts) => if existsb has_id ts then [r] else []
  | None => []
  end.
(** Everything on its way to subscriber [i], nearest first. *)
Definition inflight (y : sys) (u : sub) : list record :=
  u_buf u ++ now_for y ++ y_queue y ++ concat (y_pend y).

Definition registered (b : bcast) (q : query) : Prop :=
  match q with None => In i (b_all b) | Some t => In (t, i) (b_types b) end.

Record flow (y : sys) (u : sub) : Prop := {
  f_sorted : log_sorted (y_log y);
  f_wf : wf (y_b y);
  f_all : In i (b_all (y_b y)) -> In None qs;
  f_type : forall t, In (t, i) (b_types (y_b y)) -> In (Some t) qs;
  f_nodup : forall r ts, y_now y = Some (r, ts) -> NoDup ts;
  f_now : forall r ts, y_now y = Some (r, ts) ->
     (In (TAll i) ts -> In None qs) /\ (In (TType i) ts -> In (Some (r_atype r)) qs);
  f_incr : gsn_increasing (inflight y u);
  f_le : forall r, In r (inflight y u) -> r_gsn r <= l_last (y_log y);
  f_qs : u_queries u = qs
}.

Lemma not_both q : In None qs -> In (Some q) qs -> False.
Proof.
  destruct qs_shape as [->|[ts ->]].
  - intros _ [H|[]]. discriminate.
  - intros H _. apply in_map_iff in H as (? & ? & ?). discriminate.
Qed.

Lemma t_eqb_eq a b : t_eqb a b = true <-> a = b.
Proof. destruct a, b; cbn; rewrite ?Nat.eqb_eq; split; congruence. Qed.

Lemma existsb_has ts : existsb has_id ts = true <-> In (TAll i) ts \/ In (TType i) ts.
Proof.
  rewrite existsb_exists. unfold has_id. split.
  - intros (t & H & E). apply Nat.eqb_eq in E. destruct t; cbn in E; subst; auto.
  - intros [H|H]; eexists; (split; [exact H|]); cbn; apply Nat.eqb_refl.
Qed.

Lemma remove_target_in t x ts : In x (remove_target t ts) <-> In x ts /\ x <> t.
Proof.
  unfold remove_target. rewrite filter_In, negb_true_iff. split; intros [H1 H2]; split; auto.
  - intros ->. assert (t_eqb t t = true) by now apply t_eqb_eq. congruence.
  - destruct (t_eqb t x) eqn:E; auto. apply t_eqb_eq in E. congruence.
Qed.

(** What is left of the broadcast for [i] after target [t] was served. *)
Lemma now_for_served y y' t r ts : y_now y = Some (r, ts) -> servable t ts = true ->
  (In (TAll i) ts -> In None qs) /\ (In (TType i) ts -> In (Some (r_atype r)) qs) ->
  y_now y' = match remove_target t ts with [] => None | ts' => Some (r, ts') end ->
  (t_id t = i -> now_for y = [r] /\ now_for y' = [])
  /\ (t_id t <> i -> now_for y' = now_for y).
Proof.
  intros Hn Hs [HA HT] Hn'. unfold servable in Hs. apply andb_true_iff in Hs as [Hs _].
  apply existsb_exists in Hs as (t' & Ht & E). apply t_eqb_eq in E. subst t'.
  assert (N' : now_for y' = if existsb has_id (remove_target t ts) then [r] else []).
  { unfold now_for. rewrite Hn'. destruct (remove_target t ts); reflexivity. }
  assert (N : now_for y = if existsb has_id ts then [r] else []) by (unfold now_for; now rewrite Hn).
  rewrite N. split; intros Hid.
  - split.
    + replace (existsb has_id ts) with true; auto. symmetry. apply existsb_has. destruct t; cbn in Hid; subst; auto.
    + rewrite N'. destruct (existsb has_id (remove_target t ts)) eqn:Ex; auto.
      apply existsb_has in Ex. exfalso. rewrite !remove_target_in in Ex.
      destruct t as [j|j]; cbn in Hid; subst j.
      * destruct Ex as [[_ Ex]|[Ex _]]; [congruence|]. eapply not_both; [apply HA|apply HT]; auto.
      * destruct Ex as [[Ex _]|[_ Ex]]; [|congruence]. eapply not_both; [apply HA|apply HT]; auto.
  - rewrite N'. replace (existsb has_id (remove_target t ts)) with (existsb has_id ts); auto.
    apply eq_true_iff_eq. rewrite !existsb_has, !remove_target_in.
    assert (TAll i <> t) by (intros <-; cbn in Hid; congruence).
    assert (TType i <> t) by (intros <-; cbn in Hid; congruence). tauto.
Qed.

Lemma concat_accept k (pend : list (list record)) r rest : k = 0%nat ->
  nth_error pend k = Some (r :: rest) ->
  r :: concat (match rest with [] => drop_nth k pend | _ => set_nth k rest pend end) = concat pend.
Proof.
  intros -> H. destruct pend as [|p pend]; [discriminate|]. cbn in H. injection H as ->. destruct rest; reflexivity.
Qed.

Lemma targets_in r b : wf b ->
  NoDup (targets r b) /\ (In (TAll i) (targets r b) <-> In i (b_all b))
  /\ (In (TType i) (targets r b) <-> In (r_atype r, i) (b_types b)).
Proof.
  intros W. unfold targets. split; [|split].
  - apply NoDup_app_intro.
    + destruct W as [W _]. clear -W. induction W; cbn; constructor; auto.
      rewrite in_map_iff. intros (z & E & Hz). injection E as ->. contradiction.
    + pose proof (type_subs_NoDup (r_atype r) b W) as K. clear -K. induction K; cbn; constructor; auto.
      rewrite in_map_iff. intros (z & E & Hz). injection E as ->. contradiction.
    + intros x Hx Hx'. apply in_map_iff in Hx as (? & <- & _). apply in_map_iff in Hx' as (? & E & _). discriminate.
  - rewrite in_app_iff, !in_map_iff. split.
    + intros [(j & E & H)|(j & E & _)]; [|discriminate]. injection E as ->. auto.
    + intros H. left. eauto.
  - rewrite in_app_iff, !in_map_iff. rewrite <- in_type_spec, <- type_subs_spec, existsb_exists. split.
    + intros [(j & E & _)|(j & E & H)]; [discriminate|]. injection E as ->. exists i. split; auto. apply Nat.eqb_refl.
    + intros (j & H & E). apply Nat.eqb_eq in E. subst. right. eauto.
Qed.

Lemma inflight_take y y' r u u' : y_now y = None -> y_queue y = r :: y_queue y' -> y_pend y' = y_pend y ->
  y_now y' = match targets r (y_b y) with [] => None | ts => Some (r, ts) end -> u_buf u' = u_buf u ->
  inflight y' u' = u_buf u ++ (if existsb has_id (targets r (y_b y)) then [r] else []) ++ y_queue y' ++ concat (y_pend y)
  /\ inflight y u = u_buf u ++ [r] ++ y_queue y' ++ concat (y_pend y).
Proof.
  intros H1 H2 H3 H4 H5. unfold inflight. rewrite H5, H3, H2. unfold now_for. rewrite H1, H4. split; auto.
  destruct (targets r (y_b y)); reflexivity.
Qed.

Lemma incr_drop a b c : gsn_increasing (a ++ b ++ c) -> gsn_increasing (a ++ c).
Proof.
  intros H. apply incr_app_inv in H as (A & B & C). apply incr_app_inv in B as (B1 & B2 & B3).
  apply incr_app; auto. intros x z Hx Hz. apply C; auto. apply in_app_iff. auto.
Qed.

Lemma change_buf m y u l u' : change m y i u l u' ->
  (u_buf u' = u_buf u /\ (forall t, l = YSend t -> t_id t <> i))
  \/ (exists t r ts, l = YSend t /\ t_id t = i /\ y_now y = Some (r, ts) /\ servable t ts = true /\ u_buf u' = u_buf u ++ [r])
  \/ (exists r ok, l = YWork i ok /\ u_buf u = r :: u_buf u').
Proof.
  intros C. inversion C; subst; cbn; auto.
  - left. split; auto. intros t ->. cbn in H. now apply Nat.eqb_neq.
  - left. split; auto. intros t ->. destruct H as [H|[H|(? & H & _)]]; discriminate.
  - right. left. exists t, r, ts. auto.
  - left. split; [|discriminate]. auto.
  - left. split; [|discriminate]. auto.
  - left. split; [|discriminate]. destruct (gathered chans); [destruct second|]; reflexivity.
  - left. split; [|discriminate]. auto.
  - left. split; [|discriminate]. destruct ok; [destruct rest; [destruct second|]|destruct second]; reflexivity.
  - left. split; [|discriminate]. auto.
  - left. split; [|discriminate]. destruct second; reflexivity.
  - right. right. exists r, ok. split; auto. rewrite H0. f_equal. destruct (_ <=? _); [reflexivity|destruct ok; reflexivity].
  - left. split; [|discriminate]. auto.
  - left. split; [|discriminate]. auto.
  - left. split; [|discriminate]. destruct fin; reflexivity.
Qed.

Lemma change_queries m y u l u' : change m y i u l u' -> u_queries u' = u_queries u.
Proof.
  intros C. inversion C; subst; cbn; auto.
  - destruct (gathered chans); [destruct second|]; reflexivity.
  - destruct ok; [destruct rest; [destruct second|]|destruct second]; reflexivity.
  - destruct (_ <=? _); cbn in *; auto. destruct ok; auto.
Qed.

Lemma register_in q j b x : registered (register q j b) x -> registered b x \/ (j = i /\ q = x).
Proof.
  destruct q as [t|], x as [t'|]; cbn.
  - rewrite <- !in_type_spec. rewrite in_type_add, orb_true_iff, andb_true_iff, String.eqb_eq, Nat.eqb_eq.
    intros [H|[-> ->]]; auto.
  - unfold add_type. destruct (in_type t j b); auto.
  - unfold add_all. destruct (in_all j b); auto.
  - rewrite <- !in_all_spec. rewrite in_all_add, orb_true_iff, Nat.eqb_eq. intros [H| ->]; auto.
Qed.
Lemma register_keeps q j b x : registered b x -> registered (register q j b) x.
Proof.
  destruct q as [t|], x as [t'|]; cbn.
  - rewrite <- !in_type_spec. rewrite in_type_add. intros ->. reflexivity.
  - unfold add_type. destruct (in_type t j b); auto.
  - unfold add_all. destruct (in_all j b); auto.
  - rewrite <- !in_all_spec. rewrite in_all_add. intros ->. reflexivity.
Qed.
Lemma register_this q b : registered (register q i b) q.
Proof.
  destruct q as [t|]; cbn.
  - rewrite <- in_type_spec, in_type_add, String.eqb_refl, Nat.eqb_refl. cbn. apply orb_true_r.
  - rewrite <- in_all_spec, in_all_add, Nat.eqb_refl. apply orb_true_r.
Qed.
Lemma unregister_in q j b x : registered (unregister q j b) x -> registered b x.
Proof.
  destruct q as [t|], x as [t'|]; cbn; auto.
  - intros H. apply filter_In in H. tauto.
  - intros H. apply filter_In in H. tauto.
Qed.
Lemma unregister_other q j b x : j <> i -> registered b x -> registered (unregister q j b) x.
Proof.
  intros N. destruct q as [t|], x as [t'|]; cbn [registered unregister]; auto.
  - rewrite <- !in_type_spec, in_type_del. intros ->. destruct (Nat.eqb_spec i j); [congruence|]. now rewrite andb_false_r.
  - rewrite <- !in_all_spec, in_all_del. intros ->. destruct (Nat.eqb_spec i j); [congruence|]. reflexivity.
Qed.

Lemma wf_register q j b : wf b -> wf (register q j b).
Proof. destruct q; cbn; [apply wf_add_type|apply wf_add_all]. Qed.
Lemma wf_unregister q j b : wf b -> wf (unregister q j b).
Proof. destruct q; cbn; [apply wf_del_type|apply wf_del_all]. Qed.

(** The queries a subscriber still has to register are its own. *)
Definition phase_queries (u : sub) : Prop :=
  match u_phase u with
  | PSubscribe l _ => exists d, u_queries u = d ++ l
  | PLeave l _ => exists d, u_queries u = d ++ l
  | _ => True
  end.

Lemma change_phase_queries m y u l u' : change m y i u l u' -> phase_queries u -> phase_queries u'.
Proof.
  unfold phase_queries. intros C P. inversion C; subst; cbn; auto.
  - destruct (u_stop u); auto. now exists [].
  - destruct (gathered chans); [destruct second|]; cbn; auto. now exists [].
  - destruct ok; [destruct rest; [destruct second|]|destruct second]; cbn; auto; now exists [].
  - rewrite H in P. destruct P as [d P]. exists (d ++ [q]). now rewrite <- app_assoc.
  - destruct second; auto.
  - destruct (_ <=? _); cbn; [now rewrite H|]. destruct ok; cbn; [now rewrite H|]. now exists [].
  - now exists [].
  - rewrite H in P. destruct P as [d P]. exists (d ++ [q]). now rewrite <- app_assoc.
  - destruct fin; auto.
Qed.

Lemma flow_step m y l y' u u' : ystep m y l = Some y' ->
  nth_error (y_subs y) i = Some u -> nth_error (y_subs y') i = Some u' -> change m y i u l u' ->
  (match l with YAccept k => k = 0%nat | _ => True end) -> phase_queries u ->
  flow y u -> flow y' u'.
Proof.
  intros H Hi Hi' C NO PQ [F1 F3 F4 F5 F6 F7 F8 F9 F10].
  pose proof (ystep_env _ _ _ _ H) as E. destruct (ystep_log _ _ _ _ H F1) as [S' L'].
  pose proof (change_queries _ _ _ _ _ C) as Q. rewrite F10 in Q.
  destruct (change_buf _ _ _ _ _ C) as [[B1 B2]|[(t & r & ts & -> & B2 & B3 & B3' & B4)|(r & ok & -> & B)]].
  2:{ (* send to i *)
    inversion E; subst; try contradiction. rewrite H1 in B3. injection B3 as -> ->.
    destruct (now_for_served y y' t r ts H1 B3' (F7 _ _ H1) H3) as [K _]. destruct (K B2) as [K1 K2].
    assert (I : inflight y' u' = inflight y u).
    { unfold inflight. rewrite B4, K2, K1, H5, H6. now rewrite <- app_assoc. }
    constructor; rewrite ?I, ?H4, ?H5, ?H7; auto.
    - intros r0 ts0 En. rewrite H3 in En. specialize (F6 _ _ H1).
      assert (ts0 = remove_target t ts) as -> by (destruct (remove_target t ts); congruence).
      unfold remove_target; now apply NoDup_filter.
    - intros r0 ts0 En. rewrite H3 in En. destruct (F7 _ _ H1) as [Fa Fb].
      assert (ts0 = remove_target t ts /\ r0 = r) as [-> ->] by (destruct (remove_target t ts); [discriminate|split; congruence]).
      split; intros K'; apply remove_target_in in K' as [K' _]; auto. }
  2:{ (* the worker took a record *)
    inversion E; subst; try contradiction.
    assert (I : inflight y u = r :: inflight y' u').
    { unfold inflight. unfold now_for. rewrite B, H3, H4, H2. reflexivity. }
    rewrite I in F8, F9. apply incr_cons_inv in F8 as [F8 _].
    constructor; rewrite ?H1, ?H2, ?H4, ?H5; auto.
    intros x Hx. apply F9. now right. }
  inversion E; subst; clear E.
  - (* same *)
    assert (I : inflight y' u' = inflight y u).
    { unfold inflight, now_for. now rewrite B1, H2, H3, H4. }
    constructor; rewrite ?I, ?H1, ?H2, ?H4, ?H5; auto.
  - (* commit *)
    destruct (grows_spec _ _ H0) as (A & B & CC & D).
    assert (I : inflight y' u' = inflight y u ++ rs).
    { unfold inflight, now_for. rewrite B1, H3, H4, H2, concat_app. cbn. rewrite !app_nil_r, <- !app_assoc. reflexivity. }
    constructor; rewrite ?I, ?H4, ?H5; auto.
    + apply incr_app; auto. intros a b Ha Hb. specialize (F9 a Ha). specialize (B b Hb). lia.
    + intros r Hr. rewrite H1. cbn. apply in_app_iff in Hr as [Hr|Hr]; auto. specialize (F9 r Hr). lia.
  - (* delete *)
    assert (I : inflight y' u' = inflight y u).
    { unfold inflight, now_for. now rewrite B1, H1, H2, H3. }
    constructor; rewrite ?I, ?H1, ?H3, ?H4; auto. rewrite H0. cbn. exact F9.
  - (* accept *)
    pose proof (concat_accept _ _ _ _ NO H0) as K1.
    assert (I : inflight y' u' = inflight y u).
    { unfold inflight, now_for. rewrite B1, H2, H3, H4, <- K1, <- !app_assoc. reflexivity. }
    constructor; rewrite ?I, ?H1, ?H2, ?H4, ?H5; auto.
  - (* take *)
    destruct (inflight_take y y' r u u' H0 H1 H3 H4 B1) as [I I'].
    destruct (targets_in r (y_b y) F3) as (T1 & T2 & T3).
    assert (En : forall r0 ts, y_now y' = Some (r0, ts) -> r0 = r /\ ts = targets r (y_b y)).
    { intros r0 ts En. rewrite H4 in En. destruct (targets r (y_b y)); [discriminate|]. injection En as <- <-. auto. }
    constructor; rewrite ?I, ?H2, ?H3, ?H5; auto.
    + intros r0 ts K. destruct (En _ _ K) as [-> ->]. exact T1.
    + intros r0 ts K. destruct (En _ _ K) as [-> ->]. rewrite T2, T3. split; auto.
    + rewrite I' in F8. destruct (existsb _ _); auto. now apply incr_drop in F8.
    + intros x Hx. apply F9. rewrite I'. rewrite !in_app_iff in *. destruct (existsb _ _); [tauto|]. destruct Hx as [Hx|[[]|Hx]]; auto.
  - (* send to another *)
    destruct (now_for_served y y' t r ts H0 H1 (F7 _ _ H0) H2) as [_ K].
    assert (I : inflight y' u' = inflight y u).
    { unfold inflight. rewrite B1, K, H4, H5; auto. }
    constructor; rewrite ?I, ?H3, ?H4, ?H6; auto.
    + intros r0 ts0 En. rewrite H2 in En. specialize (F6 _ _ H0).
      assert (ts0 = remove_target t ts) as -> by (destruct (remove_target t ts); congruence).
      unfold remove_target; now apply NoDup_filter.
    + intros r0 ts0 En. rewrite H2 in En. destruct (F7 _ _ H0) as [Fa Fb].
      assert (ts0 = remove_target t ts /\ r0 = r) as [-> ->] by (destruct (remove_target t ts); [discriminate|split; congruence]).
      split; intros K'; apply remove_target_in in K' as [K' _]; auto.
  - (* timeout *)
    destruct (now_for_served y y' t r ts H0 H1 (F7 _ _ H0) H2) as [Ka Kb].
    assert (Rg : forall x, registered (y_b y') x -> registered (y_b y) x).
    { intros x. rewrite H6. destruct t as [j|j].
      - exact (unregister_in None j (y_b y) x).
      - exact (unregister_in (Some (r_atype r)) j (y_b y) x). }
    constructor; rewrite ?H3, ?H4; auto.
    + rewrite H6. destruct t; [now apply wf_del_all|now apply wf_del_type].
    + intros K. apply F4. apply (Rg None K).
    + intros t0 K. apply F5. apply (Rg (Some t0) K).
    + intros r0 ts0 En. rewrite H2 in En. specialize (F6 _ _ H0).
      assert (ts0 = remove_target t ts) as -> by (destruct (remove_target t ts); congruence).
      unfold remove_target; now apply NoDup_filter.
    + intros r0 ts0 En. rewrite H2 in En. destruct (F7 _ _ H0) as [Fa Fb].
      assert (ts0 = remove_target t ts /\ r0 = r) as [-> ->] by (destruct (remove_target t ts); [discriminate|split; congruence]).
      split; intros K'; apply remove_target_in in K' as [K' _]; auto.
    + unfold inflight in *. rewrite B1, H4, H5. destruct (Nat.eq_dec (t_id t) i) as [Hid|Hid].
      * destruct (Ka Hid) as [K1 K2]. rewrite K2. rewrite K1 in F8. cbn [app]. now apply incr_drop in F8.
      * now rewrite (Kb Hid).
    + intros x Hx. apply F9. unfold inflight in *. rewrite B1, H4, H5 in Hx. rewrite !in_app_iff in *.
      destruct (Nat.eq_dec (t_id t) i) as [Hid|Hid].
      * destruct (Ka Hid) as [K1 K2]. rewrite K2 in Hx. destruct Hx as [?|[[]|?]]; auto.
      * rewrite (Kb Hid) in Hx. auto.
  - (* register *)
    assert (I : inflight y' u' = inflight y u).
    { unfold inflight, now_for. now rewrite B1, H3, H4, H5. }
    assert (Own : j = i -> In q qs).
    { intros ->. assert (u0 = u) by congruence. subst u0. unfold phase_queries in PQ. rewrite H1, F10 in PQ.
      destruct PQ as [d ->]. apply in_app_iff. right. now left. }
    constructor; rewrite ?I, ?H2, ?H3, ?H5; auto.
    + rewrite H6. now apply wf_register.
    + rewrite H6. intros K. destruct (register_in q j (y_b y) None K) as [K'|[-> ->]]; auto.
    + rewrite H6. intros t K. destruct (register_in q j (y_b y) (Some t) K) as [K'|[-> ->]]; auto.
  - (* unregister *)
    assert (I : inflight y' u' = inflight y u).
    { unfold inflight, now_for. now rewrite B1, H3, H4, H5. }
    constructor; rewrite ?I, ?H2, ?H3, ?H5; auto.
    + rewrite H6. now apply wf_unregister.
    + rewrite H6. intros K. apply F4. apply (unregister_in q j (y_b y) None K).
    + rewrite H6. intros t K. apply F5. apply (unregister_in q j (y_b y) (Some t) K).
Qed.

(** * Registration *)
Definition reg_ok (y : sys) (u : sub) : Prop :=
  match u_phase u with
  | PSubscribe l _ => exists d, qs = d ++ l /\ forall q, In q d -> registered (y_b y) q
  | PFetch true _ _ _ | PDeliver true _ | PLive => forall q, In q qs -> registered (y_b y) q
  | _ => True
  end.

(** The schedule is not hostile to [i] in this step. *)
Definition calm (l : label) : Prop :=
  match l with YTimeout t => t_id t <> i | YFetch j (Some _) => j <> i | _ => True end.

Lemma registered_kept m y l y' u q : ystep m y l = Some y' -> nth_error (y_subs y) i = Some u ->
  calm l -> (forall l' fin, u_phase u <> PLeave l' fin) ->
  registered (y_b y) q -> registered (y_b y') q.
Proof.
  intros H Hi K NL R. pose proof (ystep_env _ _ _ _ H) as E.
  inversion E; subst; cbn [calm] in K; match goal with Hb : y_b y' = _ |- _ => rewrite Hb end; auto.
  - destruct t as [j|j]; cbn in K.
    + now apply (unregister_other None).
    + now apply (unregister_other (Some (r_atype r))).
  - now apply register_keeps.
  - apply unregister_other; auto. intros ->. assert (u0 = u) by congruence. subst. eapply NL; eauto.
Qed.

Lemma reg_step m y l y' u u' : ystep m y l = Some y' ->
  nth_error (y_subs y) i = Some u -> change m y i u l u' -> calm l ->
  u_queries u = qs -> reg_ok y u -> reg_ok y' u'.
Proof.
  intros H Hi C K Q R.
  pose proof (fun q P => registered_kept m y l y' u q H Hi K P) as KEEP.
  unfold reg_ok in *. revert H K. destruct C; intros HS K; rename HS into Hst; cbn [u_phase with_stop with_buf with_phase with_last with_locks]; auto;
    try (destruct (u_phase u) eqn:Ep; auto; try (destruct second; auto);
         try (destruct R as (d & R1 & R2); exists d; split; auto); intros; apply KEEP; auto; congruence).
  - destruct (u_stop u); auto. exists []. split; auto. intros ? [].
  - rewrite H in R. destruct (gathered chans); cbn; destruct second; cbn; auto;
      try (exists []; split; auto; intros ? []); intros; apply KEEP; auto; congruence.
  - rewrite H in R. destruct second; auto. intros; apply KEEP; auto; congruence.
  - rewrite H in R. destruct ok; [destruct rest|]; cbn; destruct second; cbn; auto;
      try (exists []; split; auto; intros ? []); intros; apply KEEP; auto; congruence.
  - rewrite H in R. destruct R as (d & R1 & R2). exists (d ++ [q]). split; [now rewrite <- app_assoc|].
    intros x Hx. apply in_app_iff in Hx as [Hx|[<-|[]]].
    + apply KEEP; auto; congruence.
    + cbn [ystep] in Hst. rewrite Hi, H, H0 in Hst. injection Hst as <-. cbn [y_b set_b]. apply register_this.
  - rewrite H in R. destruct R as (d & R1 & R2). rewrite app_nil_r in R1. subst d.
    destruct second; intros; apply KEEP; auto; congruence.
  - rewrite H in R. destruct (_ <=? _); cbn; [rewrite H; intros; apply KEEP; auto; congruence|].
    destruct ok; cbn; auto. rewrite H. intros; apply KEEP; auto; congruence.
  - destruct fin; auto.
Qed.

(** * Coverage *)
Variable g : N.
Variable E : Prop.

(** What the subscriber must be given: what it asked for above [g] (and [g] itself
    if [E]). *)
Definition want (r : record) : Prop := asked qs r /\ (g < r_gsn r \/ (r_gsn r = g /\ E)).

Definition rest_of (u : sub) : list record :=
  match u_phase u with
  | PFetch _ _ [] chans => gathered chans
  | PDeliver _ rest => rest
  | _ => []
  end.
Definition top (u : sub) : N := last (map r_gsn (rest_of u)) (u_last u).

Definition stage (u : sub) : nat :=
  match u_phase u with
  | PFetch false _ (_ :: _) _ => 0
  | PFetch false _ [] _ | PDeliver false _ | PSubscribe _ true | PFetch true _ (_ :: _) _ => 1
  | PFetch true _ [] _ | PDeliver true _ | PLive => 2
  | _ => 3
  end%nat.

Record cover (y : sys) (u : sub) : Prop := {
  v_E : E -> g <= l_last (y_log y);
  v_mode : match u_phase u with PInit | PSubscribe _ false => False | _ => True end;
  v_0 : stage u = 0%nat -> u_got u = [] /\ u_last u = g
          /\ (exists q, u_phase u = PFetch false g [q] [] /\ qs = [q]);
  v_q : match u_phase u with PFetch _ _ _ _ | PDeliver _ _ | PSubscribe _ _ => exists q, qs = [q] | _ => True end;
  v_top : (stage u = 1 \/ stage u = 2)%nat -> top u <= g \/ top u <= l_last (y_log y);
  v_1 : stage u = 1%nat -> forall r, In r (l_recs (y_log y)) -> want r ->
          In r (u_got u) \/ In r (rest_of u) \/ top u < r_gsn r;
  v_2 : stage u = 2%nat -> forall r, In r (l_recs (y_log y)) -> want r ->
          In r (u_got u) \/ In r (rest_of u) \/ (top u < r_gsn r /\ In r (inflight y u));
  v_fetch2 : forall from q l chans, u_phase u = PFetch true from (q :: l) chans ->
          from = u_last u + 1 /\ chans = [] /\ qs = [q] /\ l = []
}.

Lemma asked_match q r : qs = [q] -> asked qs r -> q_match q r = true.
Proof.
  intros -> [[->|[]]|[->|[]]]; cbn; auto. apply String.eqb_refl.
Qed.
Lemma match_registered r y u b : flow y u -> b = y_b y -> asked qs r ->
  (forall q, In q qs -> registered b q) -> existsb has_id (targets r b) = true.
Proof.
  intros F -> A R. apply existsb_has. destruct (targets_in r (y_b y) (f_wf _ _ F)) as (_ & T2 & T3).
  rewrite T2, T3. destruct A as [A|A]; [left|right]; apply (R _ A).
Qed.

Lemma in_answer L from q r : In r (before_error (answer L from q None)) <->
  In r (l_recs L) /\ from <= r_gsn r /\ q_match q r = true.
Proof.
  unfold answer. rewrite before_error_map, filter_In, andb_true_iff, N.leb_le. tauto.
Qed.

Lemma last_in {A} (l : list A) d : l <> [] -> In (last l d) l.
Proof.
  induction l as [|a l IH]; [congruence|]. intros _. destruct l as [|b l]; [now left|]. right.
  change (last (a :: b :: l) d) with (last (b :: l) d). apply IH. discriminate.
Qed.

Lemma last_gsn_cons r rest n : last (map r_gsn (r :: rest)) n = last (map r_gsn rest) (r_gsn r).
Proof. cbn. destruct rest; [reflexivity|]. apply last_default. discriminate. Qed.

(** A record of the log that was not there is above everything considered so far. *)
Lemma fresh_above y u l y' m r : ystep m y l = Some y' -> flow y u -> cover y u ->
  (stage u = 1 \/ stage u = 2)%nat ->
  In r (l_recs (y_log y')) -> want r -> In r (l_recs (y_log y)) \/
    (top u < r_gsn r /\ exists rs, l = YCommit rs /\ In r rs).
Proof.
  intros H F V St Hr [A W]. pose proof (ystep_env _ _ _ _ H) as En.
  inversion En; subst; match goal with Hl : y_log y' = _ |- _ => rewrite Hl in Hr end; auto.
  - cbn in Hr. apply in_app_iff in Hr as [Hr|Hr]; auto. right. split; eauto.
    destruct (grows_spec _ _ H0) as (_ & B & _). specialize (B r Hr).
    destruct (v_top _ _ V St) as [T|T]; [|lia]. destruct W as [W|[W e]]; [lia|]. pose proof (v_E _ _ V e). lia.
  - cbn in Hr. apply filter_In in Hr as [Hr _]. auto.
Qed.

(** What is on its way to [i] stays on its way, or reaches its worker. *)
Lemma inflight_kept m y l y' u u' r : ystep m y l = Some y' ->
  nth_error (y_subs y) i = Some u -> nth_error (y_subs y') i = Some u' -> change m y i u l u' ->
  (match l with YAccept k => k = 0%nat | _ => True end) ->
  calm l -> flow y u -> (forall q, In q qs -> registered (y_b y) q) -> asked qs r ->
  In r (inflight y u) ->
  In r (inflight y' u') \/ (exists ok rest, l = YWork i ok /\ u_buf u = r :: rest).
Proof.
  intros H Hi Hi' C NO K F R A Hr.
  pose proof (ystep_env _ _ _ _ H) as En.
  destruct (change_buf _ _ _ _ _ C) as [[B1 B2]|[(t & r0 & ts & -> & B2 & B3 & B3' & B4)|(r0 & ok & -> & B)]].
  2:{ left. inversion En; subst; try contradiction. rewrite H1 in B3. injection B3 as -> ->.
    destruct (now_for_served y y' t r0 ts H1 B3' (f_now _ _ F _ _ H1) H3) as [K' _]. destruct (K' B2) as [K1 K2].
    assert (I : inflight y' u' = inflight y u).
    { unfold inflight. rewrite B4, K2, K1, H5, H6. now rewrite <- app_assoc. }
    now rewrite I. }
  2:{ inversion En; subst; try contradiction.
    assert (I : inflight y u = r0 :: inflight y' u').
    { unfold inflight. unfold now_for. rewrite B, H3, H4, H2. reflexivity. }
    rewrite I in Hr. destruct Hr as [->|Hr]; auto. right. eauto. }
  left. inversion En; subst; clear En; cbn [calm] in K.
  - assert (I : inflight y' u' = inflight y u).
    { unfold inflight, now_for. now rewrite B1, H2, H3, H4. }
    now rewrite I.
  - unfold inflight, now_for in *. rewrite B1, H3, H4, H2. rewrite concat_app, !in_app_iff in *. tauto.
  - assert (I : inflight y' u' = inflight y u).
    { unfold inflight, now_for. now rewrite B1, H1, H2, H3. }
    now rewrite I.
  - pose proof (concat_accept _ _ _ _ NO H0) as K1.
    assert (I : inflight y' u' = inflight y u).
    { unfold inflight, now_for. rewrite B1, H2, H3, H4, <- K1, <- !app_assoc. reflexivity. }
    now rewrite I.
  - destruct (inflight_take y y' r0 u u' H0 H1 H3 H4 B1) as [I I'].
    rewrite I. rewrite I' in Hr. rewrite !in_app_iff in *. destruct Hr as [Hr|[[->|[]]|[Hr|Hr]]]; auto.
    rewrite (match_registered r y u (y_b y) F eq_refl A R). right. left. now left.
  - destruct (now_for_served y y' t r0 ts H0 H1 (f_now _ _ F _ _ H0) H2) as [_ K'].
    assert (I : inflight y' u' = inflight y u).
    { unfold inflight. rewrite B1, K', H4, H5; auto. }
    now rewrite I.
  - destruct (now_for_served y y' t r0 ts H0 H1 (f_now _ _ F _ _ H0) H2) as [_ K'].
    assert (I : inflight y' u' = inflight y u).
    { unfold inflight. rewrite B1, K', H4, H5; auto. }
    now rewrite I.
  - assert (I : inflight y' u' = inflight y u).
    { unfold inflight, now_for. now rewrite B1, H3, H4, H5. }
    now rewrite I.
  - assert (I : inflight y' u' = inflight y u).
    { unfold inflight, now_for. now rewrite B1, H3, H4, H5. }
    now rewrite I.
Qed.


Lemma commit_inflight m y rs y' u' r : ystep m y (YCommit rs) = Some y' -> In r rs -> In r (inflight y' u').
Proof.
  intros H Hr. pose proof (ystep_env _ _ _ _ H) as En. inversion En; subst; [contradiction|].
  unfold inflight. rewrite H3, concat_app, !in_app_iff. right. right. right. right. cbn. now rewrite app_nil_r.
Qed.

Lemma step_last m y l y' u : ystep m y l = Some y' -> flow y u -> l_last (y_log y) <= l_last (y_log y').
Proof. intros H F. destruct (ystep_log _ _ _ _ H (f_sorted _ _ F)) as [_ [L _]]. exact L. Qed.

Lemma reg_all y u : u_queries u = qs -> reg_ok y u -> stage u = 2%nat -> forall q, In q qs -> registered (y_b y) q.
Proof.
  unfold reg_ok, stage. intros Q R St. destruct (u_phase u); try discriminate; auto;
    destruct second; try discriminate; auto; destruct qs0; discriminate.
Qed.

Lemma cover_same m y l y' u u' : ystep m y l = Some y' ->
  nth_error (y_subs y) i = Some u -> nth_error (y_subs y') i = Some u' -> change m y i u l u' ->
  (match l with YAccept k => k = 0%nat | _ => True end) ->
  calm l -> flow y u -> reg_ok y u -> cover y u -> (forall ok, l <> YWork i ok) ->
  stage u' = stage u -> rest_of u' = rest_of u -> u_got u' = u_got u -> u_last u' = u_last u ->
  (match u_phase u' with PInit | PSubscribe _ false => False | _ => True end) ->
  (stage u' = 0%nat -> exists q, u_phase u' = PFetch false g [q] [] /\ qs = [q]) ->
  (match u_phase u' with PFetch _ _ _ _ | PDeliver _ _ | PSubscribe _ _ => exists q, qs = [q] | _ => True end) ->
  (forall from q l chans, u_phase u' = PFetch true from (q :: l) chans ->
          from = u_last u' + 1 /\ chans = [] /\ qs = [q] /\ l = []) ->
  cover y' u'.
Proof.
  intros H Hi Hi' C NO K F R V NW ES ER EG EL P1 P2 P3 P4.
  assert (ET : top u' = top u) by (unfold top; now rewrite ER, EL).
  pose proof (step_last _ _ _ _ _ H F) as LL.
  constructor; auto; rewrite ?ES, ?ET, ?ER, ?EG; auto.
  - intros e. pose proof (v_E _ _ V e). lia.
  - intros S0. destruct (v_0 _ _ V S0) as (A & B & _). rewrite EL. rewrite ES in P2. auto.
  - intros St. destruct (v_top _ _ V St); [left; auto|right; lia].
  - intros St r Hr W. destruct (fresh_above y u l y' m r H F V (or_introl St) Hr W) as [Hr'|[T _]]; auto.
    apply (v_1 _ _ V St r Hr' W).
  - intros St r Hr W. destruct (fresh_above y u l y' m r H F V (or_intror St) Hr W) as [Hr'|[T (rs & -> & Hrs)]].
    + destruct (v_2 _ _ V St r Hr' W) as [?|[?|[T I]]]; auto. right. right. split; auto.
      destruct (inflight_kept m y l y' u u' r H Hi Hi' C NO K F (reg_all y u (f_qs _ _ F) R St) (proj1 W) I)
        as [?|(ok & rest & -> & _)]; auto. exfalso. eapply NW; eauto.
    + right. right. split; auto. eapply commit_inflight; eauto.
Qed.

Local Opaque answer.
Lemma cover_step m y l y' u u' : ystep m y l = Some y' ->
  nth_error (y_subs y) i = Some u -> nth_error (y_subs y') i = Some u' -> change m y i u l u' ->
  (match l with YAccept k => k = 0%nat | _ => True end) ->
  calm l -> flow y u -> reg_ok y u -> l_last (y_log y') < max64 -> g < max64 -> cover y u -> cover y' u'.
Proof.
  intros H Hi Hi' C NO K F R LM GM V.
  pose proof (step_last _ _ _ _ _ H F) as LL.
  assert (V' := V). destruct V' as [V1 V2 V3 V4 V5 V6 V7 V8].
  pose proof (fun r => fresh_above y u l y' m r H F V) as FA.
  assert (C' := C).
  (* a stage 3 subscriber has nothing more to be shown *)
  assert (DONE : stage u' = 3%nat -> (match u_phase u' with PInit | PSubscribe _ _ => False | _ => True end) ->
                 cover y' u').
  { intros S3 P. constructor; try (intros S0; rewrite S3 in S0; discriminate || (destruct S0; discriminate)).
    - intros e. pose proof (V1 e). lia.
    - destruct (u_phase u'); auto; contradiction.
    - unfold stage in S3. destruct (u_phase u'); auto; try contradiction; destruct second; try destruct qs0; discriminate.
    - intros from q l0 chans E0. unfold stage in S3. rewrite E0 in S3. discriminate. }
  revert H NO K Hi' FA C'. destruct C; intros Hst NO K Hi' FA C'.
  - eapply cover_same; eauto. + intros ok ->. cbn in H. now rewrite Nat.eqb_refl in H. + intros S0. apply (V3 S0).
  - eapply cover_same; eauto. + destruct H as [->|[->|(t & -> & _)]]; discriminate. + intros S0. apply (V3 S0).
  - eapply cover_same; eauto. + discriminate. + intros S0. apply (V3 S0).
  - rewrite H in V2. contradiction.
  - rewrite H in V2. contradiction.
  - assert (Eu : rest_of u = gathered chans) by (unfold rest_of; now rewrite H).
    assert (Est : stage u = if second then 2%nat else 1%nat) by (unfold stage; rewrite H; now destruct second).
    rewrite H in V4.
    destruct (gathered chans) as [|r rs] eqn:Eg.
    + assert (Er' : rest_of (loop_ended second u) = []) by (destruct second; reflexivity).
      eapply cover_same; eauto; try (rewrite Er'; auto); try discriminate; destruct second; cbn; auto; discriminate.
    + eapply cover_same; eauto; try discriminate; destruct second; cbn; auto; discriminate.
  - destruct fail as [k|]; [cbn in K; congruence|].
    pose proof (ystep_env _ _ _ _ Hst) as En. inversion En; subst; clear En.
    assert (SB : forall from0 c, Forall (fun r => r_gsn r <= l_last (y_log y)) (before_error (answer (y_log y) from0 c None))).
    { intros. apply Forall_forall. intros r Hr. apply in_answer in Hr as [Hr _]. now apply (f_sorted _ _ F). }
    destruct second.
    + destruct (V8 _ _ _ _ H) as (-> & -> & EQ & ->).
      assert (St1 : stage u = 1%nat) by (unfold stage; now rewrite H).
      assert (Er : rest_of u = []) by (unfold rest_of; now rewrite H).
      constructor; cbn; auto; try discriminate.
      * rewrite H1. auto.
      * eauto.
      * intros _. unfold top. cbn. rewrite H1.
        destruct (before_error (answer (y_log y) (u_last u + 1) q None)) as [|b bs] eqn:Eb.
        -- cbn. destruct (V5 (or_introl St1)) as [T|T]; unfold top in T; rewrite Er in T; cbn in T; auto; right; lia.
        -- right. specialize (SB (u_last u + 1) q). rewrite Eb, Forall_forall in SB.
           assert (In (last (map r_gsn (b :: bs)) (u_last u)) (map r_gsn (b :: bs))) as Hl by (apply last_in; discriminate).
           apply in_map_iff in Hl as (x & <- & Hx). now apply SB.
      * intros _ r Hr W. rewrite H1 in Hr. destruct (V6 St1 r Hr W) as [G|[G|T]]; auto.
        -- rewrite Er in G. destruct G.
        -- right. left. unfold rest_of. cbn. apply in_answer. split; auto.
           unfold top in T. rewrite Er in T. cbn in T. split; [lia|]. apply asked_match; auto. apply W.
    + assert (St0 : stage u = 0%nat) by (unfold stage; now rewrite H).
      destruct (V3 St0) as (G0 & L0 & q0 & P0 & Q0). rewrite H in P0. injection P0 as -> -> -> ->.
      constructor; cbn; auto; try discriminate.
      * rewrite H1. auto.
      * eauto.
      * intros _. unfold top. cbn. rewrite H1.
        destruct (before_error (answer (y_log y) g q0 None)) as [|b bs] eqn:Eb.
        -- cbn. left. lia.
        -- right. specialize (SB g q0). rewrite Eb, Forall_forall in SB.
           assert (In (last (map r_gsn (b :: bs)) (u_last u)) (map r_gsn (b :: bs))) as Hl by (apply last_in; discriminate).
           apply in_map_iff in Hl as (x & <- & Hx). now apply SB.
      * intros _ r Hr W. rewrite H1 in Hr. right. left. unfold rest_of. cbn. apply in_answer. split; auto.
        destruct W as [A W]. split; [lia|]. now apply asked_match.
  - pose proof (ystep_env _ _ _ _ Hst) as En. inversion En; subst; clear En.
    assert (Er : rest_of u = r :: rest) by (unfold rest_of; now rewrite H).
    assert (Est : stage u = if second then 2%nat else 1%nat) by (unfold stage; rewrite H; now destruct second).
    rewrite H in V4.
    destruct ok; [|apply DONE; destruct second; cbn; auto].
    set (u' := match rest with [] => loop_ended second (hand r u) | _ => with_phase (PDeliver second rest) (hand r u) end) in *.
    assert (Er' : rest_of u' = rest) by (unfold u'; destruct rest; [destruct second|]; reflexivity).
    assert (Es' : stage u' = stage u) by (unfold u'; rewrite Est; destruct rest, second; reflexivity).
    assert (Eg' : u_got u' = u_got u ++ [r]) by (unfold u'; destruct rest, second; reflexivity).
    assert (El' : u_last u' = r_gsn r) by (unfold u'; destruct rest, second; reflexivity).
    assert (ET : top u' = top u) by (unfold top; rewrite Er, Er', El'; now rewrite last_gsn_cons).
    assert (Eq' : inflight y' u' = inflight y u).
    { unfold inflight, now_for. rewrite H2, H3, H4. f_equal. unfold u'; destruct rest, second; reflexivity. }
    constructor; rewrite ?Es', ?ET, ?Er', ?Eg', ?Eq', ?H1; auto.
    + unfold u'. destruct rest, second; cbn; auto.
    + intros S0. rewrite Est in S0. destruct second; discriminate.
    + unfold u'. destruct rest, second; cbn; auto.
    + intros St x Hx W. rewrite Er in V6. destruct (V6 St x Hx W) as [G|[[->|G]|G]]; auto;
        left; apply in_app_iff; auto. right. now left.
    + intros St x Hx W. rewrite Er in V7. destruct (V7 St x Hx W) as [G|[[->|G]|G]]; auto;
        left; apply in_app_iff; auto. right. now left.
    + unfold u'. destruct rest, second; cbn; discriminate.
  - destruct second; [|rewrite H in V2; contradiction]. rewrite H in V4.
    eapply cover_same; eauto; try discriminate; cbn; auto; try discriminate.
    + unfold stage. now rewrite H.
    + unfold rest_of. now rewrite H.
  - destruct second; [|rewrite H in V2; contradiction]. rewrite H in V4. destruct V4 as [q EQ].
    assert (Eqs : u_queries u = [q]) by (rewrite (f_qs _ _ F); auto).
    assert (St1 : stage u = 1%nat) by (unfold stage; now rewrite H).
    assert (Er : rest_of u = []) by (unfold rest_of; now rewrite H).
    assert (NM : u_last u <> max64).
    { destruct (V5 (or_introl St1)) as [T|T]; unfold top in T; rewrite Er in T; cbn in T; lia. }
    assert (SU : succ64 (u_last u) = u_last u + 1).
    { unfold succ64. destruct (N.eqb_spec (u_last u) max64); [contradiction|reflexivity]. }
    rewrite Eqs, SU in *.
    eapply cover_same; eauto; try discriminate; cbn; auto; try discriminate; eauto.
    intros from q1 l0 chans E0. injection E0 as <- <- <- <-. auto.
  - assert (St : stage u = 2%nat) by (unfold stage; now rewrite H).
    assert (Er : rest_of u = []) by (unfold rest_of; now rewrite H).
    assert (Et : top u = u_last u) by (unfold top; now rewrite Er).
    pose proof (ystep_env _ _ _ _ Hst) as En. inversion En; subst; clear En.
    rewrite H2 in *.
    assert (I : forall b, u_buf b = rest -> inflight y u = r :: inflight y' b).
    { intros b Eb. unfold inflight. unfold now_for. rewrite H0, Eb, H3, H4, H5. reflexivity. }
    destruct (N.leb_spec (r_gsn r) (u_last u)) as [Le|Gt].
    + constructor; unfold stage, top, rest_of; cbn; rewrite ?H, ?H2; cbn; auto; try discriminate.
      * intros _. rewrite <- Et. auto.
      * intros _ x Hx W. destruct (V7 St x Hx W) as [G|[G|[T G]]]; auto.
        -- rewrite Er in G. destruct G.
        -- right. right. rewrite Et in T. split; auto. rewrite (I (with_buf rest u) eq_refl) in G.
           destruct G as [->|G]; auto. lia.
    + destruct ok; [|apply DONE; cbn; auto].
      constructor; unfold stage, top, rest_of; cbn; rewrite ?H, ?H2; cbn; auto; try discriminate.
      * intros _. right. apply (f_le _ _ F). rewrite (I (with_buf rest u) eq_refl). now left.
      * intros _ x Hx W. destruct (V7 St x Hx W) as [G|[G|[T G]]].
        -- left. apply in_app_iff. auto.
        -- rewrite Er in G. destruct G.
        -- pose proof (f_incr _ _ F) as S. rewrite (I (hand r (with_buf rest u)) eq_refl) in G, S.
           apply incr_cons_inv in S as [_ S]. destruct G as [->|G].
           ++ left. apply in_app_iff. right. now left.
           ++ right. right. split; auto.
  - apply DONE; cbn; auto.
  - apply DONE; cbn; auto.
  - apply DONE; destruct fin; cbn; auto.
Qed.

End Cover.

(** * Runs *)
Lemma calm_cons i l ls : undisturbed i (l :: ls) -> calm i l /\ undisturbed i ls.
Proof.
  intros H. split.
  - pose proof (H l (or_introl eq_refl)) as K. destruct l; cbn in *; auto.
  - intros x Hx. apply H. now right.
Qed.

Lemma undisturbed_app i a b : undisturbed i (a ++ b) -> undisturbed i a /\ undisturbed i b.
Proof. intros H. split; intros x Hx; apply H; apply in_app_iff; auto. Qed.

(** Saves cannot overlap, or hand over their records in turn. *)
Definition ordered (m : mode) (y : sys) (ls : list label) : Prop :=
  (m_locked m = true /\ (length (y_pend y) <= 1)%nat) \/ in_turn ls.

Lemma ordered_init m subs ls : m_locked m = true \/ in_turn ls -> ordered m (sys_init subs) ls.
Proof. intros [M|O]; [left|right]; cbn; auto. Qed.

Lemma locked_pend m y l y' : m_locked m = true -> (length (y_pend y) <= 1)%nat -> ystep m y l = Some y' -> (length (y_pend y') <= 1)%nat.
Proof.
  intros M L H. pose proof (ystep_env _ _ _ _ H) as En. inversion En; subst; try congruence.
  - cbn [ystep] in H. rewrite M in H. cbn in H. destruct (_ && _)%bool eqn:G; [|discriminate]. apply andb_true_iff in G as [_ G].
    apply Nat.eqb_eq in G. rewrite H2, app_length, G. cbn. lia.
  - rewrite H2. destruct (y_pend y) as [|p [|p' pend]]; cbn in L; [destruct k; discriminate| |lia].
    destruct k as [|k]; [|destruct k; discriminate]. destruct rest; cbn; lia.
Qed.

Lemma ordered_app m a : forall y y1 b, yrun m y a = Some y1 -> ordered m y (a ++ b) -> ordered m y a /\ ordered m y1 b.
Proof.
  intros y y1 b H [[M O]|O].
  - split; left; split; auto. revert y H O. induction a as [|l a IH]; cbn; intros y H O; [now injection H as <-|].
    destruct (ystep m y l) as [y2|] eqn:E; [|discriminate]. eapply IH; eauto. eapply locked_pend; eauto.
  - split; right; intros k Hk; apply O, in_app_iff; auto.
Qed.

Lemma ordered_cons m y l ls y1 : ystep m y l = Some y1 -> ordered m y (l :: ls) ->
  (match l with YAccept k => k = 0%nat | _ => True end) /\ ordered m y1 ls.
Proof.
  intros H [[M O]|O].
  - split; [|left; split; auto; eapply locked_pend; eauto]. destruct l; auto. cbn [ystep] in H.
    destruct (y_pend y) as [|p [|p' pend]]; cbn in O; [destruct k; discriminate| |lia].
    destruct k as [|k]; [reflexivity|destruct k; discriminate].
  - split; [|right; intros k Hk; apply O; now right]. destruct l; auto. apply O. now left.
Qed.

Definition good (i : nat) (qs : list query) (y : sys) (u : sub) : Prop :=
  flow i qs y u /\ phase_queries u /\ reg_ok i qs y u.

Lemma step_good m i qs y l y' u : asks_for qs -> ystep m y l = Some y' ->
  (match l with YAccept k => k = 0%nat | _ => True end) -> calm i l ->
  nth_error (y_subs y) i = Some u -> good i qs y u ->
  exists u', nth_error (y_subs y') i = Some u' /\ change m y i u l u' /\ good i qs y' u'.
Proof.
  intros AF H O K Hi (F & P & R).
  destruct (ystep_sub _ _ _ _ _ _ H Hi) as (u1 & Hi1 & C). exists u1. split; auto. split; auto. split; [|split].
  - eapply (flow_step i qs AF); eauto.
  - eapply change_phase_queries; eauto.
  - eapply reg_step; eauto. apply (f_qs _ _ _ _ F).
Qed.

Lemma run_good m i qs ls : asks_for qs -> forall y y' u, yrun m y ls = Some y' -> ordered m y ls -> undisturbed i ls ->
  nth_error (y_subs y) i = Some u -> good i qs y u ->
  exists u', nth_error (y_subs y') i = Some u' /\ good i qs y' u'.
Proof.
  intros AF. induction ls as [|l ls IH]; cbn; intros y y' u H O UD Hi G.
  - injection H as <-. eauto.
  - destruct (ystep m y l) as [y1|] eqn:E; [|discriminate].
    apply calm_cons in UD as [K UD]. destruct (ordered_cons _ _ _ _ _ E O) as [O1 O2].
    destruct (step_good _ _ _ _ _ _ _ AF E O1 K Hi G) as (u1 & Hi1 & _ & G1). eauto.
Qed.

Lemma run_cover m i qs g (E : Prop) ls : asks_for qs -> g < max64 -> forall y y' u, yrun m y ls = Some y' ->
  ordered m y ls -> undisturbed i ls -> l_last (y_log y') < max64 ->
  nth_error (y_subs y) i = Some u -> good i qs y u -> cover i qs g E y u ->
  exists u', nth_error (y_subs y') i = Some u' /\ good i qs y' u' /\ cover i qs g E y' u'.
Proof.
  intros AF GM. induction ls as [|l ls IH]; cbn; intros y y' u H O UD LM Hi G V.
  - injection H as <-. eauto.
  - destruct (ystep m y l) as [y1|] eqn:Es; [|discriminate].
    apply calm_cons in UD as [K UD]. destruct (ordered_cons _ _ _ _ _ Es O) as [O1 O2].
    destruct (step_good _ _ _ _ _ _ _ AF Es O1 K Hi G) as (u1 & Hi1 & C & G1).
    assert (L1 : l_last (y_log y1) < max64).
    { destruct G1 as (F1 & _). destruct (yrun_log _ _ _ _ H (f_sorted _ _ _ _ F1)) as [_ [L _]]. lia. }
    eapply IH; eauto. destruct G as (F & P & R). eapply (cover_step i qs AF); eauto.
Qed.

Lemma good_init i qs cap subs : nth_error subs i = Some (qs, cap) ->
  nth_error (y_subs (sys_init subs)) i = Some (new_sub qs cap) /\ good i qs (sys_init subs) (new_sub qs cap).
Proof.
  intros H. split.
  - cbn. now rewrite nth_error_map, H.
  - split; [|split; exact I]. constructor; cbn; try (intros; contradiction); try discriminate; auto; try lia.
    + exact (log_sorted_init subs).
    + split; constructor.
    + apply incr_nil.
Qed.

Lemma covered i qs g (E : Prop) y u : cover i qs g E y u -> u_phase u = PLive -> quiet y u ->
  forall r, In r (l_recs (y_log y)) -> want qs g E r -> In r (u_got u).
Proof.
  intros V P (Q1 & Q2 & Q3 & Q4) r Hr W.
  assert (St : stage u = 2%nat) by (unfold stage; now rewrite P).
  destruct (v_2 _ _ _ _ _ _ V St r Hr W) as [G|[G|[_ G]]]; auto.
  - unfold rest_of in G. rewrite P in G. destruct G.
  - unfold inflight, now_for in G. rewrite Q1, Q2, Q3, Q4 in G. destruct G.
Qed.

Lemma cover_start i q cap y0 m ls g y1 : nth_error (y_subs y0) i = Some (new_sub [q] cap) ->
  forall y2 u1, yrun m y0 ls = Some y1 -> nth_error (y_subs y1) i = Some u1 -> good i [q] y1 u1 ->
  ystep m y1 (YStartFrom i g) = Some y2 ->
  exists u2, nth_error (y_subs y2) i = Some u2 /\ cover i [q] g (g <= l_last (y_log y1)) y2 u2.
Proof.
  intros H0 y2 u1 H Hi G Hst. cbn [ystep] in Hst. rewrite Hi in Hst. destruct (u_phase u1) eqn:P; try discriminate.
  injection Hst as <-. eexists. split; [cbn; eapply nth_set_same; eauto|].
  destruct (yrun_before _ _ _ _ _ _ _ H H0 Hi P) as (_ & G1 & G2 & G3). cbn in G1, G2, G3.
  constructor; cbn; auto; try discriminate.
  - intros _. rewrite G1. split; auto. split; auto. exists q. rewrite G3. auto.
  - eauto.
  - intros [K|K]; rewrite G3 in K; discriminate.
  - rewrite G3; discriminate.
  - rewrite G3; discriminate.
Qed.

Lemma cover_live i qs y u : flow i qs y u -> u_phase u = PLive ->
  cover i qs (N.max (u_last u) (l_last (y_log y))) False y u.
Proof.
  intros F P. constructor; try (unfold stage, rest_of, top, rest_of; rewrite P; cbn; auto; try discriminate; fail).
  - contradiction.
  - unfold top, rest_of, stage. rewrite P. cbn. intros _. left. lia.
  - intros _ r Hr [_ [W|[_ []]]]. pose proof (proj2 (f_sorted _ _ _ _ F) r Hr). lia.
Qed.
