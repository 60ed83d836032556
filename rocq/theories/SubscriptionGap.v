(** At every moment, and however it ends, what a subscriber was handed has no gap. *)
From Coq Require Import PeanoNat.
From Verif Require Import Base LogSpec Core CoreSpec CoreProofs LogProofs Broadcaster BroadcasterProofs
  Subscription SubscriptionSpec SubscriptionProofs SubscriptionCover SubscriptionRun.

Section Gap.
Variable i : nat.
Variable q : query.
Variable g : N.
Variable E : Prop.
Variable lo : N.
Let qs := [q].

Lemma one_shape : asks_for qs.
Proof. unfold qs. destruct q as [t|]; [right; exists [t]; reflexivity|now left]. Qed.

Definition gapless (y : sys) (u : sub) : Prop := forall r r',
  In r' (u_got u) -> In r (l_recs (y_log y)) -> want qs g E r -> r_gsn r <= r_gsn r' -> In r (u_got u).

(** Not on the broadcaster's lists, and nothing is being sent to it. *)
Definition unlisted (y : sys) : Prop := ~ registered i (y_b y) q /\ now_for i y = [].

(** Before it subscribes a subscriber is not listed. *)
Definition before (u : sub) : Prop :=
  match u_phase u with
  | PInit | PFetch false _ _ _ | PDeliver false _ | PSubscribe (_ :: _) _ => True
  | _ => False
  end.

(** It was dropped for being slow. *)
Record dropped (y : sys) (u : sub) : Prop := {
  d_un : unlisted y;
  d_E : E -> g <= l_last (y_log y);
  d_phase : ~ before u /\ match u_phase u with PSubscribe _ false => False | _ => True end;
  d_top : (stage u = 1 \/ stage u = 2)%nat -> top u <= g \/ top u <= l_last (y_log y);
  d_1 : stage u = 1%nat -> forall r, In r (l_recs (y_log y)) -> want qs g E r ->
          In r (u_got u) \/ In r (rest_of u) \/ top u < r_gsn r;
  d_2 : stage u = 2%nat -> forall r, In r (l_recs (y_log y)) -> want qs g E r ->
          In r (u_got u) \/ In r (rest_of u)
          \/ (top u < r_gsn r /\ (In r (u_buf u) \/ forall b, In b (u_buf u) -> r_gsn b < r_gsn r));
  d_fetch2 : forall from p l chans, u_phase u = PFetch true from (p :: l) chans ->
          from = u_last u + 1 /\ chans = [] /\ qs = [p] /\ l = []
}.

(** It has left. *)
Definition ended (u : sub) : Prop :=
  match u_phase u with PLeave _ _ | PDone | PGone | PCanceled => True | _ => False end.

Lemma listed_target y u r ts : flow i qs y u -> y_now y = Some (r, ts) ->
  now_for i y = [] -> forall t, servable t ts = true -> t_id t <> i.
Proof.
  intros F Hn N t S Et. unfold servable in S. apply andb_true_iff in S as [S _].
  unfold now_for in N. rewrite Hn in N. destruct (existsb (has_id i) ts) eqn:X; [discriminate|].
  assert (existsb (has_id i) ts = true); [|congruence].
  apply existsb_exists in S as (t' & Ht & Q). apply t_eqb_eq in Q. subst t'. apply existsb_exists. exists t. split; auto.
  unfold has_id. now apply Nat.eqb_eq.
Qed.

(** Once unlisted, always unlisted, unless it subscribes. *)
Lemma unlisted_step m y l y' u : ystep m y l = Some y' -> nth_error (y_subs y) i = Some u -> flow i qs y u ->
  (l = YSubscribe i -> forall p l', u_phase u <> PSubscribe (p :: l') true /\ u_phase u <> PSubscribe (p :: l') false) ->
  unlisted y -> unlisted y'.
Proof.
  intros H Hi F NS [U1 U2]. pose proof (ystep_env _ _ _ _ H) as En.
  inversion En; subst.
  - split; [now rewrite H5|]. unfold now_for in *. now rewrite H4.
  - split; [now rewrite H5|]. unfold now_for in *. now rewrite H4.
  - split; [now rewrite H4|]. unfold now_for in *. now rewrite H3.
  - split; [now rewrite H5|]. unfold now_for in *. now rewrite H4.
  - split; [now rewrite H5|]. unfold now_for. rewrite H4.
    destruct (targets r (y_b y)) as [|t ts] eqn:Et; auto. rewrite <- Et.
    destruct (existsb (has_id i) (targets r (y_b y))) eqn:X; auto. exfalso. apply (existsb_has i) in X.
    destruct (targets_in i r (y_b y) (f_wf _ _ _ _ F)) as (_ & T1 & T2). apply U1.
    destruct X as [X|X].
    + apply T1 in X. pose proof (f_all _ _ _ _ F X) as K. destruct K as [K|[]]. unfold registered. now rewrite K.
    + apply T2 in X. pose proof (f_type _ _ _ _ F _ X) as K. destruct K as [K|[]]. unfold registered. now rewrite K.
  - pose proof (listed_target y u r ts F H0 U2 t H1) as NT. split; [now rewrite H6|].
    destruct (now_for_served i qs one_shape y y' t r ts H0 H1 (f_now _ _ _ _ F _ _ H0) H2) as [_ K]. now rewrite K.
  - pose proof (listed_target y u r ts F H0 U2 t H1) as NT. split.
    + rewrite H6. destruct t as [j|j].
      * change (del_all j (y_b y)) with (unregister None j (y_b y)). intros K. now apply unregister_in in K.
      * change (del_type (r_atype r) j (y_b y)) with (unregister (Some (r_atype r)) j (y_b y)). intros K. now apply unregister_in in K.
    + destruct (now_for_served i qs one_shape y y' t r ts H0 H1 (f_now _ _ _ _ F _ _ H0) H2) as [_ K]. now rewrite K.
  - split.
    + rewrite H6. intros K. apply register_in in K as [K|[-> ->]]; auto.
      rewrite H0 in Hi. injection Hi as <-. destruct (NS eq_refl q qs0) as [N1 N2]. destruct second; congruence.
    + unfold now_for in *. now rewrite H5.
  - split.
    + rewrite H6. intros K. now apply unregister_in in K.
    + unfold now_for in *. now rewrite H5.
Qed.

Definition unseen (y : sys) (u : sub) : Prop := before u -> unlisted y.

Lemma unseen_step m y l y' u u' : ystep m y l = Some y' -> nth_error (y_subs y) i = Some u ->
  change m y i u l u' -> flow i qs y u -> phase_queries u -> unseen y u -> unseen y' u'.
Proof.
  intros H Hi C F PQ U B.
  assert (before u /\ (l = YSubscribe i -> forall p l', u_phase u <> PSubscribe (p :: l') true /\ u_phase u <> PSubscribe (p :: l') false)) as [B0 NS].
  { pose proof (f_qs _ _ _ _ F) as Q. unfold before in *. unfold phase_queries in PQ. inversion C; subst.
    - split; auto. intros ->. cbn in H0. rewrite Nat.eqb_refl in H0. discriminate.
    - cbn in B. split; auto. intros ->. destruct H0 as [K|[K|(t & K & _)]]; discriminate.
    - cbn in B. split; auto. discriminate.
    - rewrite H0. split; auto. discriminate.
    - rewrite H0. split; auto. discriminate.
    - rewrite H0. destruct second; [exfalso|split; auto; discriminate].
      revert B. destruct (gathered chans); cbn; auto.
    - rewrite H0. cbn in B. split; auto. discriminate.
    - rewrite H0. destruct second; [exfalso|split; auto; discriminate].
      revert B. destruct ok; [destruct rest|]; cbn; auto.
    - exfalso. cbn in B. rewrite H0, Q in PQ. destruct PQ as [d PQ]. unfold qs in PQ.
      destruct d; cbn in PQ; [injection PQ as _ <-; exact B|]. destruct d; discriminate.
    - cbn in B. destruct second; contradiction.
    - revert B. destruct (_ <=? _); cbn; rewrite ?H0; [contradiction|]. destruct ok; cbn; rewrite ?H0; contradiction.
    - contradiction.
    - contradiction.
    - destruct fin; contradiction. }
  eapply unlisted_step; eauto.
Qed.

Definition reads_fine (l : label) : Prop := match l with YFetch j (Some _) => j <> i | _ => True end.

Lemma later_new y y' m l r : ystep m y l = Some y' -> log_sorted (y_log y) -> In r (l_recs (y_log y')) ->
  In r (l_recs (y_log y)) \/ l_last (y_log y) < r_gsn r.
Proof. intros H S Hr. destruct (ystep_log _ _ _ _ H S) as [_ [_ L]]. auto. Qed.

Local Opaque answer.

(** A dropped subscriber goes on with what it has. *)
Lemma dropped_step m y l y' u u' : ystep m y l = Some y' -> nth_error (y_subs y) i = Some u ->
  change m y i u l u' -> reads_fine l -> flow i qs y u -> l_last (y_log y') < max64 -> g < max64 ->
  dropped y u -> ended u' \/ dropped y' u'.
Proof.
  intros H Hi C RF F LM GM D.
  assert (D' := D). destruct D' as [D1 D2 [D3 D3'] D4 D5 D6 D7].
  pose proof (step_last _ _ _ _ _ _ _ H F) as LL.
  assert (U' : unlisted y').
  { eapply unlisted_step; eauto. intros -> p l'. unfold before in D3. split; intros P; rewrite P in D3; now apply D3. }
  assert (E' : E -> g <= l_last (y_log y')) by (intros e; pose proof (D2 e); lia).
  assert (FA : (stage u = 1 \/ stage u = 2)%nat -> forall r, In r (l_recs (y_log y')) -> want qs g E r ->
     In r (l_recs (y_log y)) \/ (top u < r_gsn r /\ forall b, In b (u_buf u) -> r_gsn b < r_gsn r)).
  { intros St r Hr [_ W]. destruct (later_new _ _ _ _ _ H (f_sorted _ _ _ _ F) Hr) as [K|K]; auto. right. split.
    - destruct (D4 St) as [T|T]; [|lia]. destruct W as [W|[W e]]; [lia|]. pose proof (D2 e). lia.
    - intros b Hb. assert (r_gsn b <= l_last (y_log y)); [|lia]. apply (f_le _ _ _ _ F). apply in_app_iff. auto. }
  (* steps that leave the progress alone *)
  assert (SAME : stage u' = stage u -> rest_of u' = rest_of u -> u_got u' = u_got u -> u_last u' = u_last u ->
     u_buf u' = u_buf u -> ~ before u' -> (match u_phase u' with PSubscribe _ false => False | _ => True end) ->
     (forall from p l chans, u_phase u' = PFetch true from (p :: l) chans ->
          from = u_last u' + 1 /\ chans = [] /\ qs = [p] /\ l = []) -> dropped y' u').
  { intros ES ER EG EL EB B P P2. assert (ET : top u' = top u) by (unfold top; now rewrite ER, EL).
    constructor; auto; rewrite ?ES, ?ET, ?ER, ?EG, ?EB.
    - intros St. destruct (D4 St); [now left|right; lia].
    - intros St r Hr W. destruct (FA (or_introl St) r Hr W) as [K|[K _]]; auto.
    - intros St r Hr W. destruct (FA (or_intror St) r Hr W) as [K|[K K2]]; auto. }
  inversion C; subst.
  - right. apply SAME; auto.
  - right. apply SAME; auto.
  - exfalso. destruct D1 as [_ N]. eapply listed_target; eauto.
  - exfalso. apply D3. unfold before. now rewrite H0.
  - exfalso. apply D3. unfold before. now rewrite H0.
  - destruct second; [|exfalso; apply D3; unfold before; now rewrite H0].
    right. assert (Eu : rest_of u = gathered chans) by (unfold rest_of; now rewrite H0).
    assert (Est : stage u = 2%nat) by (unfold stage; now rewrite H0).
    destruct (gathered chans) as [|r rs] eqn:Eg; apply SAME; rewrite ?Eu, ?Est; cbn; auto; discriminate.
  - destruct fail as [k|]; [cbn in RF; congruence|].
    destruct second; [|exfalso; apply D3; unfold before; now rewrite H0].
    destruct (D7 _ _ _ _ H0) as (-> & -> & EQ & ->).
    pose proof (ystep_env _ _ _ _ H) as En. inversion En; subst; clear En.
    assert (St1 : stage u = 1%nat) by (unfold stage; now rewrite H0).
    assert (Er : rest_of u = []) by (unfold rest_of; now rewrite H0).
    right. constructor; cbn; auto; try discriminate.
    + intros _. unfold top. cbn. rewrite H2.
      destruct (before_error (answer (y_log y) (u_last u + 1) q0 None)) as [|b bs] eqn:Eb.
      * cbn. destruct (D4 (or_introl St1)) as [T|T]; unfold top in T; rewrite Er in T; cbn in T; auto.
      * right.
        assert (In (last (map r_gsn (b :: bs)) (u_last u)) (map r_gsn (b :: bs))) as Hl by (apply last_in; discriminate).
        apply in_map_iff in Hl as (x & <- & Hx). rewrite <- Eb in Hx. apply in_answer in Hx as [Hx _]. now apply (f_sorted _ _ _ _ F).
    + intros _ r Hr W. rewrite H2 in Hr. destruct (D5 St1 r Hr W) as [G|[G|T]]; auto.
      * rewrite Er in G. destruct G.
      * right. left. unfold rest_of. cbn. apply in_answer. split; auto.
        unfold top in T. rewrite Er in T. cbn in T. split; [lia|]. eapply (asked_match qs one_shape); [exact EQ|]. apply W.
  - destruct second; [|exfalso; apply D3; unfold before; now rewrite H0].
    destruct ok; [|left; exact I]. right.
    pose proof (ystep_env _ _ _ _ H) as En. inversion En; subst; clear En.
    assert (Er : rest_of u = r :: rest) by (unfold rest_of; now rewrite H0).
    assert (Est : stage u = 2%nat) by (unfold stage; now rewrite H0).
    set (u' := match rest with [] => loop_ended true (hand r u) | _ => with_phase (PDeliver true rest) (hand r u) end) in *.
    assert (Er' : rest_of u' = rest) by (unfold u'; destruct rest; reflexivity).
    assert (Es' : stage u' = 2%nat) by (unfold u'; destruct rest; reflexivity).
    assert (Eg' : u_got u' = u_got u ++ [r]) by (unfold u'; destruct rest; reflexivity).
    assert (El' : u_last u' = r_gsn r) by (unfold u'; destruct rest; reflexivity).
    assert (Eb' : u_buf u' = u_buf u) by (unfold u'; destruct rest; reflexivity).
    assert (ET : top u' = top u) by (unfold top; rewrite Er, Er', El'; now rewrite last_gsn_cons).
    constructor; rewrite ?Es', ?ET, ?Er', ?Eg', ?Eb', ?H2; auto; try discriminate.
    + unfold u'. destruct rest; cbn; auto.
    + intros _ x Hx W. rewrite Er in D6. destruct (D6 Est x Hx W) as [G|[[->|G]|G]]; auto;
        left; apply in_app_iff; auto. right. now left.
    + unfold u'. destruct rest; cbn; discriminate.
  - exfalso. apply D3. unfold before. now rewrite H0.
  - rewrite H0 in D3'. destruct second; [|contradiction]. right.
    assert (St1 : stage u = 1%nat) by (unfold stage; now rewrite H0).
    assert (Er : rest_of u = []) by (unfold rest_of; now rewrite H0).
    assert (SU : succ64 (u_last u) = u_last u + 1).
    { unfold succ64. destruct (N.eqb_spec (u_last u) max64) as [K|K]; auto. exfalso.
      destruct (D4 (or_introl St1)) as [T|T]; unfold top in T; rewrite Er in T; cbn in T; lia. }
    pose proof (f_qs _ _ _ _ F) as Q0.
    apply SAME; rewrite ?St1, ?Er; unfold stage, rest_of; cbn; rewrite ?Q0; cbn; auto.
    intros from p l chans K. rewrite SU in K. injection K as <- <- <- <-. auto.
  - assert (St : stage u = 2%nat) by (unfold stage; now rewrite H0).
    assert (Er : rest_of u = []) by (unfold rest_of; now rewrite H0).
    assert (Et : top u = u_last u) by (unfold top; now rewrite Er).
    pose proof (ystep_env _ _ _ _ H) as En. inversion En; subst; clear En.
    assert (SB : gsn_increasing (r :: rest)).
    { pose proof (f_incr _ _ _ _ F) as S. unfold inflight in S. rewrite H1 in S. now apply incr_app_inv in S as (S & _). }
    apply incr_cons_inv in SB as [SB1 SB2].
    destruct (N.leb_spec (r_gsn r) (u_last u)) as [Le|Gt].
    + right. constructor; unfold stage, top, rest_of, before; cbn; rewrite ?H0, ?H3; cbn; auto; try discriminate.
      * intros _. rewrite <- Et. auto.
      * intros _ x Hx W. destruct (D6 St x Hx W) as [G|[G|[T G]]]; auto.
        -- rewrite Er in G. destruct G.
        -- right. right. rewrite Et in T. split; auto. rewrite H1 in G. destruct G as [[->|G]|G]; auto; [lia|].
           right. intros b Hb. apply G. now right.
    + destruct ok; [|left; exact I]. right.
      constructor; unfold stage, top, rest_of, before; cbn; rewrite ?H0, ?H3; cbn; auto; try discriminate.
      * intros _. right. apply (f_le _ _ _ _ F). unfold inflight. rewrite H1. now left.
      * intros _ x Hx W. destruct (D6 St x Hx W) as [G|[G|[T G]]].
        -- left. apply in_app_iff. auto.
        -- rewrite Er in G. destruct G.
        -- rewrite H1 in G. destruct G as [[->|G]|G].
           ++ left. apply in_app_iff. right. now left.
           ++ right. right. split; auto.
           ++ right. right. split; [apply G; now left|]. right. intros b Hb. apply G. now right.
  - left. exact I.
  - left. exact I.
  - left. destruct fin; exact I.
Qed.

(** The moment it is dropped. *)
Lemma drop m y t y' u : ystep m y (YTimeout t) = Some y' -> nth_error (y_subs y) i = Some u -> t_id t = i ->
  flow i qs y u -> unseen y u -> cover i qs g E y u -> dropped y' (with_stop u).
Proof.
  intros H Hi Et F U V. pose proof (ystep_env _ _ _ _ H) as En. inversion En; subst; try contradiction.
  destruct (now_for_served i qs one_shape y y' t r ts H1 H2 (f_now _ _ _ _ F _ _ H1) H3) as [K _].
  destruct (K Et) as [K1 K2].
  assert (NB : ~ before u). { intros B. destruct (U B) as [_ N]. rewrite K1 in N. discriminate. }
  constructor; auto.
  - split; auto. rewrite H7. destruct (f_now _ _ _ _ F _ _ H1) as [A B].
    unfold servable in H2. apply andb_true_iff in H2 as [H2 _]. apply existsb_exists in H2 as (t' & Ht & Q).
    apply t_eqb_eq in Q. subst t'. unfold registered. clear K. destruct t as [j|j]; cbn [t_id] in *; subst j.
    + destruct (A Ht) as [->|[]]. rewrite <- in_all_spec, in_all_del, Nat.eqb_refl. cbn. rewrite andb_false_r. discriminate.
    + destruct (B Ht) as [->|[]]. rewrite <- in_type_spec, in_type_del, Nat.eqb_refl, String.eqb_refl. cbn. rewrite andb_false_r. discriminate.
  - rewrite H4. apply (v_E _ _ _ _ _ _ V).
  - split; [exact NB|]. pose proof (v_mode _ _ _ _ _ _ V) as M. cbn. destruct (u_phase u); auto.
  - rewrite H4. apply (v_top _ _ _ _ _ _ V).
  - rewrite H4. apply (v_1 _ _ _ _ _ _ V).
  - rewrite H4. cbn. intros St x Hx W. destruct (v_2 _ _ _ _ _ _ V St x Hx W) as [G|[G|[T G]]]; auto.
    right. right. split; auto. unfold inflight in G. apply in_app_iff in G as [G|G]; auto. right.
    intros b Hb. pose proof (f_incr _ _ _ _ F) as S. unfold inflight in S. apply incr_app_inv in S as (_ & _ & S). now apply S.
  - apply (v_fetch2 _ _ _ _ _ _ V).
Qed.

Lemma got_below_rest L u : sub_ok lo L u -> u_queries u = qs -> forall r x, In r (u_got u) -> In x (rest_of u) -> r_gsn r < r_gsn x.
Proof.
  intros [A B C D P] Q r x Hr Hx. unfold rest_of in Hx. unfold pending in *. destruct (u_phase u) as [|second from qs0 chans|second rest|qs0 second| |qs0 fin| | |] eqn:Ph; try contradiction.
  - destruct qs0; [|contradiction]. destruct P as (_ & P1 & (qd & P2 & P3) & P4).
    rewrite app_nil_r in P2. rewrite <- P2, Q in P3. clear P2.
    destruct (gathered_ok L from qs chans P3) as [_ G]; auto.
    { unfold qs. repeat constructor. intros []. } { unfold qs. intros [->|[]]. reflexivity. }
    apply G in Hx. apply in_flat_map in Hx as (c & Hc & Hx).
    assert (from <= r_gsn x).
    { clear -P3 Hc Hx. induction P3 as [|p c0 ps cs Hc0 P3 IH]; [destruct Hc|]. destruct Hc as [->|Hc]; auto. now apply Hc0. }
    destruct second; [|destruct P1 as [_ P1]; rewrite P1 in Hr; destruct Hr]. specialize (C r Hr). lia.
  - apply incr_app_inv in A as (_ & _ & A). now apply A.
Qed.

Lemma got_below_top L u : sub_ok lo L u -> u_queries u = qs -> forall r, In r (u_got u) -> r_gsn r <= top u.
Proof.
  intros S Q r Hr. unfold top. destruct (rest_of u) as [|x xs] eqn:Er.
  - cbn. now apply (so_last _ _ _ S).
  - assert (In (last (map r_gsn (x :: xs)) (u_last u)) (map r_gsn (x :: xs))) as Hl by (apply last_in; discriminate).
    apply in_map_iff in Hl as (z & <- & Hz). rewrite <- Er in Hz. pose proof (got_below_rest L u S Q r z Hr Hz). lia.
Qed.

Definition going (y : sys) (u : sub) : Prop := (cover i qs g E y u /\ reg_ok i qs y u) \/ dropped y u.

Lemma going_gapless y u : flow i qs y u -> sub_ok lo (y_log y) u -> going y u -> stage u <> 3%nat -> gapless y u.
Proof.
  intros F S G St r r' Hr' Hr W Le. pose proof (f_qs _ _ _ _ F) as Q.
  pose proof (got_below_top _ _ S Q r' Hr') as T. pose proof (fun x => got_below_rest _ _ S Q r' x Hr') as B.
  assert (stage u = 0 \/ stage u = 1 \/ stage u = 2)%nat as [S0|[S1|S2]].
  { revert St. unfold stage. destruct (u_phase u); try destruct second; try destruct qs0; auto; try tauto. }
  - destruct G as [[V _]|D].
    + destruct (v_0 _ _ _ _ _ _ V S0) as (Z & _). rewrite Z in Hr'. destruct Hr'.
    + destruct (d_phase _ _ D) as [NB _]. exfalso. apply NB. unfold before. revert S0. unfold stage.
      destruct (u_phase u); try destruct second; try destruct qs0; auto; discriminate.
  - assert (In r (u_got u) \/ In r (rest_of u) \/ top u < r_gsn r) as [K|[K|K]]; auto.
    { destruct G as [[V _]|D]; [apply (v_1 _ _ _ _ _ _ V)|apply (d_1 _ _ D)]; auto. }
    + specialize (B r K). lia.
    + lia.
  - assert (In r (u_got u) \/ In r (rest_of u) \/ top u < r_gsn r) as [K|[K|K]]; auto.
    { destruct G as [[V _]|D]; [destruct (v_2 _ _ _ _ _ _ V S2 r Hr W)|destruct (d_2 _ _ D S2 r Hr W)]; tauto. }
    + specialize (B r K). lia.
    + lia.
Qed.

Record inv (y : sys) (u : sub) : Prop := {
  n_flow : flow i qs y u;
  n_pq : phase_queries u;
  n_unseen : unseen y u;
  n_ok : sub_ok lo (y_log y) u;
  n_below : forall r, In r (u_got u) -> r_gsn r <= l_last (y_log y) \/ r_gsn r <= g;
  n_gap : gapless y u;
  n_E : E -> g <= l_last (y_log y);
  n_going : ended u \/ going y u
}.

Lemma ended_step m y l u u' : change m y i u l u' -> ended u -> ended u' /\ u_got u' = u_got u.
Proof.
  unfold ended. intros C En. inversion C; subst; cbn; auto; try (rewrite H in En; contradiction);
    try (match goal with P : u_phase u = _ |- _ => rewrite P in En; contradiction end).
  - split; auto. destruct fin; exact I.
Qed.

Lemma going_step m y l y' u u' : ystep m y l = Some y' -> nth_error (y_subs y) i = Some u ->
  nth_error (y_subs y') i = Some u' -> change m y i u l u' ->
  (match l with YAccept k => k = 0%nat | _ => True end) -> reads_fine l ->
  l_last (y_log y') < max64 -> g < max64 -> flow i qs y u -> unseen y u -> going y u -> ended u' \/ going y' u'.
Proof.
  intros H Hi Hi' C NO RF LM GM F U [[V R]|D].
  - assert (calm i l \/ exists t, l = YTimeout t /\ t_id t = i) as [K|(t & -> & Et)].
    { destruct l; cbn in *; auto. destruct (Nat.eq_dec (t_id t) i); eauto. }
    + right. left. split.
      * eapply cover_step; eauto. apply one_shape.
      * eapply reg_step; eauto. apply (f_qs _ _ _ _ F).
    + right. right. inversion C; subst.
      * match goal with K : touches _ _ = false |- _ => cbn in K; apply Nat.eqb_neq in K; contradiction end.
      * eapply drop; eauto.
  - destruct (dropped_step m y l y' u u'); auto. right. now right.
Qed.

(** What is handed comes from the log. *)
Lemma handed_below m y l u u' : change m y i u l u' -> flow i qs y u -> sub_ok lo (y_log y) u ->
  (u_got u' = u_got u) \/ (exists r ok, (l = YDeliver i ok \/ l = YWork i ok) /\ u_got u' = u_got u ++ [r] /\ r_gsn r <= l_last (y_log y)).
Proof.
  intros C F S. inversion C; subst; cbn; auto.
  - left. destruct (gathered chans); [destruct second|]; reflexivity.
  - right. exists r, ok. split; auto. split.
    + destruct ok; [destruct rest; [destruct second|]|destruct second]; reflexivity.
    + pose proof (so_phase _ _ _ S) as P. rewrite H in P. destruct P as [_ P]. apply P. now left.
  - destruct (_ <=? _); auto. right. exists r, ok. split; auto. split; [destruct ok; reflexivity|].
    apply (f_le _ _ _ _ F). unfold inflight. rewrite H0. now left.
Qed.

(** A hand-over the consumer refuses hands over what one it accepts does. *)
Lemma accepted_step m y l y' u ok : ystep m y l = Some y' -> nth_error (y_subs y) i = Some u ->
  (l = YDeliver i ok \/ l = YWork i ok) ->
  exists l1 y1 u1 u', ystep m y l1 = Some y1 /\ nth_error (y_subs y1) i = Some u1 /\ nth_error (y_subs y') i = Some u'
    /\ (l1 = YDeliver i true \/ l1 = YWork i true) /\ u_got u1 = u_got u' /\ y_log y1 = y_log y'
    /\ (stage u <> 3%nat -> stage u1 <> 3%nat).
Proof.
  intros H Hi L. destruct L as [->| ->]; cbn [ystep] in H; rewrite Hi in H; destruct (u_phase u) eqn:P; try discriminate.
  - destruct rest as [|r rest]; [discriminate|]. injection H as <-.
    exists (YDeliver i true). cbn [ystep]. rewrite Hi, P. do 3 eexists. split; [reflexivity|].
    split; [cbn; eapply nth_set_same; eauto|]. split; [cbn; eapply nth_set_same; eauto|]. split; auto. split.
    + destruct ok, rest, second; reflexivity.
    + split; auto. intros St. destruct rest, second; cbn; try discriminate.
  - destruct (u_buf u) as [|r rest] eqn:B; [discriminate|]. injection H as <-.
    exists (YWork i true). cbn [ystep]. rewrite Hi, P, B. do 3 eexists. split; [reflexivity|].
    split; [cbn; eapply nth_set_same; eauto|]. split; [cbn; eapply nth_set_same; eauto|]. split; auto. split.
    + destruct (_ <=? _); auto. destruct ok; reflexivity.
    + split; auto. intros St. unfold stage. destruct (_ <=? _); cbn; rewrite P; discriminate.
Qed.

Lemma inv_step m y l y' u : ystep m y l = Some y' -> nth_error (y_subs y) i = Some u ->
  (match l with YAccept k => k = 0%nat | _ => True end) -> reads_fine l ->
  l_last (y_log y') < max64 -> g < max64 -> inv y u ->
  exists u', nth_error (y_subs y') i = Some u' /\ inv y' u'.
Proof.
  intros H Hi NO RF LM GM [F PQ U S Be G NE Go].
  destruct (ystep_sub _ _ _ _ _ _ H Hi) as (u' & Hi' & C). exists u'. split; auto.
  destruct (ystep_log _ _ _ _ H (f_sorted _ _ _ _ F)) as [SL LT].
  pose proof (f_qs _ _ _ _ F) as Q.
  assert (STEP : forall l1 y1 u1, ystep m y l1 = Some y1 -> nth_error (y_subs y1) i = Some u1 ->
     (match l1 with YAccept k => k = 0%nat | _ => True end) -> l_last (y_log y1) < max64 -> change m y i u l1 u1 ->
     flow i qs y1 u1 /\ sub_ok lo (y_log y1) u1).
  { intros l1 y1 u1 H1 Hi1 NO1 LM1 C1. destruct (ystep_log _ _ _ _ H1 (f_sorted _ _ _ _ F)) as [SL1 LT1]. split.
    - eapply (flow_step i qs one_shape); eauto.
    - destruct (change_ok _ _ _ _ _ _ lo C1 (f_sorted _ _ _ _ F)) as [OK _]; auto.
      + destruct LT1. lia. + rewrite Q. unfold qs. repeat constructor. intros []. + rewrite Q. apply one_shape.
      + eapply sub_ok_later; eauto. }
  destruct (STEP l y' u' H Hi' NO LM C) as [F' S'].
  destruct (handed_below _ _ _ _ _ C F S) as [EG|(r & ok & L & EG & LE)].
  - (* nothing handed *)
    assert (G' : gapless y' u').
    { intros x x' Hx' Hx W Le. rewrite EG in *. destruct LT as [_ LT]. destruct (LT x Hx) as [K|K].
      - eapply G; eauto. - exfalso. destruct W as [_ W]. destruct (Be x' Hx') as [B|B]; [lia|].
        destruct W as [W|[W e]]; [lia|]. pose proof (NE e). lia. }
    constructor; auto.
    + eapply change_phase_queries; eauto.
    + eapply unseen_step; eauto.
    + intros x Hx. rewrite EG in Hx. destruct LT. destruct (Be x Hx); [left; lia|now right].
    + intros e. pose proof (NE e). destruct LT. lia.
    + destruct Go as [En|Go]; [left; eapply ended_step; eauto|]. eapply going_step; eauto.
  - assert (NEN : ~ ended u).
    { intros En. destruct (ended_step _ _ _ _ _ C En) as [_ K]. rewrite EG in K. clear -K.
      assert (length (u_got u ++ [r]) = length (u_got u)) by congruence. rewrite app_length in H. cbn in H. lia. }
    destruct Go as [En|Go]; [contradiction|].
    constructor; auto.
    + eapply change_phase_queries; eauto.
    + eapply unseen_step; eauto.
    + intros x Hx. rewrite EG in Hx. destruct LT. apply in_app_iff in Hx as [Hx|[<-|[]]]; [destruct (Be x Hx); [left; lia|now right]|left; lia].
    + destruct (accepted_step _ _ _ _ _ _ H Hi L) as (l1 & y1 & u1 & u2 & H1 & Hi1 & Hi2 & L1 & E1 & E2 & E3).
      assert (u2 = u') by congruence. subst u2.
      destruct (ystep_sub _ _ _ _ _ _ H1 Hi) as (u1' & Hi1' & C1). assert (u1' = u1) by congruence. subst u1'.
      assert (NO1 : match l1 with YAccept k => k = 0%nat | _ => True end) by (destruct L1 as [->| ->]; exact I).
      assert (RF1 : reads_fine l1) by (destruct L1 as [->| ->]; exact I).
      assert (LM1 : l_last (y_log y1) < max64) by (rewrite E2; auto).
      destruct (STEP l1 y1 u1 H1 Hi1 NO1 LM1 C1) as [F1 S1].
      assert (St : stage u <> 3%nat).
      { destruct L as [->| ->]; cbn [ystep] in H; rewrite Hi in H; unfold stage; destruct (u_phase u); try discriminate;
          destruct second; discriminate. }
      assert (NE1 : ~ ended u1). { intros K. apply (E3 St). unfold ended in K. unfold stage. destruct (u_phase u1); auto; contradiction. }
      destruct (going_step m y l1 y1 u u1 H1 Hi Hi1 C1 NO1 RF1 LM1 GM F U Go) as [K|Go1]; [contradiction|].
      pose proof (going_gapless y1 u1 F1 S1 Go1 (E3 St)) as G1.
      intros x x' Hx' Hx W Le. rewrite <- E1 in *. eapply G1; eauto. now rewrite E2.
    + intros e. pose proof (NE e). destruct LT. lia.
    + eapply going_step; eauto.
Qed.

Lemma inv_run m ls : forall y y' u, yrun m y ls = Some y' -> ordered m y ls ->
  (forall l, In l ls -> reads_fine l) -> l_last (y_log y') < max64 -> g < max64 ->
  nth_error (y_subs y) i = Some u -> inv y u -> exists u', nth_error (y_subs y') i = Some u' /\ inv y' u'.
Proof.
  induction ls as [|l ls IH]; cbn; intros y y' u H O RF LM GM Hi I0.
  - injection H as <-. eauto.
  - destruct (ystep m y l) as [y1|] eqn:Es; [|discriminate].
    destruct (ordered_cons _ _ _ _ _ Es O) as [O1 O2].
    destruct (ystep_log _ _ _ _ Es (f_sorted _ _ _ _ (n_flow _ _ I0))) as [S1 _].
    destruct (yrun_log _ _ _ _ H S1) as [_ [L1 _]].
    destruct (inv_step _ _ _ _ _ Es Hi O1 (RF _ (or_introl eq_refl))) as (u1 & Hi1 & I1); auto; try lia.
    eapply IH; eauto.
Qed.

(** What holds from the beginning. *)
Record early (y : sys) (u : sub) : Prop := {
  a_flow : flow i qs y u;
  a_pq : phase_queries u;
  a_unseen : unseen y u
}.

Lemma early_step m y l y' u u' : ystep m y l = Some y' -> nth_error (y_subs y) i = Some u ->
  nth_error (y_subs y') i = Some u' -> change m y i u l u' ->
  (match l with YAccept k => k = 0%nat | _ => True end) -> early y u -> early y' u'.
Proof.
  intros H Hi Hi' C NO [F P U]. constructor.
  - eapply (flow_step i qs one_shape); eauto.
  - eapply change_phase_queries; eauto.
  - eapply unseen_step; eauto.
Qed.

Lemma early_run m ls : forall y y' u, yrun m y ls = Some y' -> ordered m y ls -> nth_error (y_subs y) i = Some u ->
  early y u -> exists u', nth_error (y_subs y') i = Some u' /\ early y' u'.
Proof.
  induction ls as [|l ls IH]; cbn; intros y y' u H O Hi A.
  - injection H as <-. eauto.
  - destruct (ystep m y l) as [y1|] eqn:Es; [|discriminate].
    destruct (ordered_cons _ _ _ _ _ Es O) as [O1 O2].
    destruct (ystep_sub _ _ _ _ _ _ Es Hi) as (u1 & Hi1 & C).
    eapply IH; eauto. eapply early_step; eauto.
Qed.

Lemma early_init subs cap : nth_error subs i = Some (qs, cap) ->
  nth_error (y_subs (sys_init subs)) i = Some (new_sub qs cap) /\ early (sys_init subs) (new_sub qs cap).
Proof.
  intros H. destruct (good_init i qs cap subs H) as (A & F & P & _). split; auto. constructor; auto.
  intros _. split; [|reflexivity]. unfold registered. destruct q; intros [].
Qed.

End Gap.

Lemma run_gapless m subs ls1 ls2 i q cap g y1 y u :
  yrun m (sys_init subs) ls1 = Some y1 ->
  yrun m (sys_init subs) (ls1 ++ YStartFrom i g :: ls2) = Some y ->
  m_locked m = true \/ in_turn (ls1 ++ YStartFrom i g :: ls2) ->
  (forall k, ~ In (YFetch i (Some k)) ls2) ->
  nth_error subs i = Some ([q], cap) -> g < max64 -> l_last (y_log y) < max64 ->
  nth_error (y_subs y) i = Some u ->
  forall r r', In r' (u_got u) -> In r (l_recs (y_log y)) -> q_match q r = true ->
    g < r_gsn r \/ In r (l_recs (y_log y1)) /\ r_gsn r = g -> r_gsn r <= r_gsn r' -> In r (u_got u).
Proof.
  intros R1 R O RF Hs GM LM Hi r r' Hr' Hr M W Le.
  apply (ordered_init m subs) in O.
  destruct (ordered_app _ _ _ _ _ R1 O) as [O1 O2].
  destruct (early_init i q subs cap Hs) as [H0 A0].
  destruct (early_run i q m _ _ _ _ R1 O1 H0 A0) as (u1 & Hi1 & A1).
  rewrite run_app, R1 in R. cbn [yrun] in R. destruct (ystep m y1 (YStartFrom i g)) as [y2|] eqn:Es; [|discriminate].
  destruct (ordered_cons _ _ _ _ _ Es O2) as [O3 O4].
  assert (P1 : u_phase u1 = PInit).
  { pose proof Es as Es'. cbn [ystep] in Es'. rewrite Hi1 in Es'. destruct (u_phase u1); try discriminate. reflexivity. }
  assert (G1 : good i [q] y1 u1).
  { split; [apply (a_flow _ _ _ _ A1)|]. split; [apply (a_pq _ _ _ _ A1)|]. unfold reg_ok. now rewrite P1. }
  destruct (cover_start _ _ _ _ _ _ _ _ H0 _ _ R1 Hi1 G1 Es) as (u2 & Hi2 & V2).
  destruct (ystep_sub _ _ _ _ _ _ Es Hi1) as (u2' & Hi2' & C). assert (u2' = u2) by congruence. subst u2'.
  pose proof (early_step i q _ _ _ _ _ _ Es Hi1 Hi2 C O3 A1) as A2.
  destruct (yrun_before _ _ _ _ _ _ _ R1 H0 Hi1 P1) as (_ & Z & _ & Q). cbn in Z, Q.
  assert (Eu : u2 = with_last g (with_phase (PFetch false g (u_queries u1) []) u1)).
  { pose proof Es as Es'. cbn [ystep] in Es'. rewrite Hi1, P1 in Es'. injection Es' as <-. cbn in Hi2.
    rewrite (nth_set_same _ _ _ _ Hi1) in Hi2. congruence. }
  assert (I2 : inv i q g (g <= l_last (y_log y1)) g y2 u2).
  { constructor; try apply A2.
    - rewrite Eu. apply start_from_ok; auto. rewrite Q. repeat constructor. intros [].
    - intros x Hx. rewrite Eu in Hx. cbn in Hx. rewrite Z in Hx. destruct Hx.
    - intros x x' Hx'. rewrite Eu in Hx'. cbn in Hx'. rewrite Z in Hx'. destruct Hx'.
    - apply (v_E _ _ _ _ _ _ V2).
    - right. left. split; auto. rewrite Eu. exact I. }
  destruct (inv_run i q g (g <= l_last (y_log y1)) g m ls2 y2 y u2 R O4) as (u' & Hi' & In'); auto.
  { intros l Hl. destruct l; cbn; auto. destruct fail as [k|]; auto. intros ->. apply (RF _ Hl). }
  assert (u' = u) by congruence. subst u'.
  eapply (n_gap _ _ _ _ _ _ _ In'); eauto. split.
  - destruct q as [t|]; [right|left]; cbn in *; auto. apply String.eqb_eq in M. subst. auto.
  - destruct W as [W|[W1 W2]]; auto. right. split; auto. rewrite <- W2. apply (f_sorted _ _ _ _ (a_flow _ _ _ _ A1)). auto.
Qed.

Lemma started_ok m y0 ls y i qs cap u : yrun m y0 ls = Some y -> log_sorted (y_log y0) ->
  nth_error (y_subs y0) i = Some (new_sub qs cap) -> asks_for qs -> NoDup qs ->
  l_last (y_log y) < max64 -> (forall g, In (YStartFrom i g) ls -> g < max64) ->
  nth_error (y_subs y) i = Some u -> u_phase u <> PInit -> exists lo, sub_ok lo (y_log y) u.
Proof.
  intros H S0 H0 AF ND LM GM Hi NP.
  destruct (run_split _ _ _ _ _ _ _ H H0 Hi eq_refl)
    as [[P B]|(l1 & l & l2 & y1 & u1 & y2 & u2 & -> & S & R & Hi1 & P1 & St & Hi2 & C & R2 & X)]; [contradiction|].
  destruct (yrun_before _ _ _ _ _ _ _ R H0 Hi1 P1) as (_ & G & Z & Q). cbn in G, Z, Q.
  destruct (yrun_log _ _ _ _ R S0) as [S1 _].
  destruct (ystep_log _ _ _ _ St S1) as [S2 L2].
  assert (exists lo, sub_ok lo (y_log y2) u2 /\ u_queries u2 = qs) as (lo & OK & Q2).
  { destruct S as [->|[g ->]].
    - exists 0. inversion C; subst; try (cbn in *; rewrite Nat.eqb_refl in *; discriminate);
        try (match goal with K : _ \/ _ |- _ => destruct K as [K|[K|(t & K & _)]]; discriminate end).
      split; [eapply sub_ok_later; [now apply start_ok|exact L2]|]. auto.
    - exists g. inversion C; subst; try (cbn in *; rewrite Nat.eqb_refl in *; discriminate);
        try (match goal with K : _ \/ _ |- _ => destruct K as [K|[K|(t & K & _)]]; discriminate end).
      split; [eapply sub_ok_later; [apply start_from_ok; auto|exact L2]|].
      { apply GM. apply in_app_iff. right. now left. }
      auto. }
  destruct (yrun_ok _ _ _ _ _ _ lo R2 S2 LM Hi2) as (u' & Hu & OK' & _); auto; try (rewrite Q2; auto; fail).
  exists lo. now assert (u' = u) as <- by congruence.
Qed.

(** A subscriber that is live, or has left, reads no more. *)
Lemma run_no_fetch m ls : forall y y' i u f, yrun m y ls = Some y' -> nth_error (y_subs y) i = Some u ->
  u_phase u = PLive \/ ended u -> ~ In (YFetch i f) ls.
Proof.
  induction ls as [|l ls IH]; cbn; intros y y' i u f H Hi P; [tauto|].
  destruct (ystep m y l) as [y1|] eqn:Es; [|discriminate].
  destruct (ystep_sub _ _ _ _ _ _ Es Hi) as (u1 & Hi1 & C).
  intros [->|Hl].
  - cbn [ystep] in Es. rewrite Hi in Es. unfold ended in P. destruct (u_phase u); try discriminate; destruct P; try discriminate; contradiction.
  - revert Hl. eapply IH; eauto. destruct P as [P|P]; [|right; eapply ended_step; eauto].
    inversion C; subst; cbn; rewrite ?P; auto; try congruence.
    all: unfold ended; cbn; rewrite ?P; auto.
    all: try (destruct (_ <=? _); cbn; rewrite ?P; auto; destruct ok; cbn; rewrite ?P; auto).
Qed.

(** From when it is live on, whatever happens to it afterwards. *)
Lemma run_gapless_live m subs ls1 ls2 i q cap y1 u1 y u :
  yrun m (sys_init subs) ls1 = Some y1 ->
  yrun m y1 ls2 = Some y ->
  m_locked m = true \/ in_turn (ls1 ++ ls2) -> undisturbed i ls1 ->
  nth_error subs i = Some ([q], cap) -> (forall g, In (YStartFrom i g) ls1 -> g < max64) -> l_last (y_log y) < max64 ->
  nth_error (y_subs y1) i = Some u1 -> u_phase u1 = PLive ->
  nth_error (y_subs y) i = Some u ->
  forall r r', In r' (u_got u) -> In r (l_recs (y_log y)) -> q_match q r = true ->
    l_last (y_log y1) < r_gsn r -> u_last u1 < r_gsn r -> r_gsn r <= r_gsn r' -> In r (u_got u).
Proof.
  intros R1 R O UD Hs GS LM Hi1 P1 Hi r r' Hr' Hr M W1 W2 Le.
  apply (ordered_init m subs) in O. destruct (ordered_app _ _ _ _ _ R1 O) as [O1 O2].
  destruct (early_init i q subs cap Hs) as [H0 A0].
  destruct (early_run i q m _ _ _ _ R1 O1 H0 A0) as (u1' & Hi1' & A1). assert (u1' = u1) by congruence. subst u1'.
  destruct (good_init i [q] cap subs Hs) as [_ G0].
  destruct (run_good _ _ _ _ (one_shape q) _ _ _ R1 O1 UD H0 G0) as (u1' & Hi1'' & G1). assert (u1' = u1) by congruence. subst u1'.
  pose proof (cover_live i [q] y1 u1 (proj1 G1) P1) as V1.
  destruct (yrun_log _ _ _ _ R (f_sorted _ _ _ _ (proj1 G1))) as [S L].
  assert (GM : N.max (u_last u1) (l_last (y_log y1)) < max64) by (pose proof (proj2 S r Hr); lia).
  destruct (started_ok m _ ls1 y1 i [q] cap u1 R1 (log_sorted_init subs) H0) as [lo OK]; auto.
  { apply one_shape. } { repeat constructor. intros []. } { lia. } { congruence. }
  assert (I1 : inv i q (N.max (u_last u1) (l_last (y_log y1))) False lo y1 u1).
  { constructor; try apply A1; auto.
    - intros x Hx. right. pose proof (so_last _ _ _ OK x Hx). lia.
    - intros x x' Hx' Hx [_ [W|[_ []]]] _. pose proof (proj2 (f_sorted _ _ _ _ (proj1 G1)) x Hx). lia.
    - contradiction.
    - right. left. split; auto. apply G1. }
  destruct (inv_run i q (N.max (u_last u1) (l_last (y_log y1))) False lo m ls2 y1 y u1 R O2) as (u' & Hi' & In'); auto.
  { intros l Hl. destruct l; cbn; auto. destruct fail as [k|]; auto. intros ->.
    exact (run_no_fetch _ _ _ _ _ _ _ R Hi1 (or_introl P1) Hl). }
  assert (u' = u) by congruence. subst u'.
  eapply (n_gap _ _ _ _ _ _ _ In'); eauto. split.
  - destruct q as [t|]; [right|left]; cbn in *; auto. apply String.eqb_eq in M. subst. auto.
  - left. lia.
Qed.
