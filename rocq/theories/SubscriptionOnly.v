(** A subscriber is handed only what it asked for. *)
From Coq Require Import PeanoNat.
From Verif Require Import Base LogSpec Core CoreSpec CoreProofs LogProofs Broadcaster BroadcasterSpec BroadcasterProofs
  Subscription SubscriptionSpec SubscriptionProofs SubscriptionCover Stats StatsSpec StatsProofs.
Open Scope N_scope.

Section Only.
Variable i : nat.
Variable qs : list query.

Definition phase_only (p : phase) : Prop :=
  match p with
  | PFetch _ _ l chans => incl l qs /\ Forall (chan_from (asked qs)) chans
  | PDeliver _ rest => forall r, In r rest -> asked qs r
  | PSubscribe l _ => incl l qs
  | _ => True
  end.
Record sub_only (u : sub) : Prop := {
  so_qs : u_queries u = qs;
  so_buf : forall r, In r (u_buf u) -> asked qs r;
  so_got : forall r, In r (u_got u) -> asked qs r;
  so_ph : phase_only (u_phase u)
}.
Record sys_only (y : sys) : Prop := {
  sy_all : In i (b_all (y_b y)) -> In None qs;
  sy_type : forall t, In (t, i) (b_types (y_b y)) -> In (Some t) qs;
  sy_now : forall r ts, y_now y = Some (r, ts) ->
     (In (TAll i) ts -> In None qs) /\ (In (TType i) ts -> In (Some (r_atype r)) qs)
}.

Lemma match_asked q r : In q qs -> q_match q r = true -> asked qs r.
Proof.
  intros H M. destruct q as [t|]; [right|now left]. cbn in M. apply String.eqb_eq in M. now subst.
Qed.

Lemma answer_only L from q fail : In q qs -> chan_from (asked qs) (answer L from q fail).
Proof.
  intros H r Hr. unfold answer in Hr. set (rs := filter _ _) in Hr.
  assert (X : In r rs -> asked qs r). { intros Y. apply filter_In in Y as [_ Y]. apply andb_true_iff in Y as [_ Y]. eapply match_asked; eauto. }
  destruct fail as [k|]; [apply in_app_iff in Hr as [Hr|[Hr|[]]]; [|discriminate]|];
    apply in_map_iff in Hr as (r' & [= <-] & Hr); auto. apply X. eapply In_firstn; eauto.
Qed.

Lemma change_only m y u l u' : change m y i u l u' -> sys_only y -> sub_only u -> sub_only u'.
Proof.
  intros C Y [Q B G P]. destruct C; cbn in *; try (constructor; cbn; auto; fail).
  - constructor; cbn; auto. intros r' Hr. apply in_app_iff in Hr as [Hr|[<-|[]]]; auto.
    match goal with N : y_now y = _ |- _ => destruct (sy_now _ Y _ _ N) as [A T] end.
    match goal with S : servable _ _ = true |- _ => unfold servable in S; apply andb_true_iff in S as [S _];
      apply existsb_exists in S as (t' & Ht & Et); apply t_eqb_eq in Et; subst t' end.
    destruct t; cbn in *; subst; [left|right]; auto.
  - constructor; cbn; auto. destruct (u_stop u); cbn; auto. rewrite Q. apply incl_refl.
  - constructor; cbn; auto. rewrite Q. split; [apply incl_refl|constructor].
  - rewrite H in P. cbn in P. destruct P as [_ P]. pose proof (gathered_from _ _ P) as Z.
    destruct (gathered chans) as [|r rs]; constructor; cbn; auto. destruct second; cbn; auto. rewrite Q. apply incl_refl.
  - rewrite H in P. cbn in P. destruct P as [I P]. constructor; cbn; auto. split; [intros x Hx; apply I; now right|].
    apply Forall_app. split; auto. constructor; auto. apply answer_only. apply I. now left.
  - rewrite H in P. cbn in P.
    assert (Z : forall r', In r' (u_got u ++ [r]) -> asked qs r').
    { intros r' Hr. apply in_app_iff in Hr as [Hr|[<-|[]]]; auto. }
    destruct ok; [destruct rest as [|r2 rest]|]; constructor; cbn; auto; destruct second; cbn; auto. rewrite Q. apply incl_refl.
  - rewrite H in P. cbn in P. constructor; cbn; auto. intros x Hx; apply P; now right.
  - constructor; cbn; auto. destruct second; cbn; auto. rewrite Q. split; [apply incl_refl|constructor].
  - rewrite H0 in B. assert (Z : forall r', In r' (u_got u ++ [r]) -> asked qs r').
    { intros r' Hr. apply in_app_iff in Hr as [Hr|[<-|[]]]; cbn in *; auto. }
    destruct (r_gsn r <=? u_last u); [|destruct ok]; constructor; cbn; auto; intros; apply B; cbn; auto.
  - constructor; cbn; auto. destruct fin; cbn; auto.
Qed.

Lemma env_only y y' l u : env y y' l -> nth_error (y_subs y) i = Some u -> sub_only u -> sys_only y -> sys_only y'.
Proof.
  intros En Hi SO Y. destruct SO as [Q B G P].
  destruct En as [l _ E1 E2 E3 E4 E5|rs _ E1 E2 E3 E4 E5|s E1 E2 E3 E4 E5
    |k r rest E0 E1 E2 E3 E4 E5|r E0 E3 E1 E2 E4 E5|t r ts E0 _ E4 E1 E2 E3 E5|t r ts E0 _ E4 E1 E2 E3 E5
    |j q l second v Hj Hp E1 E2 E3 E4 E5|j q l fin v Hj Hp E1 E2 E3 E4 E5].
  1-4: constructor; rewrite ?E4, ?E5; eauto using sy_all, sy_type, sy_now.
  - constructor; rewrite ?E4, ?E5; try solve [eauto using sy_all, sy_type, sy_now]. intros x ts. destruct (targets r (y_b y)) as [|a l] eqn:Et; [discriminate|].
    intros [= <- <-]. rewrite <- Et. unfold targets. split; intros H; apply in_app_iff in H as [H|H]; apply in_map_iff in H as (z & [= ->] & H).
    + now apply (sy_all _ Y).
    + apply (sy_type _ Y). unfold type_subs in H. apply in_map_iff in H as ([t z] & Ez & H). cbn in Ez. subst z.
      apply filter_In in H as [H F]. cbn in F. apply String.eqb_eq in F. now subst.
  - constructor; rewrite ?E4, ?E5; try solve [eauto using sy_all, sy_type, sy_now]. intros x ts'. destruct (remove_target t ts) eqn:Er; [discriminate|].
    intros [= <- <-]. destruct (sy_now _ Y _ _ E0) as [A T]. rewrite <- Er. split; intros H; apply remove_target_in in H as [H _]; auto.
  - constructor; rewrite ?E4, ?E5.
    + destruct t; [|eauto using sy_all, sy_type, sy_now]. unfold del_all. cbn. intros H. apply filter_In in H as [H _]. now apply (sy_all _ Y).
    + destruct t; [eauto using sy_all, sy_type, sy_now|]. unfold del_type. cbn. intros z H. apply filter_In in H as [H _]. now apply (sy_type _ Y).
    + intros x ts'. destruct (remove_target t ts) eqn:Er; [discriminate|].
      intros [= <- <-]. destruct (sy_now _ Y _ _ E0) as [A T]. rewrite <- Er. split; intros H; apply remove_target_in in H as [H _]; auto.
  - assert (Z : j = i -> In q qs).
    { intros ->. replace v with u in * by congruence. rewrite Hp in P. apply P. now left. }
    constructor; rewrite ?E4, ?E5; try exact (sy_now _ Y).
    + destruct q as [t|]; cbn [register]; [unfold add_type; destruct (in_type _ _ _); exact (sy_all _ Y)|].
      unfold add_all. destruct (in_all _ _); cbn; [exact (sy_all _ Y)|]. intros H.
      apply in_app_iff in H as [H|[H|[]]]; [now apply (sy_all _ Y)|auto].
    + destruct q as [z|]; cbn [register]; [|unfold add_all; destruct (in_all _ _); exact (sy_type _ Y)].
      unfold add_type. destruct (in_type _ _ _); cbn; [exact (sy_type _ Y)|]. intros t H.
      apply in_app_iff in H as [H|[[= <- <-]|[]]]; [now apply (sy_type _ Y)|auto].
  - constructor; rewrite ?E4, ?E5; try exact (sy_now _ Y).
    + destruct q; cbn [unregister]; [exact (sy_all _ Y)|]. unfold del_all. cbn. intros H. apply filter_In in H as [H _]. now apply (sy_all _ Y).
    + destruct q; cbn [unregister]; [|exact (sy_type _ Y)]. unfold del_type. cbn. intros z H. apply filter_In in H as [H _]. now apply (sy_type _ Y).
Qed.

Lemma run_only m ls : forall y y' u u', yrun m y ls = Some y' -> nth_error (y_subs y) i = Some u ->
  nth_error (y_subs y') i = Some u' -> sys_only y -> sub_only u -> sub_only u'.
Proof.
  induction ls as [|l ls IH]; cbn; intros y y' u u' R Hi Hi' Y U.
  - injection R as <-. replace u' with u by congruence. auto.
  - destruct (ystep m y l) as [y1|] eqn:E; [|discriminate].
    destruct (ystep_sub _ _ _ _ _ _ E Hi) as (u1 & Hi1 & C).
    eapply (IH y1 y' u1); eauto; [eapply env_only; eauto using ystep_env|eapply change_only; eauto].
Qed.
End Only.

Lemma got_asked m subs ls y i qs cap u r : yrun m (sys_init subs) ls = Some y -> nth_error subs i = Some (qs, cap) ->
  nth_error (y_subs y) i = Some u -> In r (u_got u) -> asked qs r.
Proof.
  intros R Hs Hi Hr.
  assert (H0 : nth_error (y_subs (sys_init subs)) i = Some (new_sub qs cap)) by (cbn; rewrite nth_error_map, Hs; reflexivity).
  refine (so_got _ _ (run_only i qs m ls _ _ _ _ R H0 Hi _ _) r Hr).
  - constructor; cbn; try tauto. discriminate.
  - constructor; cbn; auto; intros ? [].
Qed.
