(** Proofs about subscriptions to a remote store: a run is, for the subscribers, a run
    over a second link, whose store is the first as its clients see it. *)
From Coq Require Import PeanoNat.
From Verif Require Import Base LogSpec Core CoreSpec CoreProofs LogProofs Broadcaster BroadcasterProofs
  Subscription SubscriptionSpec SubscriptionProofs SubscriptionCover SubscriptionRun WebSocket WebSocketSpec WebSocketProofs
  RemoteFeed RemoteFeedSpec.

Record sim (G : list (list record)) (s : rs) (w2 : ws) : Prop := {
  i_store : w_store w2 = ghost (y_log (w_store (s_server s))) G (w_api (s_server s));
  i_held : s_up s = true -> w_held w2 = s_wire s;
  i_api : exists L P, w_api w2 = ghost L P (s_client s)
}.

Lemma map_at_store gl : forall y y' h z, yrun ghost_mode y gl = Some y' -> (forall ok, ~ In (YWork 0 ok) gl) ->
  link_run Wire ghost_mode (mk_ws y h z) (map AtStore gl) = Some (mk_ws y' h z).
Proof.
  induction gl as [|x gl IH]; cbn [yrun map link_run]; intros y y' h z H N; [now injection H as <-|].
  destruct (ystep ghost_mode y x) as [y1|] eqn:E; [|discriminate].
  assert (X : link_step Wire ghost_mode (mk_ws y h z) (AtStore x) = Some (mk_ws y1 h z)).
  { assert (SS : store_step ghost_mode (mk_ws y h z) x = Some (mk_ws y1 h z)) by (unfold store_step; cbn [w_store w_held w_api]; now rewrite E).
    destruct x; try exact SS.
    - destruct i; [exfalso; eapply N; now left|exact SS].
    - destruct i; exact SS.
    - destruct i; exact SS. }
  rewrite X. apply IH; auto. intros ok I. apply (N ok). now right.
Qed.

Lemma store_steps_map gl : store_steps (map AtStore gl) = gl.
Proof. induction gl; cbn; congruence. Qed.
Lemma api_steps_map gl : api_steps (map AtStore gl) = [].
Proof. induction gl; cbn; congruence. Qed.

Lemma tr_one l gl : tr [l] gl -> (l = Relay /\ exists k, gl = [YAccept k]) \/ (l <> Relay /\ gl = seen_as l).
Proof.
  intros T. inversion T as [|k ls g T' E1 E2|x ls g N T' E1 E2]; subst; inversion T'; subst.
  - left. eauto.
  - right. split; auto. apply app_nil_r.
Qed.

Lemma sim_step m s l s' w2 G gl G' : rs_step m s l = Some s' -> sim G s w2 ->
  match l with
  | AtServer x => yrun ghost_mode (ghost (y_log (w_store (s_server s))) G (w_api (s_server s))) gl
                    = Some (ghost (y_log (w_store (s_server s'))) G' (w_api (s_server s'))) /\ tr [x] gl
  | _ => gl = [] /\ G' = G
  end ->
  exists ls2 w2', link_run Wire ghost_mode w2 ls2 = Some w2' /\ sim G' s' w2'
    /\ api_steps ls2 = client_steps [l] /\ store_steps ls2 = gl
    /\ (forall x, l = AtClient x -> ls2 = [AtApi x]).
Proof.
  intros H [IS IH [L [P IA]]] HG. destruct w2 as [y2 h2 z2]. cbn [w_store w_held w_api] in *. destruct l as [x|x|ok|]; cbn [rs_step] in H.
  - destruct (server_allowed x) eqn:AL; [|discriminate].
    destruct (ws_step m (s_server s) x) as [w'|] eqn:E; [|discriminate]. injection H as <-. cbn [s_server s_wire s_up s_client] in *.
    destruct HG as [R T]. exists (map AtStore gl). rewrite api_steps_map, store_steps_map.
    assert (D : (exists ok, x = AtApi (YWork 0 ok)) \/ (sent (s_server s) x = [] /\ forall ok, ~ In (YWork 0 ok) gl)).
    { destruct (tr_one _ _ T) as [(-> & k & ->)|(N & ->)].
      - right. split; [reflexivity|]. intros ok [I|[]]. discriminate.
      - destruct x as [x|x|]; [| |congruence].
        + right. split; [reflexivity|]. intros ok I. destruct x; cbn in I; try contradiction.
          * apply in_map_iff in I as (r & I & _). discriminate.
          * destruct I as [I|[]]. discriminate.
        + destruct x as [rs|x|k| |t|t|j|j gg|j fail|j ok| j|j ok|j|j|j| |]; try (right; split; [reflexivity|]; intros ok' [I|[]]; discriminate).
          destruct j as [|j]; [left; eauto|]. right. split; [reflexivity|]. intros ok' [I|[]]. discriminate. }
    destruct D as [[ok ->]|[S N]].
    + destruct (tr_one _ _ T) as [(K & _)|(_ & ->)]; [discriminate|]. cbn [seen_as map yrun link_run] in *.
      cbn [link_step]. unfold relay_free. cbn [is_wire orb andb w_store w_held w_api]. rewrite orb_true_r. cbn [andb].
      rewrite IS. destruct (ystep ghost_mode _ (YWork 0 ok)) as [y1|]; [|discriminate]. injection R as ->.
      eexists. split; [reflexivity|]. split; [|split; [reflexivity|split; [reflexivity|discriminate]]].
      constructor; cbn [w_store w_held w_api s_server s_wire s_up s_client]; auto; [|eauto].
      intros U. rewrite IH by exact U. destruct ok; reflexivity.
    + eexists. split; [apply map_at_store; [|exact N]; rewrite IS; exact R|].
      split; [|split; [reflexivity|split; [reflexivity|discriminate]]].
      constructor; cbn [w_store w_held w_api s_server s_wire s_up s_client]; auto; [|eauto].
      intros U. rewrite IH, S, app_nil_r by exact U. reflexivity.
  - destruct HG as [-> ->]. exists [AtApi x].
    assert (X : api_label x /\ exists z, ystep (mk_mode false api_buffer true) (with_store (w_store (s_server s)) (s_client s)) x = Some z
                /\ s' = mk_rs (s_server s) (s_wire s) (s_up s) z).
    { destruct x; try discriminate; (split; [exact Logic.I|]); destruct (ystep _ _ _) as [z|]; try discriminate; injection H as <-; eauto. }
    destruct X as (A & z & E & ->).
    destruct (ghost_step _ (mk_mode false api_buffer true) _ _ G _ _ _ eq_refl A E) as (_ & _ & K).
    assert (X : link_step Wire ghost_mode (mk_ws y2 h2 z2) (AtApi x) = Some (mk_ws y2 h2 (ghost (y_log (w_store (s_server s))) G z))).
    { assert (X : match ystep (mk_mode false api_buffer true) (with_store y2 z2) x with Some z => Some (mk_ws y2 h2 z) | None => None end
                  = Some (mk_ws y2 h2 (ghost (y_log (w_store (s_server s))) G z))).
      { replace (with_store y2 z2) with (ghost (y_log (w_store (s_server s))) G (s_client s)); [now rewrite K|]. rewrite IS, IA. reflexivity. }
      destruct x; try contradiction; exact X. }
    cbn [link_run]. rewrite X. eexists. split; [reflexivity|]. split; [|split; [reflexivity|split; [reflexivity|]]].
    + constructor; cbn; eauto.
    + intros x' E'. injection E' as ->. reflexivity.
  - destruct HG as [-> ->]. destruct (s_wire s) as [|r rest]; [discriminate|]. destruct (s_up s) eqn:U; [|discriminate].
    destruct ok.
    + exists [Relay]. unfold accept in *. destruct (Nat.ltb _ _) eqn:LT; [|discriminate]. injection H as <-.
      cbn [link_run link_step w_held w_api w_store]. rewrite (IH eq_refl). unfold accept. rewrite IA. cbn [ghost y_queue]. rewrite LT.
      eexists. split; [reflexivity|]. split; [|split; [reflexivity|split; [reflexivity|discriminate]]].
      constructor; cbn; auto. exists L, P. reflexivity.
    + injection H as <-. exists []. eexists. split; [reflexivity|]. split; [|split; [reflexivity|split; [reflexivity|discriminate]]].
      constructor; cbn; eauto. discriminate.
  - destruct HG as [-> ->]. injection H as <-. exists []. eexists. split; [reflexivity|]. split; [|split; [reflexivity|split; [reflexivity|discriminate]]].
    constructor; cbn; eauto. discriminate.
Qed.

Lemma rs_server m s l s' : rs_step m s l = Some s' ->
  (exists x, l = AtServer x /\ server_allowed x = true /\ ws_step m (s_server s) x = Some (s_server s'))
  \/ (s_server s' = s_server s /\ (forall x, l <> AtServer x) /\ server_steps [l] = []).
Proof.
  intros H. destruct l as [x|x|ok|]; cbn [rs_step] in H.
  - left. exists x. split; auto. destruct (server_allowed x); [|discriminate]. destruct (ws_step _ _ _); [|discriminate]. injection H as <-. auto.
  - right. destruct x; try discriminate; (destruct (ystep _ _ _) as [z|]; [|discriminate]); injection H as <-; cbn; (split; [reflexivity|split; [discriminate|reflexivity]]).
  - right. destruct (s_wire s); [discriminate|]. destruct (s_up s); [|discriminate]. destruct ok; [destruct (accept _ _); [|discriminate]|]; injection H as <-;
      (split; [reflexivity|split; [discriminate|reflexivity]]).
  - right. injection H as <-. split; [reflexivity|split; [discriminate|reflexivity]].
Qed.

Lemma server_steps_cons l ls : server_steps (l :: ls) = server_steps [l] ++ server_steps ls.
Proof. destruct l; reflexivity. Qed.
Lemma client_steps_cons l ls : client_steps (l :: ls) = client_steps [l] ++ client_steps ls.
Proof. destruct l; reflexivity. Qed.
Lemma server_steps_app a b : server_steps (a ++ b) = server_steps a ++ server_steps b.
Proof. induction a as [|[]]; cbn; congruence. Qed.
Lemma client_steps_app a b : client_steps (a ++ b) = client_steps a ++ client_steps b.
Proof. induction a as [|[]]; cbn; congruence. Qed.
Lemma rs_run_app m a : forall s b, rs_run m s (a ++ b) = match rs_run m s a with Some s1 => rs_run m s1 b | None => None end.
Proof. induction a as [|l a IH]; cbn; intros s b; [reflexivity|]. destruct (rs_step m s l); auto. Qed.

Lemma weak_rs m ls : forall s s' w2 G u, rs_run m s ls = Some s' ->
  (forall g, ~ In (YStartFrom relay g) (store_steps (server_steps ls))) ->
  weak (s_server s) G u -> sim G s w2 ->
  exists ls2 w2' G' u', link_run Wire ghost_mode w2 ls2 = Some w2' /\ weak (s_server s') G' u' /\ sim G' s' w2'
    /\ api_steps ls2 = client_steps ls /\ (forall g, ~ In (YStartFrom feed g) (store_steps ls2)).
Proof.
  induction ls as [|l ls IH]; cbn [rs_run]; intros s s' w2 G u H NS K SM.
  - injection H as <-. exists [], w2, G, u. cbn. auto 10.
  - destruct (rs_step m s l) as [s1|] eqn:E; [|discriminate].
    assert (X : exists gl G1 u1, weak (s_server s1) G1 u1
              /\ match l with
                 | AtServer x => yrun ghost_mode (ghost (y_log (w_store (s_server s))) G (w_api (s_server s))) gl
                                   = Some (ghost (y_log (w_store (s_server s1))) G1 (w_api (s_server s1))) /\ tr [x] gl
                 | _ => gl = [] /\ G1 = G
                 end
              /\ forall g, ~ In (YStartFrom feed g) gl).
    { destruct (rs_server _ _ _ _ E) as [(x & -> & AL & St)|(ES & N & _)].
      - assert (NS1 : forall g, x <> AtStore (YStartFrom relay g)) by (intros g ->; apply (NS g); cbn; now left).
        destruct (weak_step Direct _ _ _ _ _ _ St NS1 K) as (gl & G1 & u1 & R1 & K1 & T1).
        exists gl, G1, u1. split; auto. split; auto. intros g I. apply (tr_start _ _ _ _ T1) in I.
        destruct x; cbn in I; try contradiction. destruct I as [->|[]]. discriminate.
      - exists [], G, u. rewrite ES. split; auto. split; [|intros g []]. destruct l; auto. exfalso. eapply N; eauto. }
    destruct X as (gl & G1 & u1 & K1 & X & NF).
    destruct (sim_step _ _ _ _ _ _ _ _ E SM X) as (la & wa & Ra & Sa & Aa & Ga & _).
    assert (NS2 : forall g, ~ In (YStartFrom relay g) (store_steps (server_steps ls))).
    { intros g I. apply (NS g). rewrite server_steps_cons, store_steps_app. apply in_app_iff. auto. }
    destruct (IH _ _ _ _ _ H NS2 K1 Sa) as (lb & wb & G2 & u2 & Rb & Kb & Sb & Ab & Nb).
    exists (la ++ lb), wb, G2, u2. split; [rewrite link_run_app, Ra; exact Rb|]. split; auto. split; auto.
    split; [rewrite api_steps_app, Aa, Ab; now rewrite <- client_steps_cons|].
    intros g I. rewrite store_steps_app in I. apply in_app_iff in I as [I|I]; [rewrite Ga in I; eapply NF; eauto|eapply Nb; eauto].
Qed.

Lemma strong_rs m ls : forall s s' w2 G, rs_run m s ls = Some s' ->
  ordered m (w_store (s_server s)) (store_steps (server_steps ls)) -> undisturbed relay (store_steps (server_steps ls)) ->
  undisturbed feed (api_steps (server_steps ls)) ->
  (exists u, exact_for (s_server s) G u) \/ gone (s_server s) G -> sim G s w2 ->
  exists ls2 w2' G', link_run Wire ghost_mode w2 ls2 = Some w2' /\ ((exists u', exact_for (s_server s') G' u') \/ gone (s_server s') G')
    /\ sim G' s' w2' /\ api_steps ls2 = client_steps ls /\ in_turn (store_steps ls2) /\ undisturbed feed (store_steps ls2).
Proof.
  induction ls as [|l ls IH]; cbn [rs_run]; intros s s' w2 G H O U UF K SM.
  - injection H as <-. exists [], w2, G. cbn. split; auto. split; auto. split; auto. split; auto. split; [intros k []|intros x []].
  - destruct (rs_step m s l) as [s1|] eqn:E; [|discriminate].
    rewrite server_steps_cons, store_steps_app in O, U. rewrite server_steps_cons, api_steps_app in UF.
    apply undisturbed_app in U as [U1 U2]. apply undisturbed_app in UF as [UF1 UF2].
    assert (X : ordered m (w_store (s_server s1)) (store_steps (server_steps ls))
              /\ exists gl G1, ((exists u', exact_for (s_server s1) G1 u') \/ gone (s_server s1) G1)
              /\ match l with
                 | AtServer x => yrun ghost_mode (ghost (y_log (w_store (s_server s))) G (w_api (s_server s))) gl
                                   = Some (ghost (y_log (w_store (s_server s1))) G1 (w_api (s_server s1))) /\ tr [x] gl
                 | _ => gl = [] /\ G1 = G
                 end
              /\ in_turn gl /\ undisturbed feed gl).
    { destruct (rs_server _ _ _ _ E) as [(x & -> & AL & St)|(ES & N & ET)].
      - assert (R1 : link_run Direct m (s_server s) [x] = Some (s_server s1)) by (cbn; unfold ws_step in St; now rewrite St).
        change (server_steps [AtServer x]) with [x] in *.
        destruct (ordered_app _ _ _ _ _ (run_store _ _ _ _ _ R1) O) as [O1 O2]. split; auto.
        destruct (strong_run Direct m [x] _ _ _ R1 O1 U1 K) as (gl & G1 & RG & K1 & T1 & I1).
        exists gl, G1. split; auto. split; auto. split; auto. eapply tr_undisturbed; eauto.
      - rewrite ET in O. cbn in O. rewrite ES. split; auto. exists [], G. split; auto. split; [destruct l; auto; exfalso; eapply N; eauto|].
        split; [intros k []|intros x []]. }
    destruct X as (O1 & gl & G1 & K1 & X & IT & UG).
    destruct (sim_step _ _ _ _ _ _ _ _ E SM X) as (la & wa & Ra & Sa & Aa & Ga & _).
    destruct (IH _ _ _ _ H O1 U2 UF2 K1 Sa) as (lb & wb & G2 & Rb & Kb & Sb & Ab & Ib & Ub).
    exists (la ++ lb), wb, G2. split; [rewrite link_run_app, Ra; exact Rb|]. split; auto. split; auto.
    split; [rewrite api_steps_app, Aa, Ab; now rewrite <- client_steps_cons|].
    rewrite store_steps_app, Ga. split.
    + intros k I. apply in_app_iff in I as [I|I]; [now apply IT|now apply Ib].
    + intros k I. apply in_app_iff in I as [I|I]; [now apply UG|now apply Ub].
Qed.

(** * The subscribers *)
Lemma rs_server_run m ls : forall s s', rs_run m s ls = Some s' -> link_run Direct m (s_server s) (server_steps ls) = Some (s_server s').
Proof.
  induction ls as [|l ls IH]; cbn [rs_run]; intros s s' H; [now injection H as <-|].
  destruct (rs_step m s l) as [s1|] eqn:E; [|discriminate]. rewrite server_steps_cons, link_run_app.
  destruct (rs_server _ _ _ _ E) as [(x & -> & AL & St)|(ES & N & ET)].
  - cbn. unfold ws_step in St. rewrite St. auto.
  - rewrite ET. cbn [link_run]. rewrite <- ES. auto.
Qed.

Lemma remote_in_order m subs0 ls0 y0 clients subs ls s i qs cap u : opened m subs0 ls0 y0 ->
  rs_run m (rs_new (server_new y0 clients) subs) ls = Some s ->
  nth_error subs i = Some (qs, cap) -> asks_for qs -> NoDup qs ->
  l_last (y_log (w_store (s_server s))) < max64 -> (forall g, In (YStartFrom i g) (client_steps ls) -> g < max64) ->
  nth_error (y_subs (s_client s)) i = Some u ->
  gsn_increasing (u_got u) /\ (forall g, In (YStartFrom i g) (client_steps ls) -> forall r, In r (u_got u) -> g <= r_gsn r).
Proof.
  intros OP R Hc AF ND LM GM Hu. assert (OP' := OP). destruct OP as (_ & _ & u0 & Hu0 & P0 & _).
  assert (PL : placed u0) by (unfold placed; now rewrite P0).
  pose proof (live_weak y0 (map client (feed_queries :: clients)) u0 Hu0 PL) as K0.
  pose proof (rs_server_run _ _ _ _ R) as RS. cbn [rs_new s_server] in RS.
  assert (NS : forall g, ~ In (YStartFrom relay g) (store_steps (server_steps ls))).
  { eapply (store_not_started Direct _ _ _ _ u0 RS); [exact Hu0|congruence]. }
  set (y1 := ghost (y_log y0) (map sing (coming y0 u0)) (sys_init (map client (feed_queries :: clients)))).
  assert (SM : sim (map sing (coming y0 u0)) (rs_new (server_new y0 clients) subs) (link_new y1 subs)).
  { constructor; cbn; auto. exists empty_log, []. reflexivity. }
  destruct (weak_rs _ _ _ _ _ _ _ R NS K0 SM) as (ls2 & w2 & G' & u' & R2 & _ & [S1 S2 (L & P & S3)] & A2 & N2).
  assert (PF : placed (new_sub feed_queries sub_buffer)) by exact Logic.I.
  pose proof (live_weak y1 subs (new_sub feed_queries sub_buffer) eq_refl PF) as K2.
  rewrite <- A2. rewrite <- A2 in GM.
  eapply (link_in_order Wire ghost_mode y1 _ subs ls2 w2 i qs cap u); eauto.
  - apply (opened_sorted _ _ _ _ OP').
  - rewrite S1. exact LM.
  - rewrite S3. exact Hu.
Qed.

Section Complete.
Variables (m : mode) (subs0 : list (list query * nat)) (ls0 : list label) (y0 : sys) (clients : list (list query)).
Variables (la : list ws_label) (w1 : ws) (subs : list (list query * nat)).
Hypothesis OP : opened m subs0 ls0 y0.
Hypothesis RA : ws_run m (server_new y0 clients) la = Some w1.
Hypothesis NF : forall g, ~ In (YStartFrom feed g) (api_steps la).
Hypothesis TK : taken w1.

Lemma remote_start ls : m_locked m = true \/ in_turn (ls0 ++ store_steps (la ++ ls)) ->
  undisturbed relay (ls0 ++ store_steps (la ++ ls)) -> undisturbed feed (api_steps (la ++ ls)) ->
  exists G1 y1 u1, ((exists u, exact_for w1 G1 u) \/ gone w1 G1)
    /\ exact_for (link_new y1 subs) (map sing (coming y1 u1)) u1 /\ sim G1 (rs_new w1 subs) (link_new y1 subs)
    /\ ordered m (w_store w1) (store_steps ls) /\ undisturbed relay (store_steps ls) /\ undisturbed feed (api_steps ls).
Proof.
  intros O U UF. destruct (ordered_split _ _ _ _ _ OP O) as [O0 O1]. apply undisturbed_app in U as [U0 U1].
  destruct (opened_exact _ _ _ _ (map client (feed_queries :: clients)) OP O0 U0) as [u0 K0].
  rewrite store_steps_app in O1, U1. apply undisturbed_app in U1 as [U1 U2]. rewrite api_steps_app in UF. apply undisturbed_app in UF as [UF1 UF2].
  destruct (ordered_app _ _ _ _ _ (run_store Direct _ _ _ _ RA) O1) as [O2 O3].
  destruct (strong_run Direct _ _ _ _ _ RA O2 U1 (or_introl (ex_intro _ u0 K0))) as (g1 & G1 & RG1 & K1 & T1 & I1).
  destruct TK as (u1 & Hu1 & P1 & Gt1).
  exists G1, (ghost (y_log (w_store w1)) G1 (w_api w1)), u1. split; auto. split; [|split; [|auto]].
  - eapply (live_exact ghost_mode feed (ghost0 y0 u0 (map client (feed_queries :: clients))) g1 _ subs u1 [None] sub_buffer); eauto.
    + apply ghost0_good. apply (x_good _ _ _ K0).
    + intros r Hr.
      assert (IE : inflight feed (ghost0 y0 u0 (map client (feed_queries :: clients))) (new_sub [None] sub_buffer) = coming y0 u0).
      { unfold inflight, now_for, ghost0. cbn. apply concat_sing. }
      rewrite IE in Hr. pose proof (x_above _ _ _ K0 r Hr). lia.
    + intros g I. apply (NF g). eapply tr_start; eauto.
    + right. exact I1.
    + eapply tr_undisturbed; eauto.
  - constructor; cbn; auto. exists empty_log, []. reflexivity.
Qed.

Lemma remote_rest s G' w2' u : sim G' s w2' -> (exists u', exact_for (s_server s) G' u') \/ gone (s_server s) G' ->
  connected s -> at_rest_to s u -> relaying w2' /\ at_rest w2' u.
Proof.
  intros [S1 S2 (L & P & S3)] K (C1 & (v & Hv & Pv) & C3) (A1 & A2 & A3 & A4 & A5).
  destruct (rest_quiet _ _ v K C1 (A1 v Hv)) as (Q1 & Q2 & Q3 & Q4). cbn in Q1, Q2, Q3.
  split; [exists v; rewrite S1; auto|].
  unfold at_rest. rewrite S1, S3, (S2 C3). cbn. repeat (split; [assumption|]). split; [|auto].
  intros v' Hv'. change (nth_error (y_subs (w_api (s_server s))) feed = Some v') in Hv'. rewrite Hv in Hv'. injection Hv' as <-. exact Q4.
Qed.

Lemma remote_complete ls1 ls2 i q cap g s1 s u :
  rs_run m (rs_new w1 subs) ls1 = Some s1 ->
  rs_run m (rs_new w1 subs) (ls1 ++ AtClient (YStartFrom i g) :: ls2) = Some s ->
  m_locked m = true \/ in_turn (ls0 ++ store_steps (la ++ server_steps (ls1 ++ AtClient (YStartFrom i g) :: ls2))) ->
  undisturbed relay (ls0 ++ store_steps (la ++ server_steps (ls1 ++ AtClient (YStartFrom i g) :: ls2))) ->
  undisturbed feed (api_steps (la ++ server_steps (ls1 ++ AtClient (YStartFrom i g) :: ls2))) ->
  undisturbed i (client_steps (ls1 ++ AtClient (YStartFrom i g) :: ls2)) ->
  nth_error subs i = Some ([q], cap) -> g < max64 -> l_last (y_log (w_store (s_server s))) < max64 ->
  connected s -> nth_error (y_subs (s_client s)) i = Some u -> u_phase u = PLive -> at_rest_to s u ->
  forall r, In r (l_recs (y_log (w_store (s_server s)))) -> q_match q r = true ->
    g < r_gsn r \/ In r (l_recs (y_log (w_store (s_server s1)))) /\ r_gsn r = g -> In r (u_got u).
Proof.
  intros R1 R O U UF UC Hc GM LM CN Hu P AR r Hr M W.
  destruct (remote_start _ O U UF) as (G1 & y1 & u1 & K1 & K0 & SM & O1 & U1 & UF1).
  rewrite rs_run_app, R1 in R. cbn [rs_run] in R.
  rewrite server_steps_app in O1, U1, UF1. change (server_steps (AtClient (YStartFrom i g) :: ls2)) with (server_steps ls2) in *.
  rewrite store_steps_app in O1, U1. rewrite api_steps_app in UF1.
  apply undisturbed_app in U1 as [U1 U2]. apply undisturbed_app in UF1 as [UF1 UF2].
  pose proof (rs_server_run _ _ _ _ R1) as RS1. cbn [rs_new s_server] in RS1.
  destruct (ordered_app _ _ _ _ _ (run_store Direct _ _ _ _ RS1) O1) as [O2 O3].
  destruct (strong_rs _ _ _ _ _ _ R1 O2 U1 UF1 K1 SM) as (h1 & w2a & Ga & Ra & Ka & Sa & Aa & Ia & Ua).
  destruct (rs_step m s1 (AtClient (YStartFrom i g))) as [s1'|] eqn:E; [|discriminate].
  destruct (sim_step _ _ _ _ _ _ [] Ga E Sa (conj eq_refl eq_refl)) as (h2 & w2b & Rb & Sb & _ & _ & X).
  rewrite (X _ eq_refl) in Rb.
  assert (ES : s_server s1' = s_server s1).
  { destruct (rs_server _ _ _ _ E) as [(x & K & _)|(ES & _)]; [discriminate|auto]. }
  rewrite <- ES in O3, Ka.
  destruct (strong_rs _ _ _ _ _ _ R O3 U2 UF2 Ka Sb) as (h3 & w2c & Gc & Rc & Kc & Sc & Ac & Ic & Uc).
  destruct (remote_rest _ _ _ _ Sc Kc CN AR) as [RL2 AR2].
  destruct Sc as [S1 S2 (L & Q & S3)]. destruct Sa as [T1 _ _].
  assert (EA : api_steps (h1 ++ AtApi (YStartFrom i g) :: h3) = client_steps (ls1 ++ AtClient (YStartFrom i g) :: ls2)).
  { rewrite api_steps_app, client_steps_app, Aa. cbn. now rewrite Ac. }
  assert (EG : store_steps (h1 ++ AtApi (YStartFrom i g) :: h3) = store_steps h1 ++ store_steps h3) by (now rewrite store_steps_app).
  eapply (link_complete Wire ghost_mode y1 subs u1 K0 h1 h3 i q cap g w2a w2c u); auto.
  - rewrite link_run_app, Ra. change (AtApi (YStartFrom i g) :: h3) with ([AtApi (YStartFrom i g)] ++ h3). rewrite link_run_app, Rb. exact Rc.
  - right. rewrite EG. intros k I. apply in_app_iff in I as [I|I]; auto.
  - rewrite EG. intros k I. apply in_app_iff in I as [I|I]; [now apply Ua|now apply Uc].
  - rewrite EA. exact UC.
  - rewrite S1. exact LM.
  - rewrite S3. exact Hu.
  - rewrite S1. exact Hr.
  - rewrite T1. exact W.
Qed.

Lemma remote_live ls1 ls2 i qs cap s1 u1 s u :
  rs_run m (rs_new w1 subs) ls1 = Some s1 -> rs_run m s1 ls2 = Some s ->
  m_locked m = true \/ in_turn (ls0 ++ store_steps (la ++ server_steps (ls1 ++ ls2))) ->
  undisturbed relay (ls0 ++ store_steps (la ++ server_steps (ls1 ++ ls2))) ->
  undisturbed feed (api_steps (la ++ server_steps (ls1 ++ ls2))) ->
  undisturbed i (client_steps (ls1 ++ ls2)) ->
  nth_error subs i = Some (qs, cap) -> asks_for qs -> l_last (y_log (w_store (s_server s))) < max64 ->
  nth_error (y_subs (s_client s1)) i = Some u1 -> u_phase u1 = PLive ->
  connected s -> nth_error (y_subs (s_client s)) i = Some u -> u_phase u = PLive -> at_rest_to s u ->
  forall r, In r (l_recs (y_log (w_store (s_server s)))) -> asked qs r ->
    l_last (y_log (w_store (s_server s1))) < r_gsn r -> u_last u1 < r_gsn r -> In r (u_got u).
Proof.
  intros R1 R O U UF UC Hc AF LM Hu1 P1 CN Hu P AR r Hr M W1 W2.
  destruct (remote_start _ O U UF) as (G1 & y1 & v1 & K1 & K0 & SM & O1 & U1 & UF1).
  rewrite server_steps_app in O1, U1, UF1. rewrite store_steps_app in O1, U1. rewrite api_steps_app in UF1.
  apply undisturbed_app in U1 as [U1 U2]. apply undisturbed_app in UF1 as [UF1 UF2].
  pose proof (rs_server_run _ _ _ _ R1) as RS1. cbn [rs_new s_server] in RS1.
  destruct (ordered_app _ _ _ _ _ (run_store Direct _ _ _ _ RS1) O1) as [O2 O3].
  destruct (strong_rs _ _ _ _ _ _ R1 O2 U1 UF1 K1 SM) as (h1 & w2a & Ga & Ra & Ka & Sa & Aa & Ia & Ua).
  destruct (strong_rs _ _ _ _ _ _ R O3 U2 UF2 Ka Sa) as (h3 & w2c & Gc & Rc & Kc & Sc & Ac & Ic & Uc).
  destruct (remote_rest _ _ _ _ Sc Kc CN AR) as [RL2 AR2].
  destruct Sc as [S1 S2 (L & Q & S3)]. destruct Sa as [T1 _ (L' & Q' & T3)].
  eapply (link_live_complete Wire ghost_mode y1 subs v1 K0 h1 h3 i qs cap w2a u1 w2c u); eauto.
  - right. rewrite store_steps_app. intros k I. apply in_app_iff in I as [I|I]; auto.
  - rewrite store_steps_app. intros k I. apply in_app_iff in I as [I|I]; [now apply Ua|now apply Uc].
  - rewrite api_steps_app, Aa, Ac, <- client_steps_app. exact UC.
  - rewrite S1. exact LM.
  - rewrite T3. exact Hu1.
  - rewrite S3. exact Hu.
  - rewrite S1. exact Hr.
  - rewrite T1. exact W1.
Qed.
End Complete.

(** * When the feed has ended *)
Lemma feed_lost m ls : forall s s' i u u', rs_run m s ls = Some s' -> s_up s = false ->
  nth_error (y_subs (s_client s)) i = Some u -> settled u -> nth_error (y_subs (s_client s')) i = Some u' ->
  s_up s' = false /\ forall r, In r (u_got u') -> In r (u_got u) \/ client_has s u r.
Proof.
  intros s s' i u u' R D Hu S Hu'.
  assert (X : s_up s' = false /\ forall r, In r (u_got u') -> In r (u_got u) \/ In r (inflight i (ghost (y_log (w_store (s_server s))) [] (s_client s)) u)).
  { revert s s' i u u' R D Hu S Hu'. induction ls as [|l ls IH]; cbn [rs_run]; intros s s' i u u' R D Hu S Hu'.
    - injection R as <-. split; auto. intros r Hr. left. congruence.
    - destruct (rs_step m s l) as [s1|] eqn:E; [|discriminate]. destruct l as [x|x|ok|]; cbn [rs_step] in E.
      + destruct (server_allowed x); [|discriminate]. destruct (ws_step _ _ _); [|discriminate]. injection E as <-.
        exact (IH _ _ _ _ _ R D Hu S Hu').
      + assert (X : api_label x /\ exists z, ystep (mk_mode false api_buffer true) (with_store (w_store (s_server s)) (s_client s)) x = Some z
                    /\ s1 = mk_rs (s_server s) (s_wire s) (s_up s) z).
        { destruct x; try discriminate; (split; [exact Logic.I|]); destruct (ystep _ _ _) as [z|]; try discriminate; injection E as <-; eauto. }
        destruct X as (A & z & E' & ->).
        destruct (ghost_step _ ghost_mode _ _ [] _ _ _ eq_refl A E') as (_ & _ & K).
        destruct (ystep_sub _ _ _ _ _ _ K Hu) as (u1 & Hu1 & Ch).
        destruct (IH _ _ _ _ _ R D Hu1 (change_settled _ _ _ _ _ _ Ch S) Hu') as [D' IHr]. split; auto.
        intros r Hr. destruct (IHr r Hr) as [I|I].
        * destruct (change_takes _ _ _ _ _ _ Ch S r I) as [?|?]; auto. right. unfold inflight. apply in_app_iff. auto.
        * destruct (coming_shrinks _ _ _ _ _ _ _ _ K Hu Ch I) as [?|(rs & -> & _)]; auto. contradiction.
      + destruct (s_wire s); [discriminate|]. rewrite D in E. discriminate.
      + injection E as <-. exact (IH _ _ _ _ _ R eq_refl Hu S Hu'). }
  destruct X as [X1 X2]. split; auto. intros r Hr. destruct (X2 r Hr) as [K|K]; auto. right.
  unfold inflight, client_has, now_for in *. cbn in K. rewrite app_nil_r, !in_app_iff in K. destruct K as [K|[K|K]]; auto.
  destruct (y_now (s_client s)) as [[r' ts]|]; [|destruct K]. destruct (existsb _ _); [|destruct K]. destruct K as [->|[]]. eauto.
Qed.

(** * A subscriber that is over *)
Lemma returned_app i a b : returned i (a ++ b) = (returned i a || returned i b)%bool.
Proof.
  induction a as [|l a IH]; [reflexivity|]. cbn [app returned]. destruct l; auto; try (destruct ok; auto); rewrite IH; apply orb_assoc.
Qed.

Lemma done_step m z z' l i u : ystep m z l = Some z' -> nth_error (y_subs z) i = Some u -> u_phase u = PDone ->
  (exists u', nth_error (y_subs z') i = Some u' /\ u_phase u' = PDone /\ u_got u' = u_got u) /\ l <> YDeliver i false.
Proof.
  intros H Hi P. destruct (ystep_sub _ _ _ _ _ _ H Hi) as (u' & Hi' & C). split.
  - exists u'. split; auto. destruct C; cbn; auto; congruence.
  - intros ->. cbn [ystep] in H. rewrite Hi, P in H. discriminate.
Qed.

Lemma done_run m ls : forall w w' i u, ws_run m w ls = Some w' -> nth_error (y_subs (w_api w)) i = Some u -> u_phase u = PDone ->
  ~ In (YStop i) (api_steps ls) ->
  (exists u', nth_error (y_subs (w_api w')) i = Some u' /\ u_phase u' = PDone /\ u_got u' = u_got u) /\ returned i (api_steps ls) = false.
Proof.
  unfold ws_run. induction ls as [|l ls IH]; cbn [link_run]; intros w w' i u H Hi P NS.
  - injection H as <-. split; [eauto|reflexivity].
  - destruct (link_step Direct m w l) as [w1|] eqn:E; [|discriminate].
    assert (NS1 : ~ In (YStop i) (api_steps ls)) by (intros I; apply NS; destruct l; cbn; auto).
    assert (X : (exists u1, nth_error (y_subs (w_api w1)) i = Some u1 /\ u_phase u1 = PDone /\ u_got u1 = u_got u)
                /\ returned i (api_steps [l]) = false).
    { destruct (link_store_step _ _ _ _ _ E) as [(x & -> & _ & EA & _)|(ES & [->|(x & -> & A & _ & St)])].
      - rewrite EA. split; [eauto|reflexivity].
      - cbn [link_step] in E. destruct (w_held w) as [|r rest]; [discriminate|]. unfold accept in E. destruct (Nat.ltb _ _); [|discriminate].
        injection E as <-. split; [eauto|reflexivity].
      - destruct (done_step _ _ _ _ _ _ St Hi P) as [D N]. split; [exact D|].
        cbn. destruct x; auto.
        + destruct ok; auto. rewrite orb_false_r. apply Nat.eqb_neq. congruence.
        + rewrite orb_false_r. apply Nat.eqb_neq. intros <-. apply NS. now left. }
    destruct X as [(u1 & Hi1 & P1 & G1) RT]. destruct (IH _ _ _ _ H Hi1 P1 NS1) as [(u2 & A & B & C) D].
    split; [exists u2; split; auto; split; auto; congruence|].
    change (l :: ls) with ([l] ++ ls). rewrite api_steps_app, returned_app, RT, D. reflexivity.
Qed.
