(** Property theorems about subscriptions over gRPC (C82) and subscriptions to a remote
    store (C83). *)
From Coq Require Import PeanoNat.
From Verif Require Import Base LogSpec Core CoreSpec CoreProofs LogProofs Properties_Core Broadcaster BroadcasterProofs
  Subscription SubscriptionSpec SubscriptionProofs SubscriptionCover SubscriptionRun
  WebSocket WebSocketSpec WebSocketProofs Properties_WebSocket RemoteFeed RemoteFeedSpec RemoteFeedProofs.

(** * C82 *)

(** What a caller is sent has strictly increasing numbers, none below the number asked
    for. *)
Theorem C82_in_order_partial : forall m subs ls0 y0 calls ls w i qs u,
  opened m subs ls0 y0 ->
  ws_run m (ws_new y0 calls) ls = Some w ->
  nth_error calls i = Some qs -> asks_for qs -> NoDup qs ->
  l_last (y_log (w_store w)) < max64 -> (forall g, In (YStartFrom i g) (api_steps ls) -> g < max64) ->
  nth_error (y_subs (w_api w)) i = Some u ->
  gsn_increasing (u_got u)
  /\ (forall g, In (YStartFrom i g) (api_steps ls) -> forall r, In r (u_got u) -> g <= r_gsn r).
Proof. exact ws_in_order. Qed.
Print Assumptions C82_in_order_partial.

(** SubscribeToLiveEvents: once the call is taken, everything saved from then on is sent,
    as long as the server's broadcaster does not time out on the caller, nor the store's
    on the server. *)
Theorem C82_live_partial : forall m subs ls0 y0 calls,
  opened m subs ls0 y0 ->
  forall ls1 ls2 i w1 u1 w u,
  ws_run m (ws_new y0 calls) ls1 = Some w1 ->
  ws_run m w1 ls2 = Some w ->
  m_locked m = true \/ in_turn (ls0 ++ store_steps (ls1 ++ ls2)) ->
  undisturbed relay (ls0 ++ store_steps (ls1 ++ ls2)) ->
  undisturbed i (api_steps (ls1 ++ ls2)) ->
  nth_error calls i = Some [None] -> (forall g, ~ In (YStartFrom i g) (api_steps ls1)) ->
  l_last (y_log (w_store w)) < max64 ->
  nth_error (y_subs (w_api w1)) i = Some u1 -> u_phase u1 = PLive -> u_got u1 = [] ->
  relaying w -> nth_error (y_subs (w_api w)) i = Some u -> u_phase u = PLive -> at_rest w u ->
  forall r, In r (l_recs (y_log (w_store w))) -> l_last (y_log (w_store w1)) < r_gsn r -> In r (u_got u).
Proof.
  intros m subs ls0 y0 calls OP ls1 ls2 i w1 u1 w u R1 R O U UC Hc NS LM Hu1 P1 G1 RL Hu P AR r Hr L.
  assert (Z : u_last u1 = 0).
  { assert (OP' := OP). destruct OP as (_ & _ & u0 & Hu0 & P0 & _).
    assert (PL : placed u0) by (unfold placed; now rewrite P0).
    pose proof (live_weak y0 (map client calls) u0 Hu0 PL) as K.
    assert (NR : forall g, ~ In (YStartFrom relay g) (store_steps ls1)).
    { eapply (store_not_started Direct _ _ _ _ u0 R1); [exact Hu0|congruence]. }
    destruct (weak_run Direct _ _ _ _ _ _ R1 NR K) as (gl & G' & u' & R' & _ & T).
    eapply (run_zero _ _ _ _ i (new_sub [None] sub_buffer) u1 R'); auto.
    - intros g I. apply (NS g). eapply tr_start; eauto.
    - apply (subs_init (map client calls)). now apply client_init. }
  eapply ws_live_complete; eauto.
  - now left.
  - left. now left.
  - lia.
Qed.
Print Assumptions C82_live_partial.

(** SubscribeToEvents, and SubscribeToEventsByAggregateType of one type: nothing from
    the number asked for on is missing. *)
Theorem C82_misses_nothing_partial : forall m subs ls0 y0 calls,
  opened m subs ls0 y0 ->
  forall ls1 ls2 i q g w1 w u,
  ws_run m (ws_new y0 calls) ls1 = Some w1 ->
  ws_run m (ws_new y0 calls) (ls1 ++ AtApi (YStartFrom i g) :: ls2) = Some w ->
  m_locked m = true \/ in_turn (ls0 ++ store_steps (ls1 ++ AtApi (YStartFrom i g) :: ls2)) ->
  undisturbed relay (ls0 ++ store_steps (ls1 ++ AtApi (YStartFrom i g) :: ls2)) ->
  undisturbed i (api_steps (ls1 ++ AtApi (YStartFrom i g) :: ls2)) ->
  nth_error calls i = Some [q] -> g < max64 -> l_last (y_log (w_store w)) < max64 ->
  relaying w -> nth_error (y_subs (w_api w)) i = Some u -> u_phase u = PLive -> at_rest w u ->
  forall r, In r (l_recs (y_log (w_store w))) -> q_match q r = true ->
    g < r_gsn r \/ In r (l_recs (y_log (w_store w1))) /\ r_gsn r = g -> In r (u_got u).
Proof. exact ws_complete. Qed.
Print Assumptions C82_misses_nothing_partial.

(** A subscriber the server's broadcaster has dropped is never sent anything again, and
    its call does not end until the caller hangs up: in every continuation. *)
Theorem C82_dropped_for_good : forall m w ls w' i u,
  ws_run m w ls = Some w' -> nth_error (y_subs (w_api w)) i = Some u -> u_phase u = PDone ->
  ~ In (YStop i) (api_steps ls) ->
  (exists u', nth_error (y_subs (w_api w')) i = Some u' /\ u_got u' = u_got u) /\ returned i (api_steps ls) = false.
Proof.
  intros m w ls w' i u R Hu P NS. destruct (done_run _ _ _ _ _ _ R Hu P NS) as [(u' & A & _ & B) C]. eauto.
Qed.
Print Assumptions C82_dropped_for_good.

(** It comes to that when the caller is slow for a while: 21 events in a row, and 21 s.
    The caller then reads on, is sent 20 of the 21 — and waits for ever. *)
Definition ex_call : list ws_label := map AtApi [YStart 0; YSubscribe 0; YSubscribe 0].
Definition ex_pass_on : list ws_label := ex_in ++ ex_pass ++ [AtApi YTake].
Definition ex_slow : list ws_label :=
  ex_call ++ [AtStore (YCommit (map (fun n => ex_rec n "A") (numbers 1 21)))]
  ++ times 20 (ex_pass_on ++ [AtApi (YSend (TAll 0))])
  ++ ex_pass_on ++ [AtApi (YTimeout (TAll 0))]
  ++ times 20 [AtApi (YWork 0 true)] ++ map AtApi [YQuit 0; YUnsubscribe 0; YUnsubscribe 0].
Definition ex_slow_end : ws := get (ws_run leveldb_mode (ws_new ex_y0 [[None]]) ex_slow) (ws_new ex_y0 []).

Theorem C82_told_refuted : exists u r,
  opened leveldb_mode [] ex_fresh ex_y0
  /\ ws_run leveldb_mode (ws_new ex_y0 [[None]]) ex_slow = Some ex_slow_end
  /\ nth_error (y_subs (w_api ex_slow_end)) 0 = Some u
  /\ In r (l_recs (y_log (w_store ex_slow_end))) /\ ~ In r (u_got u)
  /\ relaying ex_slow_end /\ returned 0 (api_steps ex_slow) = false
  /\ forall ls w, ws_run leveldb_mode ex_slow_end ls = Some w -> ~ In (YStop 0) (api_steps ls) ->
       (exists u', nth_error (y_subs (w_api w)) 0 = Some u' /\ u_got u' = u_got u) /\ returned 0 (api_steps ls) = false.
Proof.
  destruct (nth_error (y_subs (w_api ex_slow_end)) 0) as [u|] eqn:Eu; [|vm_compute in Eu; discriminate Eu].
  exists u, (ex_rec 21 "A").
  split. { split; [vm_compute; reflexivity|]. split; [intros g H; cbn in H; in_list H|].
           eexists. split; [vm_compute; reflexivity|]. split; reflexivity. }
  split; [vm_compute; reflexivity|]. split; [reflexivity|].
  split. { assert (LL : last (l_recs (y_log (w_store ex_slow_end))) (ex_rec 0 "") = ex_rec 21 "A") by (vm_compute; reflexivity).
           rewrite <- LL. apply last_in. vm_compute. discriminate. }
  split. { assert (UG : forallb (fun x => r_gsn x <=? 20) (u_got u) = true) by (vm_compute in Eu; injection Eu as <-; vm_compute; reflexivity).
           rewrite forallb_forall in UG. intros H. specialize (UG _ H). discriminate UG. }
  split; [eexists; split; [vm_compute; reflexivity|reflexivity]|].
  split; [vm_compute; reflexivity|].
  intros ls w R NS. eapply C82_dropped_for_good; eauto. vm_compute in Eu. injection Eu as <-. reflexivity.
Qed.
Print Assumptions C82_told_refuted.

(** A live call and a call from number 2 on, taken while a save is being handed over. *)
Definition ex_calls_run : list ws_label :=
  ex_call ++ [AtStore (YCommit [ex_rec 1 "A"; ex_rec 2 "B"; ex_rec 3 "A"])]
  ++ ex_pass_on ++ [AtApi (YSend (TAll 0)); AtApi (YWork 0 true); AtStore (YAccept 0); AtStore (YAccept 0)].
Definition ex_calls_rest : list ws_label :=
  map AtApi [YFetch 1 None; YFetch 1 None; YDeliver 1 true; YDeliver 1 true; YSubscribe 1; YSubscribe 1; YFetch 1 None; YFetch 1 None]
  ++ times 2 ([AtStore YTake; AtStore (YSend (TAll 0))] ++ ex_pass
              ++ map AtApi [YTake; YSend (TAll 1); YSend (TAll 0); YWork 0 true; YWork 1 true])
  ++ [AtStore (YCommit [ex_rec 4 "B"])] ++ ex_pass_on ++ map AtApi [YSend (TAll 1); YSend (TAll 0); YWork 0 true; YWork 1 true].
Example C82_witness : exists w u u1,
  ws_run leveldb_mode (ws_new ex_y0 [[None]; [None]]) (ex_calls_run ++ AtApi (YStartFrom 1 2) :: ex_calls_rest) = Some w
  /\ undisturbed relay (ex_fresh ++ store_steps (ex_calls_run ++ AtApi (YStartFrom 1 2) :: ex_calls_rest))
  /\ undisturbed 0 (api_steps (ex_calls_run ++ AtApi (YStartFrom 1 2) :: ex_calls_rest))
  /\ undisturbed 1 (api_steps (ex_calls_run ++ AtApi (YStartFrom 1 2) :: ex_calls_rest))
  /\ relaying w /\ nth_error (y_subs (w_api w)) 0 = Some u /\ u_phase u = PLive /\ at_rest w u
  /\ nth_error (y_subs (w_api w)) 1 = Some u1 /\ u_phase u1 = PLive /\ at_rest w u1
  /\ record_numbers (u_got u) = [1; 2; 3; 4] /\ record_numbers (u_got u1) = [2; 3; 4].
Proof.
  eexists. eexists. eexists.
  split; [vm_compute; reflexivity|].
  split; [intros l H; cbn in H; repeat (destruct H as [<-|H]; [exact I|]); destruct H|].
  split; [intros l H; cbn in H; repeat (destruct H as [<-|H]; [exact I|]); destruct H|].
  split; [intros l H; cbn in H; repeat (destruct H as [<-|H]; [exact I|]); destruct H|].
  split; [eexists; split; [vm_compute; reflexivity|reflexivity]|].
  split; [vm_compute; reflexivity|]. split; [reflexivity|].
  split; [repeat (split; [reflexivity|]); split; [intros v Hv; vm_compute in Hv; injection Hv as <-; reflexivity|repeat split]|].
  split; [vm_compute; reflexivity|]. split; [reflexivity|].
  split; [repeat (split; [reflexivity|]); split; [intros v Hv; vm_compute in Hv; injection Hv as <-; reflexivity|repeat split]|].
  split; reflexivity.
Qed.

(** * C83 *)

(** Whatever the store, the server, the connection and the remote store do, a subscriber
    is handed records with strictly increasing numbers, none below the number it asked
    for. *)
Theorem C83_in_order_partial : forall m subs0 ls0 y0 clients subs ls s i qs cap u,
  opened m subs0 ls0 y0 ->
  rs_run m (rs_new (server_new y0 clients) subs) ls = Some s ->
  nth_error subs i = Some (qs, cap) -> asks_for qs -> NoDup qs ->
  l_last (y_log (w_store (s_server s))) < max64 -> (forall g, In (YStartFrom i g) (client_steps ls) -> g < max64) ->
  nth_error (y_subs (s_client s)) i = Some u ->
  gsn_increasing (u_got u)
  /\ (forall g, In (YStartFrom i g) (client_steps ls) -> forall r, In r (u_got u) -> g <= r_gsn r).
Proof. exact remote_in_order. Qed.
Print Assumptions C83_in_order_partial.

(** A subscriber to all events, or to one aggregate type, misses nothing from the number
    it asked for on, if it is started after the server has taken the remote store's call,
    if none of the three broadcasters on the way times out, no read of the subscriber
    fails and nothing on the way has ended. *)
Theorem C83_misses_nothing_partial : forall m subs0 ls0 y0 clients la w1 subs,
  opened m subs0 ls0 y0 ->
  ws_run m (server_new y0 clients) la = Some w1 -> (forall g, ~ In (YStartFrom feed g) (api_steps la)) -> taken w1 ->
  forall ls1 ls2 i q cap g s1 s u,
  rs_run m (rs_new w1 subs) ls1 = Some s1 ->
  rs_run m (rs_new w1 subs) (ls1 ++ AtClient (YStartFrom i g) :: ls2) = Some s ->
  m_locked m = true \/ in_turn (ls0 ++ store_steps (la ++ server_steps (ls1 ++ AtClient (YStartFrom i g) :: ls2))) ->
  undisturbed relay (ls0 ++ store_steps (la ++ server_steps (ls1 ++ AtClient (YStartFrom i g) :: ls2))) ->
  undisturbed feed (api_steps (la ++ server_steps (ls1 ++ AtClient (YStartFrom i g) :: ls2))) ->
  undisturbed i (client_steps (ls1 ++ AtClient (YStartFrom i g) :: ls2)) ->
  nth_error subs i = Some ([q], cap) -> g < max64 -> l_last (y_log (w_store (s_server s))) < max64 ->
  connected s -> nth_error (y_subs (s_client s)) i = Some u -> u_phase u = PLive -> at_rest_to s u ->
  forall r, In r (l_recs (y_log (w_store (s_server s)))) -> q_match q r = true ->
    g < r_gsn r \/ In r (l_recs (y_log (w_store (s_server s1)))) /\ r_gsn r = g -> In r (u_got u).
Proof. intros m subs0 ls0 y0 clients la w1 subs OP RA NF TK. exact (remote_complete m subs0 ls0 y0 clients la w1 subs OP RA NF TK). Qed.
Print Assumptions C83_misses_nothing_partial.

(** And any subscriber, once live, misses nothing saved from then on. *)
Theorem C83_live_partial : forall m subs0 ls0 y0 clients la w1 subs,
  opened m subs0 ls0 y0 ->
  ws_run m (server_new y0 clients) la = Some w1 -> (forall g, ~ In (YStartFrom feed g) (api_steps la)) -> taken w1 ->
  forall ls1 ls2 i qs cap s1 u1 s u,
  rs_run m (rs_new w1 subs) ls1 = Some s1 -> rs_run m s1 ls2 = Some s ->
  m_locked m = true \/ in_turn (ls0 ++ store_steps (la ++ server_steps (ls1 ++ ls2))) ->
  undisturbed relay (ls0 ++ store_steps (la ++ server_steps (ls1 ++ ls2))) ->
  undisturbed feed (api_steps (la ++ server_steps (ls1 ++ ls2))) ->
  undisturbed i (client_steps (ls1 ++ ls2)) ->
  nth_error subs i = Some (qs, cap) -> asks_for qs -> l_last (y_log (w_store (s_server s))) < max64 ->
  nth_error (y_subs (s_client s1)) i = Some u1 -> u_phase u1 = PLive ->
  connected s -> nth_error (y_subs (s_client s)) i = Some u -> u_phase u = PLive -> at_rest_to s u ->
  forall r, In r (l_recs (y_log (w_store (s_server s)))) -> asked qs r ->
    l_last (y_log (w_store (s_server s1))) < r_gsn r -> u_last u1 < r_gsn r -> In r (u_got u).
Proof. intros m subs0 ls0 y0 clients la w1 subs OP RA NF TK. exact (remote_live m subs0 ls0 y0 clients la w1 subs OP RA NF TK). Qed.
Print Assumptions C83_live_partial.

(** A save is half handed over when two subscribers of a remote store start: one from
    number 1 on, one for type A; one more event follows. *)
Definition ex_subs : list (list query * nat) := [([None], 5%nat); ([Some "A"], 1%nat)].
Definition ex_w1 : ws := get (ws_run leveldb_mode (server_new ex_y0 []) ex_call) (ws_new ex_y0 []).
Definition on_way : list rs_label :=
  map AtServer (ex_pass_on ++ [AtApi (YSend (TAll 0)); AtApi (YWork 0 true)]) ++ [Receive true; AtClient YTake].
Definition to_both : list rs_label := map AtClient [YSend (TAll 0); YSend (TType 1); YWork 1 true; YWork 0 true].
Definition to_one : list rs_label := map AtClient [YSend (TAll 0); YWork 0 true].
Definition ex_before : list rs_label :=
  [AtServer (AtStore (YCommit [ex_rec 1 "A"; ex_rec 2 "B"]))] ++ map AtServer (ex_in ++ [AtStore (YWork 0 true)]).
Definition ex_remote_rest : list rs_label :=
  map AtClient [YFetch 0 None; YFetch 0 None; YDeliver 0 true; YDeliver 0 true; YSubscribe 0; YSubscribe 0; YFetch 0 None; YFetch 0 None;
                YStartFrom 1 0; YFetch 1 None; YFetch 1 None; YDeliver 1 true; YSubscribe 1; YSubscribe 1; YFetch 1 None; YFetch 1 None]
  ++ map AtServer [Relay; AtApi YTake; AtApi (YSend (TAll 0)); AtApi (YWork 0 true)] ++ [Receive true; AtClient YTake] ++ to_both   (* 1 *)
  ++ on_way ++ to_one                                                                                                              (* 2 *)
  ++ [AtServer (AtStore (YCommit [ex_rec 3 "A"]))] ++ on_way ++ to_both.
Definition ex_remote_run : list rs_label := ex_before ++ AtClient (YStartFrom 0 1) :: ex_remote_rest.
Example C83_witness : exists s u u1,
  opened leveldb_mode [] ex_fresh ex_y0
  /\ ws_run leveldb_mode (server_new ex_y0 []) ex_call = Some ex_w1 /\ taken ex_w1
  /\ rs_run leveldb_mode (rs_new ex_w1 ex_subs) ex_remote_run = Some s
  /\ undisturbed relay (ex_fresh ++ store_steps (ex_call ++ server_steps ex_remote_run))
  /\ undisturbed feed (api_steps (ex_call ++ server_steps ex_remote_run))
  /\ undisturbed 0 (client_steps ex_remote_run) /\ undisturbed 1 (client_steps ex_remote_run)
  /\ connected s /\ nth_error (y_subs (s_client s)) 0 = Some u /\ u_phase u = PLive /\ at_rest_to s u
  /\ nth_error (y_subs (s_client s)) 1 = Some u1 /\ u_phase u1 = PLive /\ at_rest_to s u1
  /\ record_numbers (l_recs (y_log (w_store (s_server s)))) = [1; 2; 3]
  /\ record_numbers (u_got u) = [1; 2; 3] /\ record_numbers (u_got u1) = [1; 3].
Proof.
  eexists. eexists. eexists.
  split. { split; [vm_compute; reflexivity|]. split; [intros g H; cbn in H; in_list H|].
           eexists. split; [vm_compute; reflexivity|]. split; reflexivity. }
  split; [vm_compute; reflexivity|].
  split; [eexists; split; [vm_compute; reflexivity|split; reflexivity]|].
  split; [vm_compute; reflexivity|].
  split; [intros l H; cbn in H; repeat (destruct H as [<-|H]; [exact I|]); destruct H|].
  split; [intros l H; cbn in H; repeat (destruct H as [<-|H]; [exact I|]); destruct H|].
  split; [intros l H; cbn in H; repeat (destruct H as [<-|H]; [exact I|]); destruct H|].
  split; [intros l H; cbn in H; repeat (destruct H as [<-|H]; [exact I|]); destruct H|].
  split; [split; [eexists; split; [vm_compute; reflexivity|reflexivity]|split; [eexists; split; [vm_compute; reflexivity|reflexivity]|reflexivity]]|].
  split; [vm_compute; reflexivity|]. split; [reflexivity|].
  split. { split; [|repeat split]. intros v Hv. vm_compute in Hv. injection Hv as <-. repeat (split; [reflexivity|]).
           split; [intros v Hv; vm_compute in Hv; injection Hv as <-; reflexivity|repeat split]. }
  split; [vm_compute; reflexivity|]. split; [reflexivity|].
  split. { split; [|repeat split]. intros v Hv. vm_compute in Hv. injection Hv as <-. repeat (split; [reflexivity|]).
           split; [intros v Hv; vm_compute in Hv; injection Hv as <-; reflexivity|repeat split]. }
  split; [reflexivity|split; reflexivity].
Qed.

(** [New] returns before the server has taken the call.  A subscriber that starts at once,
    reads what there is — nothing — and is live, misses what is saved before the server
    takes the call: the record is in the store, everything is connected and at rest,
    nothing timed out, and the subscriber has nothing.  It gets what is saved later. *)
Definition ex_early : list rs_label :=
  map AtClient [YStartFrom 0 0; YFetch 0 None; YFetch 0 None; YSubscribe 0; YSubscribe 0; YFetch 0 None; YFetch 0 None]
  ++ [AtServer (AtStore (YCommit [ex_rec 1 "A"]))] ++ map AtServer ex_pass_on ++ map AtServer ex_call.
Definition ex_later : list rs_label := [AtServer (AtStore (YCommit [ex_rec 2 "A"]))] ++ on_way ++ to_one.
Theorem C83_started_too_early_refuted : exists s u s2 u2,
  opened leveldb_mode [] ex_fresh ex_y0
  /\ rs_run leveldb_mode (rs_new (server_new ex_y0 []) [([None], 5%nat)]) ex_early = Some s
  /\ undisturbed relay (ex_fresh ++ store_steps (server_steps ex_early))
  /\ undisturbed feed (api_steps (server_steps ex_early)) /\ undisturbed 0 (client_steps ex_early)
  /\ connected s /\ nth_error (y_subs (s_client s)) 0 = Some u /\ u_phase u = PLive /\ at_rest_to s u
  /\ l_recs (y_log (w_store (s_server s))) = [ex_rec 1 "A"] /\ u_got u = []
  /\ rs_run leveldb_mode s ex_later = Some s2 /\ nth_error (y_subs (s_client s2)) 0 = Some u2 /\ u_got u2 = [ex_rec 2 "A"].
Proof.
  eexists. eexists. eexists. eexists.
  split. { split; [vm_compute; reflexivity|]. split; [intros g H; cbn in H; in_list H|].
           eexists. split; [vm_compute; reflexivity|]. split; reflexivity. }
  split; [vm_compute; reflexivity|].
  split; [intros l H; cbn in H; repeat (destruct H as [<-|H]; [exact I|]); destruct H|].
  split; [intros l H; cbn in H; repeat (destruct H as [<-|H]; [exact I|]); destruct H|].
  split; [intros l H; cbn in H; repeat (destruct H as [<-|H]; [exact I|]); destruct H|].
  split; [split; [eexists; split; [vm_compute; reflexivity|reflexivity]|split; [eexists; split; [vm_compute; reflexivity|reflexivity]|reflexivity]]|].
  split; [vm_compute; reflexivity|]. split; [reflexivity|].
  split. { split; [|repeat split]. intros v Hv. vm_compute in Hv. injection Hv as <-. repeat (split; [reflexivity|]).
           split; [intros v Hv; vm_compute in Hv; injection Hv as <-; reflexivity|repeat split]. }
  split; [reflexivity|]. split; [reflexivity|].
  split; [vm_compute; reflexivity|]. split; [vm_compute; reflexivity|reflexivity].
Qed.
Print Assumptions C83_started_too_early_refuted.

(** Once the feed has ended — the connection was lost for a moment, or a record came that
    the remote store cannot convert — no live subscriber is handed anything but what the
    remote store's broadcaster had for it: in every continuation, there is no way back. *)
Theorem C83_feed_ended_refuted : forall m s ls s' i u u',
  rs_run m s ls = Some s' -> s_up s = false ->
  nth_error (y_subs (s_client s)) i = Some u -> u_phase u = PLive -> nth_error (y_subs (s_client s')) i = Some u' ->
  s_up s' = false /\ forall r, In r (u_got u') -> In r (u_got u) \/ client_has s u r.
Proof.
  intros m s ls s' i u u' R D Hu P Hu'. eapply feed_lost; eauto. unfold settled. now rewrite P.
Qed.
Print Assumptions C83_feed_ended_refuted.

(** For instance after one record that cannot be converted: a subscriber, live and
    undisturbed, stays so and is never handed what is saved next. *)
Definition ex_unknown : list rs_label :=
  map AtClient [YStartFrom 0 0; YFetch 0 None; YFetch 0 None; YSubscribe 0; YSubscribe 0; YFetch 0 None; YFetch 0 None]
  ++ [AtServer (AtStore (YCommit [ex_rec 1 "A"]))] ++ map AtServer (ex_pass_on ++ [AtApi (YSend (TAll 0)); AtApi (YWork 0 true)])
  ++ [Receive false; AtServer (AtStore (YCommit [ex_rec 2 "B"]))].
Theorem C83_unknown_event_refuted : exists s u,
  opened leveldb_mode [] ex_fresh ex_y0
  /\ rs_run leveldb_mode (rs_new ex_w1 [([None], 5%nat)]) ex_unknown = Some s
  /\ nth_error (y_subs (s_client s)) 0 = Some u /\ u_phase u = PLive /\ u_stop u = false
  /\ l_recs (y_log (w_store (s_server s))) = [ex_rec 1 "A"; ex_rec 2 "B"]
  /\ forall ls s' u', rs_run leveldb_mode s ls = Some s' -> nth_error (y_subs (s_client s')) 0 = Some u' -> u_got u' = [].
Proof.
  eexists. eexists.
  split. { split; [vm_compute; reflexivity|]. split; [intros g H; cbn in H; in_list H|].
           eexists. split; [vm_compute; reflexivity|]. split; reflexivity. }
  split; [vm_compute; reflexivity|]. split; [vm_compute; reflexivity|]. split; [reflexivity|]. split; [reflexivity|]. split; [reflexivity|].
  intros ls s' u' R Hu'. destruct (u_got u') as [|r l] eqn:E; [reflexivity|]. exfalso.
  destruct (C83_feed_ended_refuted _ _ _ _ 0%nat _ u' R eq_refl eq_refl eq_refl Hu') as [_ F].
  destruct (F r) as [[]|[[]|[[]|[ts K]]]]; [rewrite E; now left|discriminate K].
Qed.
Print Assumptions C83_unknown_event_refuted.
