(** Property theorems about the WebSocket API (C80, C81). *)
From Coq Require Import PeanoNat.
From Verif Require Import Base LogSpec Core CoreSpec CoreProofs LogProofs Properties_Core Broadcaster BroadcasterProofs
  Subscription SubscriptionSpec SubscriptionProofs SubscriptionCover SubscriptionRun
  Text PathSpec PathProofs NumberSpec NumberProofs Http HttpSpec HttpProofs WebSocket WebSocketSpec WebSocketProofs WebSocketRequestProofs.

(** * C80 *)

(** In every schedule of the store (any other subscribers, any failures), of the API's
    own subscription to it and of the API's broadcaster and clients, a client is sent
    records with strictly increasing numbers, none below the number it asked for. *)
Theorem C80_in_order_partial : forall m subs ls0 y0 clients ls w i qs u,
  opened m subs ls0 y0 ->
  ws_run m (ws_new y0 clients) ls = Some w ->
  nth_error clients i = Some qs -> asks_for qs -> NoDup qs ->
  l_last (y_log (w_store w)) < max64 -> (forall g, In (YStartFrom i g) (api_steps ls) -> g < max64) ->
  nth_error (y_subs (w_api w)) i = Some u ->
  gsn_increasing (u_got u)
  /\ (forall g, In (YStartFrom i g) (api_steps ls) -> forall r, In r (u_got u) -> g <= r_gsn r).
Proof. exact ws_in_order. Qed.
Print Assumptions C80_in_order_partial.

(** A client of all events, or of one aggregate type, misses nothing from the number it
    asked for on: once it is live and nothing is on its way, it has been sent every such
    record there is.  The hypotheses: saves hand over their records in turn (always so
    with LevelDB); the store's broadcaster did not time out on the API's own
    subscription, which still runs; the API's broadcaster did not time out on the client
    and no read of the client failed. *)
Theorem C80_misses_nothing_partial : forall m subs ls0 y0 clients,
  opened m subs ls0 y0 ->
  forall ls1 ls2 i q g w1 w u,
  ws_run m (ws_new y0 clients) ls1 = Some w1 ->
  ws_run m (ws_new y0 clients) (ls1 ++ AtApi (YStartFrom i g) :: ls2) = Some w ->
  m_locked m = true \/ in_turn (ls0 ++ store_steps (ls1 ++ AtApi (YStartFrom i g) :: ls2)) ->
  undisturbed relay (ls0 ++ store_steps (ls1 ++ AtApi (YStartFrom i g) :: ls2)) ->
  undisturbed i (api_steps (ls1 ++ AtApi (YStartFrom i g) :: ls2)) ->
  nth_error clients i = Some [q] -> g < max64 -> l_last (y_log (w_store w)) < max64 ->
  relaying w -> nth_error (y_subs (w_api w)) i = Some u -> u_phase u = PLive -> at_rest w u ->
  forall r, In r (l_recs (y_log (w_store w))) -> q_match q r = true ->
    g < r_gsn r \/ In r (l_recs (y_log (w_store w1))) /\ r_gsn r = g -> In r (u_got u).
Proof. exact ws_complete. Qed.
Print Assumptions C80_misses_nothing_partial.

(** And any client, once live, misses nothing that is saved from then on. *)
Theorem C80_live_partial : forall m subs ls0 y0 clients,
  opened m subs ls0 y0 ->
  forall ls1 ls2 i qs w1 u1 w u,
  ws_run m (ws_new y0 clients) ls1 = Some w1 ->
  ws_run m w1 ls2 = Some w ->
  m_locked m = true \/ in_turn (ls0 ++ store_steps (ls1 ++ ls2)) ->
  undisturbed relay (ls0 ++ store_steps (ls1 ++ ls2)) ->
  undisturbed i (api_steps (ls1 ++ ls2)) ->
  nth_error clients i = Some qs -> asks_for qs -> l_last (y_log (w_store w)) < max64 ->
  nth_error (y_subs (w_api w1)) i = Some u1 -> u_phase u1 = PLive ->
  relaying w -> nth_error (y_subs (w_api w)) i = Some u -> u_phase u = PLive -> at_rest w u ->
  forall r, In r (l_recs (y_log (w_store w))) -> asked qs r ->
    l_last (y_log (w_store w1)) < r_gsn r -> u_last u1 < r_gsn r -> In r (u_got u).
Proof. exact ws_live_complete. Qed.
Print Assumptions C80_live_partial.

(** A store with a past; a save is half handed over when the API starts; a client asks
    for everything from number 1 on, another for type A; two more saves overlap. *)
Definition ex_past : list label :=
  [YCommit [ex_rec 1 "A"; ex_rec 2 "B"]; YAccept 0; YTake; YStart 0; YSubscribe 0; YSubscribe 0].
Definition ex_catch : list ws_label := map AtApi
  [YFetch 0 None; YFetch 0 None; YDeliver 0 true; YDeliver 0 true; YSubscribe 0; YSubscribe 0; YFetch 0 None; YFetch 0 None;
   YStartFrom 1 0; YFetch 1 None; YFetch 1 None; YDeliver 1 true; YSubscribe 1; YSubscribe 1; YFetch 1 None; YFetch 1 None].
Definition ex_relay : list ws_label :=
  [AtStore (YAccept 0); AtStore YTake; AtStore (YSend (TAll 0)); AtStore (YWork 0 true); Relay; AtApi YTake; AtApi (YSend (TAll 0))].
Definition ex_feed : list ws_label :=
  ex_catch
  ++ [AtStore (YCommit [ex_rec 3 "A"]); AtStore (YCommit [ex_rec 4 "B"])]
  ++ ex_relay ++ [AtApi (YWork 0 true)]                                                            (* 2, sent before *)
  ++ ex_relay ++ [AtApi (YSend (TType 1)); AtApi (YWork 0 true); AtApi (YWork 1 true)]             (* 3 *)
  ++ ex_relay ++ [AtApi (YWork 0 true)].                                                           (* 4 *)
Definition ex_clients : list (list query) := [[None]; [Some "A"]].

Ltac in_list H := repeat (destruct H as [H|H]; [try discriminate H|]); try destruct H.
Example C80_witness : exists y0 w u u1,
  opened inmemory_mode [] ex_past y0
  /\ ws_run inmemory_mode (ws_new y0 ex_clients) ([] ++ AtApi (YStartFrom 0 1) :: ex_feed) = Some w
  /\ in_turn (ex_past ++ store_steps ([] ++ AtApi (YStartFrom 0 1) :: ex_feed))
  /\ undisturbed relay (ex_past ++ store_steps ([] ++ AtApi (YStartFrom 0 1) :: ex_feed))
  /\ undisturbed 0 (api_steps ([] ++ AtApi (YStartFrom 0 1) :: ex_feed))
  /\ undisturbed 1 (api_steps ([] ++ AtApi (YStartFrom 0 1) :: ex_feed))
  /\ relaying w /\ nth_error (y_subs (w_api w)) 0 = Some u /\ u_phase u = PLive /\ at_rest w u
  /\ nth_error (y_subs (w_api w)) 1 = Some u1 /\ u_phase u1 = PLive /\ at_rest w u1
  /\ record_numbers (l_recs (y_log (w_store w))) = [1; 2; 3; 4]
  /\ record_numbers (u_got u) = [1; 2; 3; 4] /\ record_numbers (u_got u1) = [1; 3].
Proof.
  eexists. eexists. eexists. eexists. split.
  { split; [vm_compute; reflexivity|]. split; [intros g H; cbn in H; in_list H|].
    eexists. split; [vm_compute; reflexivity|]. split; reflexivity. }
  split; [vm_compute; reflexivity|].
  split; [intros k H; cbn in H; repeat (destruct H as [H|H]; [discriminate H || now injection H|]); destruct H|].
  split; [intros l H; cbn in H; repeat (destruct H as [<-|H]; [exact I|]); destruct H|].
  split; [intros l H; cbn in H; repeat (destruct H as [<-|H]; [exact I|]); destruct H|].
  split; [intros l H; cbn in H; repeat (destruct H as [<-|H]; [exact I|]); destruct H|].
  split; [eexists; split; [vm_compute; reflexivity|reflexivity]|].
  split; [vm_compute; reflexivity|]. split; [reflexivity|].
  split; [repeat (split; [reflexivity|]); split; [intros v Hv; vm_compute in Hv; injection Hv as <-; reflexivity|repeat split]|].
  split; [vm_compute; reflexivity|]. split; [reflexivity|].
  split; [repeat (split; [reflexivity|]); split; [intros v Hv; vm_compute in Hv; injection Hv as <-; reflexivity|repeat split]|].
  split; [reflexivity|split; reflexivity].
Qed.

(** Once the API's own subscription is not with the store's broadcaster any more — it
    was dropped for being slow, or the store's broadcaster was closed — no client that is
    live is ever sent anything again but what the API had for it: not in any schedule. *)
Theorem C80_cut_off : forall m w ls w' i u u',
  cut_off w -> ws_run m w ls = Some w' ->
  nth_error (y_subs (w_api w)) i = Some u -> u_phase u = PLive ->
  nth_error (y_subs (w_api w')) i = Some u' ->
  forall r, In r (u_got u') -> In r (u_got u) \/ api_has w u r.
Proof. intros m w ls w' i u u' CO R. exact (cut_off_clients Direct m ls w w' i u u' R CO). Qed.
Print Assumptions C80_cut_off.

(** It comes to that: two clients stop reading; the API's broadcaster waits for them, one
    after the other; the API's buffer fills, then that of the API's subscription; the
    store's broadcaster, waiting too, drops the API's subscription.  A third client that
    always reads at once is live and undisturbed, and is sent nothing of what is saved
    from then on, ever. *)
Fixpoint numbers (from : N) (n : nat) : list N := match n with O => [] | S k => from :: numbers (from + 1) k end.
Definition ex_burst : list record := map (fun n => ex_rec n "A") (numbers 1 143).
Definition times {A} (n : nat) (l : list A) : list A := concat (repeat l n).
Definition ex_start (i : nat) : list ws_label := map AtApi
  [YStartFrom i 0; YFetch i None; YFetch i None; YSubscribe i; YSubscribe i; YFetch i None; YFetch i None].
Definition ex_in : list ws_label := [AtStore (YAccept 0); AtStore YTake; AtStore (YSend (TAll 0))].
Definition ex_pass : list ws_label := [AtStore (YWork 0 true); Relay].
Definition ex_out : list ws_label := [AtApi YTake; AtApi (YSend (TAll 0)); AtApi (YSend (TAll 1)); AtApi (YSend (TAll 2)); AtApi (YWork 2 true)].
Definition ex_stall : list ws_label :=
  ex_start 0 ++ ex_start 1 ++ ex_start 2
  ++ [AtStore (YCommit ex_burst)]
  ++ times 20 (ex_in ++ ex_pass ++ ex_out)                             (* clients 0 and 1 have 20 waiting *)
  ++ ex_in ++ ex_pass ++ [AtApi YTake; AtApi (YSend (TAll 2)); AtApi (YWork 2 true)] (* the API's broadcaster waits for client 0 *)
  ++ times 100 (ex_in ++ ex_pass) ++ ex_in ++ [AtStore (YWork 0 true)] (* its buffer is full, the relay waits *)
  ++ times 20 ex_in ++ [AtStore (YAccept 0); AtStore YTake].           (* the store's broadcaster waits *)
Definition ex_drop : list ws_label :=
  [AtApi (YTimeout (TAll 0)); AtStore (YTimeout (TAll 0)); AtApi (YTimeout (TAll 1))]
  ++ times 100 [AtApi YTake; AtApi (YSend (TAll 2)); AtApi (YWork 2 true)]
  ++ [Relay; AtApi YTake; AtApi (YSend (TAll 2)); AtApi (YWork 2 true)]
  ++ times 20 (ex_pass ++ [AtApi YTake; AtApi (YSend (TAll 2)); AtApi (YWork 2 true)])
  ++ [AtStore (YCommit [ex_rec 144 "A"]); AtStore (YAccept 0); AtStore YTake].
Definition ex_fresh : list label := [YStart 0; YSubscribe 0; YSubscribe 0].
Definition ex_three : list (list query) := [[None]; [None]; [None]].

Definition get {A} (o : option A) (d : A) : A := match o with Some a => a | None => d end.
Definition ex_y0 : sys := get (yrun leveldb_mode (sys_init [relay_sub]) ex_fresh) (sys_init []).
Definition ex_full : ws := get (ws_run leveldb_mode (ws_new ex_y0 ex_three) ex_stall) (ws_new ex_y0 []).
Definition ex_after : ws := get (ws_run leveldb_mode ex_full ex_drop) (ws_new ex_y0 []).

(** No delivery can be made: those that come first are to full buffers. *)
Definition stuck (z : sys) : bool :=
  match y_now z with
  | Some (_, ts) => forallb (fun t => negb (servable t ts)
                      || match nth_error (y_subs z) (t_id t) with Some u => negb (Nat.ltb (length (u_buf u)) (max 1 (u_cap u))) | None => true end) ts
  | None => true
  end.
Lemma stuck_send m z t : stuck z = true -> ystep m z (YSend t) = None.
Proof.
  unfold stuck. cbn [ystep]. destruct (y_now z) as [[r ts]|]; [|reflexivity]. rewrite forallb_forall. intros H.
  destruct (nth_error (y_subs z) (t_id t)) as [u|] eqn:E; [|reflexivity].
  destruct (servable t ts) eqn:S; [|reflexivity].
  assert (I : In t ts).
  { unfold servable in S. apply andb_true_iff in S as [S _]. apply existsb_exists in S as (x & I & S). apply t_eqb_eq in S. now subst. }
  specialize (H t I). rewrite S, E in H. cbn [negb orb] in H. apply negb_true_iff in H. rewrite H. reflexivity.
Qed.
Lemma full_api m w : stuck (w_api w) = true -> forall t, ws_step m w (AtApi (YSend t)) = None.
Proof. intros H t. unfold ws_step. cbn [link_step]. rewrite stuck_send; [reflexivity|exact H]. Qed.
Lemma full_store m w : stuck (w_store w) = true -> forall t, ws_step m w (AtStore (YSend t)) = None.
Proof. intros H t. unfold ws_step. cbn [link_step]. unfold store_step. rewrite stuck_send; [reflexivity|exact H]. Qed.

Theorem C80_slow_clients_refuted : exists ls1 ls2 w1 w u r,
  opened leveldb_mode [] ex_fresh ex_y0
  /\ ws_run leveldb_mode (ws_new ex_y0 ex_three) ls1 = Some w1
  (* before any time-out: all buffers on the way are full *)
  /\ (forall t, ~ In (AtStore (YTimeout t)) ls1) /\ (forall t, ~ In (AtApi (YTimeout t)) ls1)
  /\ option_map (fun v => length (u_buf v)) (nth_error (y_subs (w_store w1)) relay) = Some 20%nat
  /\ length (y_queue (w_api w1)) = 100%nat /\ length (w_held w1) = 1%nat
  (* and neither the relay nor the two broadcasters can go on but by a time-out *)
  /\ ws_step leveldb_mode w1 Relay = None /\ ws_step leveldb_mode w1 (AtApi YTake) = None
  /\ (forall t, ws_step leveldb_mode w1 (AtApi (YSend t)) = None) /\ (forall t, ws_step leveldb_mode w1 (AtStore (YSend t)) = None)
  /\ ws_run leveldb_mode w1 ls2 = Some w
  /\ undisturbed 2 (api_steps (ls1 ++ ls2))
  /\ nth_error (y_subs (w_api w)) 2 = Some u /\ u_phase u = PLive /\ u_stop u = false /\ u_buf u = []
  /\ In r (l_recs (y_log (w_store w))) /\ r_gsn r = 144
  /\ forall ls w' u', ws_run leveldb_mode w ls = Some w' -> nth_error (y_subs (w_api w')) 2 = Some u' ->
       ~ In r (u_got u') /\ forall x, In x (u_got u') -> r_gsn x <= 142.
Proof.
  destruct (nth_error (y_subs (w_api ex_after)) 2) as [u|] eqn:Eu; [|vm_compute in Eu; discriminate Eu].
  exists ex_stall, ex_drop, ex_full, ex_after, u, (ex_rec 144 "A").
  assert (CO : cut_off ex_after).
  { unfold cut_off. eexists. split; [vm_compute; reflexivity|]. split; [vm_compute; exact I|]. split; [reflexivity|].
    split; [vm_compute; intros []|]. split; [vm_compute; intros t []|]. split; [|vm_compute; reflexivity].
    intros r ts t E. vm_compute in E. discriminate E. }
  assert (LV : u_phase u = PLive) by (vm_compute in Eu; injection Eu as <-; reflexivity).
  assert (UB : u_buf u = []) by (vm_compute in Eu; injection Eu as <-; reflexivity).
  assert (US : u_stop u = false) by (vm_compute in Eu; injection Eu as <-; reflexivity).
  assert (UG : forallb (fun x => r_gsn x <=? 142) (u_got u) = true) by (vm_compute in Eu; injection Eu as <-; vm_compute; reflexivity).
  split. { split; [vm_compute; reflexivity|]. split; [intros g H; cbn in H; in_list H|].
           eexists. split; [vm_compute; reflexivity|]. split; reflexivity. }
  split; [vm_compute; reflexivity|].
  assert (NT : forallb (fun l => match l with AtStore (YTimeout _) | AtApi (YTimeout _) => false | _ => true end) ex_stall = true)
    by (vm_compute; reflexivity).
  rewrite forallb_forall in NT.
  split; [intros t H; specialize (NT _ H); discriminate NT|]. split; [intros t H; specialize (NT _ H); discriminate NT|].
  split; [vm_compute; reflexivity|]. split; [vm_compute; reflexivity|]. split; [vm_compute; reflexivity|].
  split; [vm_compute; reflexivity|]. split; [vm_compute; reflexivity|].
  split. { apply full_api. vm_compute. reflexivity. }
  split. { apply full_store. vm_compute. reflexivity. }
  split; [vm_compute; reflexivity|].
  assert (UD : forallb (fun l => match l with YTimeout t => negb (Nat.eqb (t_id t) 2) | YFetch j (Some _) => false | _ => true end)
                 (api_steps (ex_stall ++ ex_drop)) = true) by (vm_compute; reflexivity).
  rewrite forallb_forall in UD.
  split. { intros l Hl. specialize (UD l Hl). destruct l; auto.
           - apply negb_true_iff, Nat.eqb_neq in UD. exact UD.
           - destruct fail; [discriminate UD|exact I]. }
  split; [exact Eu|]. split; [exact LV|]. split; [exact US|]. split; [exact UB|].
  split. { assert (L : existsb (fun x => r_gsn x =? 144) (l_recs (y_log (w_store ex_after))) = true) by (vm_compute; reflexivity).
           apply existsb_exists in L as (x & L1 & L2).
           assert (F : forallb (fun x => implb (r_gsn x =? 144) (String.eqb (r_atype x) "A")) (l_recs (y_log (w_store ex_after))) = true) by (vm_compute; reflexivity).
           assert (LL : last (l_recs (y_log (w_store ex_after))) (ex_rec 0 "") = ex_rec 144 "A") by (vm_compute; reflexivity).
           rewrite <- LL. apply last_in. vm_compute. discriminate. }
  split; [reflexivity|]. intros ls w' u' R Hu'.
  assert (B : forall x, In x (u_got u') -> r_gsn x <= 142).
  { intros x Hx. destruct (C80_cut_off _ _ _ _ _ _ _ CO R Eu LV Hu' x Hx) as [K|[K|[K|[ts K]]]].
    - rewrite forallb_forall in UG. now apply N.leb_le, UG.
    - rewrite UB in K. destruct K.
    - vm_compute in K. destruct K.
    - vm_compute in K. discriminate K. }
  split; auto. intros H. apply B in H. cbn in H. lia.
Qed.
Print Assumptions C80_slow_clients_refuted.

(** A type named twice is sent twice (as in C20). *)
Theorem C80_repeated_type_refuted : exists qs y0 ls w u,
  ws_request "/events/A,A" "" = Subscribed qs 0
  /\ opened leveldb_mode [] (ex_fresh ++ [YCommit [ex_rec 1 "A"]; YAccept 0; YTake; YSend (TAll 0)]) y0
  /\ ws_run leveldb_mode (ws_new y0 [qs]) ls = Some w
  /\ nth_error (y_subs (w_api w)) 0 = Some u /\ record_numbers (u_got u) = [1; 1].
Proof.
  exists [Some "A"; Some "A"]. eexists.
  exists (map AtApi [YStartFrom 0 0; YFetch 0 None; YFetch 0 None; YFetch 0 None; YDeliver 0 true; YDeliver 0 true]).
  eexists. eexists. split; [reflexivity|]. split.
  { split; [vm_compute; reflexivity|]. split; [intros g H; cbn in H; in_list H|].
    eexists. split; [vm_compute; reflexivity|]. split; reflexivity. }
  split; [vm_compute; reflexivity|]. split; reflexivity.
Qed.
Print Assumptions C80_repeated_type_refuted.

(** * C81 *)

(** A request for types whose names are of letters and hyphens subscribes to exactly
    those types, from the number given, 0 if none is. *)
Theorem C81_types_partial : forall raw ts param g,
  path_is raw ("/events/" ++ join "," ts)%string -> ts <> [] -> Forall only_letters ts -> join "," ts <> ""%string ->
  asks_from param g -> ws_request raw param = Subscribed (map Some ts) g.
Proof. exact ws_types. Qed.
Print Assumptions C81_types_partial.

(** /events subscribes to all events. *)
Theorem C81_all_events : forall raw param g,
  path_is raw "/events" -> asks_from param g -> ws_request raw param = Subscribed [None] g.
Proof. intros raw param g P A. rewrite (ws_all raw param P). unfold subscribe_request. apply start_reads in A. now rewrite A. Qed.
Print Assumptions C81_all_events.

(** A parameter that is not the numeral of a 64-bit number is refused, on both. *)
Theorem C81_bad_numbers : forall raw param,
  (path_is raw "/events" \/ exists ts, path_is raw ("/events/" ++ join "," ts)%string /\ ts <> [] /\ Forall only_letters ts /\ join "," ts <> ""%string) ->
  (forall g, ~ asks_from param g) -> ws_request raw param = BadRequest.
Proof.
  intros raw param [P|(ts & P & H1 & H2 & H3)] A.
  - rewrite (ws_all raw param P). unfold subscribe_request. destruct (start_number param) as [g|] eqn:E; [|reflexivity].
    apply start_reads in E. now apply A in E.
  - now apply (ws_types_bad raw ts).
Qed.
Print Assumptions C81_bad_numbers.

(** Nothing else subscribes to anything: what a request is subscribed to is what its path
    says, from the number its parameter says. *)
Theorem C81_nothing_else : forall raw param qs g, ws_request raw param = Subscribed qs g ->
  asks_from param g
  /\ (qs = [None] /\ path_is raw "/events"
      \/ exists ts, qs = map Some ts /\ Forall only_letters ts /\ path_is raw ("/events/" ++ join "," ts)%string).
Proof. exact ws_reached. Qed.
Print Assumptions C81_nothing_else.

(** So a type whose name has any other character — a digit, an underscore, a letter
    outside ASCII — cannot be subscribed to, whatever the request. *)
Theorem C81_other_types_refuted : forall raw param qs g t,
  ~ only_letters t -> ws_request raw param = Subscribed qs g -> ~ In (Some t) qs.
Proof.
  intros raw param qs g t N H I. destruct (ws_reached _ _ _ _ H) as (_ & [[-> _]|(ts & -> & F & _)]).
  - destruct I as [I|[]]. discriminate I.
  - apply in_map_iff in I as (t' & E & I). injection E as ->. rewrite Forall_forall in F. auto.
Qed.
Print Assumptions C81_other_types_refuted.

Example C81_witness :
  ws_request "/events/order,order-line" "17" = Subscribed [Some "order"; Some "order-line"] 17
  /\ ws_request "/events/order%2Corder-line" "" = Subscribed [Some "order"; Some "order-line"] 0
  /\ ws_request "/events" "18446744073709551615" = Subscribed [None] 18446744073709551615
  /\ ws_request "/events" "18446744073709551616" = BadRequest
  /\ ws_request "/events/order" "-1" = BadRequest
  /\ ws_request "/events/order2" "" = NotThere
  /\ ws_request "/events/" "" = Elsewhere.
Proof. repeat (split; [vm_compute; reflexivity|]). vm_compute. reflexivity. Qed.
Example C81_inhabited :
  path_is "/events/order%2Corder-line" ("/events/" ++ join "," ["order"; "order-line"])%string
  /\ Forall only_letters ["order"; "order-line"] /\ asks_from "17" 17 /\ asks_from "" 0 /\ (forall g, ~ asks_from "-1" g)
  /\ ~ only_letters "order2".
Proof.
  split; [apply unescape_spelled; reflexivity|]. split; [repeat (constructor; [cbn; repeat (split; [unfold plain_letter; cbn; lia|]); exact Logic.I|]); constructor|].
  split; [right; split; [discriminate|]; split; [cbn; lia|split; reflexivity]|]. split; [left; auto|].
  split; [intros g [[K _]|(_ & K & _)]; [discriminate|cbn in K; lia]|].
  intros (_ & _ & _ & _ & _ & K & _). unfold plain_letter in K. cbn in K. lia.
Qed.
