(** Property theorems about what subscribers get at all (C85) and about the live pages of
    the web UI (C86-C88). *)
From Coq Require Import PeanoNat.
From Verif Require Import Base LogSpec Core CoreSpec CoreProofs LogProofs Properties_Core Subscription SubscriptionSpec
  SubscriptionProofs SubscriptionCover SubscriptionRun Properties_Subscription SubscriptionOnly Stats StatsSpec StatsProofs
  Ui UiSpec UiProofs UiTypeProofs.
Open Scope string_scope.
Open Scope N_scope.
Open Scope list_scope.

(** * C85: a subscriber is handed only what it asked for *)

(** In every schedule of any store, any number of subscribers and any failures. *)
Theorem C85_only_what_was_asked : forall m subs ls y i qs cap u r,
  yrun m (sys_init subs) ls = Some y -> nth_error subs i = Some (qs, cap) ->
  nth_error (y_subs y) i = Some u -> In r (u_got u) ->
  In r (saved_by ls) /\ asked qs r.
Proof. intros m subs ls y i qs cap u r R Hs Hi Hr. split; [eapply got_saved; eauto|eapply got_asked; eauto]. Qed.
Print Assumptions C85_only_what_was_asked.

(** Two subscribers, one of them to two types, among records of three. *)
Example C85_witness :
  map (fun u => record_numbers (u_got u))
    (subs_of (yrun inmemory_mode (sys_init [ab_sub; all_sub]) (ex_start_ab ++ ex_live_ab))) = [[1; 5]; []]
  /\ record_numbers (saved_by (ex_start_ab ++ ex_live_ab)) = [1; 2; 5].
Proof. split; reflexivity. Qed.

(** * C86: the live page of all types comes to show the statistics *)

(** Whatever the projection was handed and however the handler was interleaved with
    it: when the handler has nothing to do (it sleeps, and no number above the one it
    has seen is reported), its last message shows exactly the records handed so far. *)
Theorem C86_at_rest_it_is_right : forall ls d p,
  watch ls = Some (d, p) -> gsn_increasing (accepted ls) -> (forall r, In r (accepted ls) -> 0 < r_gsn r) ->
  p_place p = WSleep -> latest_number d <= p_seen p ->
  (accepted ls = [] /\ p_sent p = [])
  \/ exists ms o, p_sent p = ms ++ [o] /\ tells_of o (accepted ls).
Proof. intros ls d p H I P W L. eapply rest_ok; eauto. split; auto. Qed.
Print Assumptions C86_at_rest_it_is_right.

(** And it comes to rest: from any moment on, if nothing more is handed to the
    projection and the browser takes its messages, after at most twice the number of
    types plus ten calls. *)
Theorem C86_comes_to_rest : forall ls d p n,
  watch ls = Some (d, p) -> gsn_increasing (accepted ls) -> (forall r, In r (accepted ls) -> 0 < r_gsn r) ->
  p_place p <> WEnd -> (2 * length (sorted_types d) + 10 <= n)%nat ->
  exists p', watch (ls ++ repeat (MPage true) n) = Some (d, p')
  /\ p_place p' = WSleep
  /\ ((accepted ls = [] /\ p_sent p' = [])
      \/ exists ms o, p_sent p' = ms ++ [o] /\ tells_of o (accepted ls)).
Proof.
  intros ls d p n H I P W L. exists (pages d n p). pose proof (watch_pages n _ _ _ H) as H'.
  destruct (pages_cost n d p W) as [C N]. pose proof (cost_bound _ _ _ H) as B.
  destruct (cost_zero d _ N) as [Z1 Z2]; [lia|]. split; auto. split; auto.
  assert (E : accepted (ls ++ repeat (MPage true) n) = accepted ls) by (now rewrite accepted_app, accepted_pages, app_nil_r).
  rewrite <- E. eapply rest_ok; eauto. rewrite E. split; auto.
Qed.
Print Assumptions C86_comes_to_rest.

(** Numbers shown never decrease, and none is ahead of the statistics. *)
Theorem C86_never_less : forall ls d p i j o o', watch ls = Some (d, p) ->
  nth_error (p_sent p) i = Some o -> nth_error (p_sent p) j = Some o' -> (i < j)%nat -> at_least o o'.
Proof.
  intros ls d p i j o o' H Hi Hj L. destruct (watch_ok _ _ _ H) as (lo & [T B S W]).
  assert (C : chain (accepted ls) (length (accepted ls)) (p_sent p)).
  { unfold at_place in W. destruct (p_place p); try (destruct W as [W _]); try (eapply chain_later; eauto; fail).
    - destruct W as [[-> _]|(ms & x & -> & C & Bt)]; [constructor|].
      apply ch_snoc with (b' := lo) (lo := lo) (hi := length (accepted ls)); auto; lia.
    - destruct W as [[-> _]|(ms & x & -> & C & Bt)]; [constructor|].
      apply ch_snoc with (b' := lo) (lo := lo) (hi := length (accepted ls)); auto; lia. }
  eapply chain_order; eauto.
Qed.
Print Assumptions C86_never_less.

Theorem C86_never_ahead : forall ls d p o, watch ls = Some (d, p) -> In o (p_sent p) ->
  o_total o <= how_many (accepted ls)
  /\ forall t n, In (t, n) (o_types o) -> (exists r, In r (accepted ls) /\ r_atype r = t) /\ n <= how_many (of_type t (accepted ls)).
Proof.
  intros ls d p o H Ho. destruct (sent_between _ _ _ H _ Ho) as (lo & hi & B & _ & (k & K & T) & C & k' & K' & ->).
  assert (E : accepted ls = firstn (length (accepted ls)) (accepted ls)) by (now rewrite firstn_all).
  split; [rewrite E at 2; apply total_le; lia|]. intros t n Hn. split.
  - destruct (proj1 (T t)) as (r & Hr & Er); [eapply in_fst; eauto|]. exists r. split; auto. eapply In_firstn; eauto.
  - destruct (C t n Hn) as (k2 & K2 & ->). rewrite E at 2. apply count_le. lia.
Qed.
Print Assumptions C86_never_ahead.

(** Each number of a message was true at some moment between the record it had seen
    when it began and the one it had when it was written. *)
Theorem C86_true_at_some_moment : forall ls d p o, watch ls = Some (d, p) -> In o (p_sent p) ->
  exists lo hi, (lo <= hi <= length (accepted ls))%nat /\ true_between (accepted ls) lo hi o.
Proof. intros ls d p o H Ho. destruct (sent_between _ _ _ H _ Ho) as (lo & hi & B & _ & T). eauto. Qed.
Print Assumptions C86_true_at_some_moment.

(** Three records, two messages; a fourth arrives while the second is put together. *)
Definition ex_watch : list moment :=
  [MPage true; MAccept (ex_rec 1 "B"); MPage true; MPage true; MPage true; MPage true; MPage true; MPage true; MPage true;
   MAccept (ex_rec 2 "A"); MAccept (ex_rec 4 "B"); MPage true; MPage true; MPage true; MPage true; MAccept (ex_rec 5 "A");
   MPage true; MPage true; MPage true; MPage true].
Example C86_witness : exists d p, watch ex_watch = Some (d, p)
  /\ gsn_increasing (accepted ex_watch) /\ (forall r, In r (accepted ex_watch) -> 0 < r_gsn r)
  /\ p_sent p = [mk_overview [("B", 1)] 1; mk_overview [("A", 1); ("B", 2)] 4] /\ p_place p <> WEnd
  /\ exists p', watch (ex_watch ++ repeat (MPage true) 14) = Some (d, p')
      /\ p_sent p' = p_sent p ++ [mk_overview [("A", 2); ("B", 2)] 4]
      /\ p_place p' = WSleep /\ latest_number d <= p_seen p'.
Proof.
  eexists. eexists. split; [vm_compute; reflexivity|]. split.
  { repeat (apply incr_cons; [|cbn; intros b Hb; repeat (destruct Hb as [<-|Hb]; [cbn; lia|]); destruct Hb]). apply incr_nil. }
  split. { intros r Hr. cbn in Hr. repeat (destruct Hr as [<-|Hr]; [reflexivity|]). destruct Hr. }
  split; [reflexivity|]. split; [discriminate|]. eexists. split; [vm_compute; reflexivity|].
  split; [reflexivity|]. split; [reflexivity|]. vm_compute. discriminate.
Qed.

(** The whole way: when the projection's subscription is live and nothing is on its
    way, and the page is at rest, the page shows the store. *)
Theorem C86_shows_the_store : forall m subs ls1 ls2 i cap y1 y u ls d p,
  yrun m (sys_init subs) ls1 = Some y1 ->
  yrun m (sys_init subs) (ls1 ++ YStartFrom i 0 :: ls2) = Some y ->
  m_locked m = true \/ in_turn (ls1 ++ YStartFrom i 0 :: ls2) ->
  undisturbed i (ls1 ++ YStartFrom i 0 :: ls2) -> no_deletion (ls1 ++ YStartFrom i 0 :: ls2) ->
  nth_error subs i = Some ([None], cap) -> l_last (y_log y) < max64 ->
  nth_error (y_subs y) i = Some u -> u_phase u = PLive -> quiet y u ->
  watch ls = Some (d, p) -> accepted ls = u_got u -> p_place p = WSleep -> latest_number d <= p_seen p ->
  (l_recs (y_log y) = [] /\ p_sent p = [])
  \/ exists ms o, p_sent p = ms ++ [o] /\ tells_of o (l_recs (y_log y)).
Proof.
  intros m subs ls1 ls2 i cap y1 y u ls d p R1 R O UD ND Hs LM Hi P Q W E PL LA.
  pose proof (restart_gets m subs ls1 ls2 i _ 0 y1 y u 0%nat R1 R O UD ND Hs LM Hi P Q (or_introl (conj eq_refl eq_refl))) as X.
  cbn [firstn app] in X. rewrite X, <- E.
  eapply rest_ok; eauto. split; rewrite E, <- X.
  - apply (yrun_log _ _ _ _ R (log_sorted_init subs)).
  - apply (log_positive m _ _ _ R (fun r H => match H with end)).
Qed.
Print Assumptions C86_shows_the_store.

Definition ex_shown : list label :=
  [YFetch 0 None; YFetch 0 None; YSubscribe 0; YSubscribe 0; YFetch 0 None; YFetch 0 None;
   YCommit [ex_rec 1 "B"; ex_rec 2 "A"]; YAccept 0; YAccept 0; YTake; YSend (TAll 0); YWork 0 true; YTake; YSend (TAll 0); YWork 0 true].
Definition ex_shown_page : list moment :=
  [MAccept (ex_rec 1 "B"); MPage true; MAccept (ex_rec 2 "A")] ++ repeat (MPage true) 8.
Example C86_shown_witness : exists y u d p,
  yrun leveldb_mode (sys_init [stats_sub]) (YStartFrom 0 0 :: ex_shown) = Some y
  /\ undisturbed 0 (YStartFrom 0 0 :: ex_shown) /\ no_deletion (YStartFrom 0 0 :: ex_shown)
  /\ nth_error (y_subs y) 0 = Some u /\ u_phase u = PLive /\ quiet y u
  /\ watch ex_shown_page = Some (d, p) /\ accepted ex_shown_page = u_got u /\ p_place p = WSleep /\ latest_number d <= p_seen p
  /\ p_sent p = [mk_overview [("A", 1); ("B", 1)] 2].
Proof.
  eexists. eexists. eexists. eexists. split; [vm_compute; reflexivity|]. split.
  { intros l Hl. cbn in Hl. repeat (destruct Hl as [<-|Hl]; [exact Logic.I|]). destruct Hl. }
  split. { intros s Hs. cbn in Hs. repeat (destruct Hs as [Hs|Hs]; [discriminate|]). destruct Hs. }
  split; [vm_compute; reflexivity|]. split; [reflexivity|]. split; [repeat split|]. split; [vm_compute; reflexivity|].
  split; [reflexivity|]. split; [reflexivity|]. split; [vm_compute; discriminate|reflexivity].
Qed.

(** * C87: one message of that page is consistent; a page nobody watches ends *)

(** Both false.  A record that arrives between two of its reads is counted in the
    total and not for its type. *)
Theorem C87_adds_up_refuted : exists ls d p o, watch ls = Some (d, p)
  /\ gsn_increasing (accepted ls) /\ In o (p_sent p) /\ ~ adds_up o.
Proof.
  exists ex_watch. eexists. eexists. exists (mk_overview [("A", 1); ("B", 2)] 4). split; [vm_compute; reflexivity|]. split.
  { repeat (apply incr_cons; [|cbn; intros b Hb; repeat (destruct Hb as [<-|Hb]; [cbn; lia|]); destruct Hb]). apply incr_nil. }
  split; [right; now left|]. unfold adds_up. cbn. lia.
Qed.
Print Assumptions C87_adds_up_refuted.

(** The numbers of a message do add up if nothing arrived while it was put together:
    in particular those of the last message at rest. *)
Theorem C87_adds_up_partial : forall o rs, tells_of o rs -> adds_up o.
Proof. exact tells_adds_up. Qed.
Print Assumptions C87_adds_up_partial.
Example C87_witness : tells_of (mk_overview [("A", 2); ("B", 1)] 3) [ex_rec 1 "A"; ex_rec 2 "B"; ex_rec 3 "A"].
Proof.
  split; [repeat constructor; cbn; intuition discriminate|]. split; [|reflexivity]. intros t n. cbn [o_types In]. split.
  - intros [[= <- <-]|[[= <- <-]|[]]]; (split; [|reflexivity]).
    + exists (ex_rec 1 "A"). split; [now left|reflexivity].
    + exists (ex_rec 2 "B"). split; [right; now left|reflexivity].
  - intros [(r & [<-|[<-|[<-|[]]]] & <-) ->]; cbn; auto.
Qed.

(** A handler at rest whose browser has gone never finds out, however often it wakes up,
    as long as no event comes: whatever writes would answer, it makes none. *)
Theorem C87_abandoned_page_refuted : forall ls d p oks, watch ls = Some (d, p) ->
  p_place p = WSleep -> latest_number d <= p_seen p ->
  watch (ls ++ map MPage oks) = Some (d, p).
Proof.
  intros ls d p oks H W L. induction oks as [|ok oks IH] using rev_ind; [now rewrite app_nil_r|].
  rewrite map_app, app_assoc. cbn [map]. rewrite watch_snoc, IH. cbn. unfold page_step. rewrite W.
  destruct (N.leb_spec (latest_number d) (p_seen p)); [reflexivity|lia].
Qed.
Print Assumptions C87_abandoned_page_refuted.
Example C87_abandoned_witness : exists d p, watch ex_shown_page = Some (d, p) /\ p_place p = WSleep /\ latest_number d <= p_seen p.
Proof. eexists. eexists. split; [vm_compute; reflexivity|]. split; [reflexivity|]. vm_compute; discriminate. Qed.

(** * C88: the live page of one type numbers its events *)

(** The page is opened at [y1], when the projection (subscriber [i], started from the
    beginning) has handled [u_got u1]; its own subscription is [j].  If the event the
    projection handled last is not of the type, then at every later moment of every
    schedule each message carries as total the number of events of the type in the store
    up to its event.  Hypotheses: the two reads of the projection see the same state,
    reads of the store do not fail, saves hand over in order, nothing is deleted. *)
Theorem C88_counts_partial : forall m subs ls0 lsa lsb lsc i j t cap y1 u1 d g n y w,
  yrun m (sys_init subs) (ls0 ++ YStartFrom i 0 :: lsa) = Some y1 ->
  nth_error (y_subs y1) i = Some u1 -> accept_all new_stats (u_got u1) = Some d ->
  page_start d d t = (g, n) ->
  ~ (exists r, In r (u_got u1) /\ r_gsn r = g /\ r_atype r = t) ->
  yrun m (sys_init subs) ((ls0 ++ YStartFrom i 0 :: lsa) ++ lsb ++ YStartFrom j g :: lsc) = Some y ->
  m_locked m = true \/ in_turn ((ls0 ++ YStartFrom i 0 :: lsa) ++ lsb ++ YStartFrom j g :: lsc) ->
  no_deletion ((ls0 ++ YStartFrom i 0 :: lsa) ++ lsb ++ YStartFrom j g :: lsc) ->
  (forall k, ~ In (YFetch i (Some k)) lsa) -> (forall k, ~ In (YFetch j (Some k)) lsc) ->
  nth_error subs i = Some ([None], cap) -> nth_error subs j = Some (page_sub t) -> l_last (y_log y) < max64 ->
  nth_error (y_subs y) j = Some w ->
  forall e, In e (envelopes n (u_got w)) ->
  e_total e = how_many (of_type_until t (r_gsn (e_record e)) (l_recs (y_log y))).
Proof.
  intros m subs ls0 lsa lsb lsc i j t cap y1 u1 d g n y w R1 Hi A [= <- <-] NL R O ND RF1 RF2 Hs1 Hs2 LM Hw e He.
  apply In_nth_error in He as [k He].
  rewrite (page_counts m subs ls0 lsa lsb lsc i j t cap _ y1 u1 d y w R1 Hi A R O ND RF1 RF2 Hs1 Hs2 LM Hw k e He).
  rewrite (page_first_none m subs ls0 lsa lsb lsc i j t cap _ y1 u1 d y w R1 Hi A R O ND RF1 RF2 Hs1 Hs2 LM Hw NL). cbn. lia.
Qed.
Print Assumptions C88_counts_partial.

(** Whenever the event handled last is of the type — the page was opened after it and
    shows it already — it is sent again as if new, and every total is one too many. *)
Theorem C88_counts_refuted : forall m subs ls0 lsa lsb lsc i j t cap y1 u1 d g n y w r,
  yrun m (sys_init subs) (ls0 ++ YStartFrom i 0 :: lsa) = Some y1 ->
  nth_error (y_subs y1) i = Some u1 -> accept_all new_stats (u_got u1) = Some d ->
  page_start d d t = (g, n) ->
  In r (u_got u1) -> r_gsn r = g -> r_atype r = t ->
  yrun m (sys_init subs) ((ls0 ++ YStartFrom i 0 :: lsa) ++ lsb ++ YStartFrom j g :: lsc) = Some y ->
  m_locked m = true \/ in_turn ((ls0 ++ YStartFrom i 0 :: lsa) ++ lsb ++ YStartFrom j g :: lsc) ->
  no_deletion ((ls0 ++ YStartFrom i 0 :: lsa) ++ lsb ++ YStartFrom j g :: lsc) ->
  (forall k, ~ In (YFetch i (Some k)) lsa) -> (forall k, ~ In (YFetch j (Some k)) lsc) ->
  nth_error subs i = Some ([None], cap) -> nth_error subs j = Some (page_sub t) -> l_last (y_log y) < max64 ->
  nth_error (y_subs y) j = Some w -> u_got w <> [] ->
  hd_error (envelopes n (u_got w)) = Some (mk_envelope r (n + 1))
  /\ forall e, In e (envelopes n (u_got w)) ->
       e_total e = how_many (of_type_until t (r_gsn (e_record e)) (l_recs (y_log y))) + 1.
Proof.
  intros m subs ls0 lsa lsb lsc i j t cap y1 u1 d g n y w r R1 Hi A [= <- <-] Hr Eg Et R O ND RF1 RF2 Hs1 Hs2 LM Hw NE.
  destruct (page_first m subs ls0 lsa lsb lsc i j t cap _ y1 u1 d y w R1 Hi A R O ND RF1 RF2 Hs1 Hs2 LM Hw r Hr Eg Et NE) as [H1 H2].
  split.
  - destruct (u_got w) as [|x xs]; [congruence|]. injection H1 as ->. reflexivity.
  - intros e He. apply In_nth_error in He as [k He].
    rewrite (page_counts m subs ls0 lsa lsb lsc i j t cap _ y1 u1 d y w R1 Hi A R O ND RF1 RF2 Hs1 Hs2 LM Hw k e He).
    now rewrite H2.
Qed.
Print Assumptions C88_counts_refuted.

(** The projection has handled 1 ("A") and 2 ("B"); 3 ("A") is saved before the page for
    "A" subscribes, 4 and 5 afterwards. *)
Definition ex_page_before : list label :=
  [YFetch 0 None; YFetch 0 None; YSubscribe 0; YSubscribe 0; YFetch 0 None; YFetch 0 None;
   YCommit [ex_rec 1 "A"; ex_rec 2 "B"]; YAccept 0; YAccept 0; YTake; YSend (TAll 0); YWork 0 true; YTake; YSend (TAll 0); YWork 0 true].
Definition ex_page_between : list label := [YCommit [ex_rec 3 "A"]; YAccept 0; YTake; YSend (TAll 0)].
Definition ex_page_after : list label :=
  [YFetch 1 None; YFetch 1 None; YDeliver 1 true; YSubscribe 1; YSubscribe 1; YFetch 1 None; YFetch 1 None;
   YCommit [ex_rec 4 "B"; ex_rec 5 "A"]; YAccept 0; YAccept 0; YTake; YSend (TAll 0); YTake; YSend (TAll 0); YSend (TType 1);
   YWork 1 true].
Example C88_witness : exists y1 u1 d y w,
  yrun leveldb_mode (sys_init [stats_sub; page_sub "A"]) (YStartFrom 0 0 :: ex_page_before) = Some y1
  /\ nth_error (y_subs y1) 0 = Some u1 /\ accept_all new_stats (u_got u1) = Some d
  /\ page_start d d "A" = (2, 1)
  /\ ~ (exists r, In r (u_got u1) /\ r_gsn r = 2 /\ r_atype r = "A")
  /\ yrun leveldb_mode (sys_init [stats_sub; page_sub "A"])
        ((YStartFrom 0 0 :: ex_page_before) ++ ex_page_between ++ YStartFrom 1 2 :: ex_page_after) = Some y
  /\ no_deletion ((YStartFrom 0 0 :: ex_page_before) ++ ex_page_between ++ YStartFrom 1 2 :: ex_page_after)
  /\ (forall k, ~ In (YFetch 0 (Some k)) ex_page_before) /\ (forall k, ~ In (YFetch 1 (Some k)) ex_page_after)
  /\ nth_error (y_subs y) 1 = Some w
  /\ map (fun e => (r_gsn (e_record e), e_total e)) (envelopes 1 (u_got w)) = [(3, 2); (5, 3)].
Proof.
  eexists. eexists. eexists. eexists. eexists. split; [vm_compute; reflexivity|]. split; [vm_compute; reflexivity|].
  split; [vm_compute; reflexivity|]. split; [reflexivity|]. split.
  { intros (r & [<-|[<-|[]]] & E1 & E2); discriminate. }
  split; [vm_compute; reflexivity|].
  split. { intros s Hs. cbn in Hs. repeat (destruct Hs as [Hs|Hs]; [discriminate|]). destruct Hs. }
  split. { intros k Hk. repeat (destruct Hk as [Hk|Hk]; [discriminate Hk|]). destruct Hk. }
  split. { intros k Hk. repeat (destruct Hk as [Hk|Hk]; [discriminate Hk|]). destruct Hk. }
  split; [vm_compute; reflexivity|]. reflexivity.
Qed.

(** The same page for "B", whose event 2 was handled last: it is sent again, as the
    second of one. *)
Example C88_refuted_witness : exists y1 u1 d y w,
  yrun leveldb_mode (sys_init [stats_sub; page_sub "B"]) (YStartFrom 0 0 :: ex_page_before) = Some y1
  /\ nth_error (y_subs y1) 0 = Some u1 /\ accept_all new_stats (u_got u1) = Some d
  /\ page_start d d "B" = (2, 1) /\ In (ex_rec 2 "B") (u_got u1)
  /\ yrun leveldb_mode (sys_init [stats_sub; page_sub "B"])
        ((YStartFrom 0 0 :: ex_page_before) ++ [] ++ YStartFrom 1 2 :: firstn 3 ex_page_after) = Some y
  /\ nth_error (y_subs y) 1 = Some w
  /\ envelopes 1 (u_got w) = [mk_envelope (ex_rec 2 "B") 2]
  /\ how_many (of_type_until "B" 2 (l_recs (y_log y))) = 1.
Proof.
  eexists. eexists. eexists. eexists. eexists. split; [vm_compute; reflexivity|]. split; [vm_compute; reflexivity|].
  split; [vm_compute; reflexivity|]. split; [reflexivity|]. split; [right; now left|].
  split; [vm_compute; reflexivity|]. split; [vm_compute; reflexivity|]. split; reflexivity.
Qed.

(** And if an event of the type is handled between the two reads, totals are one too
    many as well, although the event handled last was not of the type. *)
Theorem C88_two_reads_refuted : exists y1 u1 d1 d2 g n y w e,
  yrun leveldb_mode (sys_init [stats_sub; page_sub "A"]) (YStartFrom 0 0 :: ex_page_before) = Some y1
  /\ nth_error (y_subs y1) 0 = Some u1 /\ accept_all new_stats (u_got u1) = Some d1
  /\ accept d1 (ex_rec 3 "A") = Some d2
  /\ page_start d1 d2 "A" = (g, n)
  /\ yrun leveldb_mode (sys_init [stats_sub; page_sub "A"])
        ((YStartFrom 0 0 :: ex_page_before) ++ (ex_page_between ++ [YWork 0 true]) ++ YStartFrom 1 g :: ex_page_after) = Some y
  /\ nth_error (y_subs y) 1 = Some w /\ In e (envelopes n (u_got w))
  /\ e_total e <> how_many (of_type_until "A" (r_gsn (e_record e)) (l_recs (y_log y))).
Proof.
  eexists. eexists. eexists. eexists. exists 2, 2. eexists. eexists. exists (mk_envelope (ex_rec 3 "A") 3).
  split; [vm_compute; reflexivity|]. split; [vm_compute; reflexivity|]. split; [vm_compute; reflexivity|].
  split; [vm_compute; reflexivity|]. split; [reflexivity|]. split; [vm_compute; reflexivity|].
  split; [vm_compute; reflexivity|]. split; [now left|]. vm_compute. discriminate.
Qed.
Print Assumptions C88_two_reads_refuted.
