From Coq Require Import Sorted PeanoNat.
From Verif Require Import Base Locks LocksSpec Postgres PostgresSpec StoreSpec EventStore EventStoreSpec BroadcasterProofs LocksProofs EventStoreProofs EventStoreMore.

Section Facts.
Variable j : jlib.
Variable prefix : option string.
Variable recdel : bool.
Notation sname := (server_name prefix).
Notation run := (xrun j prefix recdel).
Notation step := (xstep j prefix recdel).
Notation good := (good j prefix).
Notation ours := (ours j prefix).
Notation seen := (seen j prefix).

Lemma ours_start : ours es_start.
Proof. intros e []. Qed.

(** ** Asking *)
Lemma asked_read k o x : asked j prefix recdel k o x ->
  match o with
  | OpEvents g => x = OutResults (read_all j prefix recdel (x_log k) (x_del k) g)
  | OpByTypes g ts => x = OutResults (read_types j prefix recdel (x_log k) (x_del k) g ts)
  | OpByStream n s => x = OutResults (read_stream j prefix (x_log k) (x_tomb k) s n)
  | OpTotal s cn => x = if done_at cn 0 then OutFailed ECanceled else OutTotal (total_of (read_stream j prefix (x_log k) (x_tomb k) s 0))
  | _ => True
  end.
Proof.
  intros (k' & H & Eh). cbn [xrun xstep] in H. cbn [x_calls] in H. rewrite nth_error_app2, Nat.sub_diag in H by auto. cbn [nth_error es_op es_pc] in H.
  destruct o; auto; cbn [es_step x_log x_tomb x_del] in H; injection H as <-; cbn [xreply x_hist] in Eh;
    rewrite <- app_assoc in Eh; cbn in Eh; apply app_inv_head in Eh; injection Eh as <-; reflexivity.
Qed.

Lemma asked_results k o l : asked j prefix recdel k o (OutResults l) -> match o with OpSave _ _ _ _ | OpDelete _ _ _ | OpTotal _ _ => False | _ => True end.
Proof.
  intros Ha. pose proof (asked_read _ _ _ Ha) as Hx. destruct o as [ex s evs cn|ex s cn| | | |s cn]; auto.
  - destruct Ha as (k' & H & Eh). cbn [xrun xstep] in H. cbn [x_calls] in H. rewrite nth_error_app2, Nat.sub_diag in H by auto. cbn [nth_error es_op es_pc] in H.
    destruct (es_step _ _ _ _ _ _ _ _) as [k1|] eqn:Es in H; [|discriminate]. injection H as <-. unfold es_step, after_check in Es.
    repeat match goal with H : context [match ?x with _ => _ end] |- _ => destruct x eqn:?; try discriminate end; injection Es as <-;
      cbn in Eh; try rewrite <- app_assoc in Eh; cbn in Eh; apply app_inv_head in Eh; discriminate.
  - destruct Ha as (k' & H & Eh). cbn [xrun xstep] in H. cbn [x_calls] in H. rewrite nth_error_app2, Nat.sub_diag in H by auto. cbn [nth_error es_op es_pc] in H.
    destruct (es_step _ _ _ _ _ _ _ _) as [k1|] eqn:Es in H; [|discriminate]. injection H as <-. unfold es_step in Es.
    repeat match goal with H : context [match ?x with _ => _ end] |- _ => destruct x eqn:?; try discriminate end; injection Es as <-;
      cbn in Eh; try rewrite <- app_assoc in Eh; cbn in Eh; apply app_inv_head in Eh; discriminate.
  - destruct (done_at cn 0); discriminate.
Qed.

(** ** Reading back *)
Lemma mine_nums k sn l1 mine l2 : good k -> x_log k = l1 ++ mine ++ l2 -> Forall (fun e => en_stream e = sn) mine ->
  map en_num mine = numbers_from (revisions sn l1) (length mine).
Proof.
  intros G E Hm. pose proof (i_num _ _ _ G sn) as Hn. rewrite E, !events_app, (events_same sn mine Hm) in Hn. rewrite !app_length, !map_app, !numbers_app in Hn.
  unfold revisions. remember (length (events_of sn l1)) as a. assert (La : length (map en_num (events_of sn l1)) = length (numbers_from 0 a)).
  { unfold numbers_from. rewrite !map_length, seq_length. auto. }
  assert (K : forall (p q r t : list N), length p = length q -> p ++ r = q ++ t -> r = t).
  { induction p as [|y p IH]; intros [|z q] r t Hl H; cbn in *; try discriminate; auto. injection H as _ H. eapply IH; [|exact H]; lia. }
  apply K in Hn; auto. assert (Lm : length (map en_num mine) = length (numbers_from (0 + N.of_nat a) (length mine))).
  { unfold numbers_from. rewrite !map_length, seq_length. auto. }
  assert (K' : forall (p q r t : list N), length p = length q -> p ++ r = q ++ t -> p = q).
  { induction p as [|y p IH]; intros [|z q] r t Hl H; cbn in *; try discriminate; auto. injection H as -> H. f_equal. eapply IH; [|exact H]; lia. }
  apply K' in Hn; auto.
Qed.

Lemma entry_seen s ev e : json_ok j -> entry_for j s ev e -> en_stream e = sname s -> user_type ev ->
  exists r, seen e = [r] /\ record_back j s ev r /\ r_ssn r = en_num e + 1 /\ r_gsn r = en_commit e.
Proof.
  intros J (Et & r & Er & R) Es Hu. unfold EventStoreMore.seen, skipped, internal. rewrite (sname_current _ _ _ Es), Et. unfold user_type in Hu. rewrite Hu. cbn [orb negb].
  unfold record_from. rewrite Er. destruct R as (R1 & R2 & R3 & R4 & R5 & R6 & R7 & R8). rewrite R6, (J _ _ R7). eexists. split; [reflexivity|].
  unfold record_back, record_for. cbn. repeat split; auto.
Qed.
Lemma entries_seen s evs mine : json_ok j -> Forall2 (entry_for j s) evs mine -> Forall (fun e => en_stream e = sname s) mine -> Forall user_type evs ->
  Forall2 (record_back j s) evs (flat_map seen mine) /\ map r_ssn (flat_map seen mine) = map (fun e => en_num e + 1) mine.
Proof.
  intros J. induction 1 as [|ev e evs mine H F IH]; intros Hs Hu; [split; [constructor|reflexivity]|]. inversion Hs; subst. inversion Hu; subst.
  destruct (entry_seen s ev e) as (r & E & R & En & _); auto. cbn [flat_map map]. rewrite E. destruct IH as [A B]; auto. cbn [app map]. rewrite En, B. split; [constructor; auto|reflexivity].
Qed.
Lemma filter_all {A} (f : A -> bool) l : (forall x, In x l -> f x = true) -> filter f l = l.
Proof. induction l as [|a l IH]; intros H; cbn; auto. rewrite (H a) by now left. f_equal. apply IH. intros; apply H; now right. Qed.
Lemma numbers_in x n len : In x (numbers_from n len) -> n <= x.
Proof. intros H. apply in_map_iff in H as (a & <- & _). lia. Qed.

Lemma read_back k i ex s evs cn n b m : json_ok j -> good k -> ours k ->
  In (Inv i (OpSave ex s evs cn)) (x_hist k) -> In (Ret i (OutSaved n b)) (x_hist k) -> Forall user_type evs -> memb (sname s) (x_tomb k) = false ->
  m + N.of_nat (length evs) <= n + 1 ->
  exists before mine after, read_stream j prefix (x_log k) (x_tomb k) s m = map RRec (before ++ mine ++ after)
    /\ Forall2 (record_back j s) evs mine /\ map r_ssn mine = numbers_from (n + 1 - N.of_nat (length evs)) (length evs).
Proof.
  intros J G O Hi Hr Hu Ht Hm. destruct (answer_saved _ _ _ _ _ _ _ G Hi Hr) as (ex' & s' & evs' & cn' & [= <- <- <- <-] & l1 & mine & l2 & El & Hs & HF & -> & _ & Hne).
  assert (Hl : length mine = length evs) by (clear -HF; induction HF; cbn; auto).
  pose proof (mine_nums _ _ _ _ _ G El Hs) as Hnum. destruct (entries_seen _ _ _ J HF Hs Hu) as [HB HN].
  assert (Hge : forall e, In e mine -> revisions (sname s) l1 <= en_num e).
  { intros e He. apply (in_map en_num) in He. rewrite Hnum in He. eapply numbers_in; exact He. }
  unfold read_stream. rewrite Ht. destruct (events_of (sname s) (x_log k)) as [|e0 es0] eqn:E0.
  { exfalso. rewrite El, !events_app, (events_same _ _ Hs) in E0. apply app_eq_nil in E0 as [_ E0]. apply app_eq_nil in E0 as [E0 _]. subst mine. destruct evs; [congruence|discriminate]. }
  rewrite <- E0. clear e0 es0 E0. rewrite loop_ours; auto.
  2:{ intros e He. apply filter_In in He as [He _]. apply filter_In in He as [He _]. auto. }
  2:{ intros e He. apply filter_In in He as [He _]. apply filter_In in He as [_ He]. now apply String.eqb_eq. }
  rewrite El, !events_app, (events_same _ _ Hs). rewrite !filter_app, !flat_map_app, !filter_app.
  assert (Ez : filter (fun e => zero_based m <=? en_num e) mine = mine).
  { apply filter_all. intros e He. apply N.leb_le. specialize (Hge e He). unfold zero_based. destruct (N.ltb_spec m 1); lia. }
  rewrite Ez.
  assert (Ef : filter (fun r => m <=? r_ssn r) (flat_map seen mine) = flat_map seen mine).
  { apply filter_all. intros r Hr'. apply N.leb_le. apply (in_map r_ssn) in Hr'. rewrite HN in Hr'. apply in_map_iff in Hr' as (e & Ee & He). specialize (Hge e He). lia. }
  rewrite Ef. set (A := filter _ (flat_map seen (filter _ (events_of _ l1)))). set (B := filter _ (flat_map seen (filter _ (events_of _ l2)))).
  exists A, (flat_map seen mine), B. split.
  - destruct (A ++ flat_map seen mine ++ B) eqn:E; [|cbn; now rewrite app_nil_r]. exfalso.
    apply app_eq_nil in E as [_ E]. apply app_eq_nil in E as [E _]. rewrite E in HB. inversion HB; subst; congruence.
  - split; auto. rewrite HN. replace (map (fun e => en_num e + 1) mine) with (map (fun x => x + 1) (map en_num mine)) by now rewrite map_map.
    rewrite Hnum, Hl. unfold numbers_from. rewrite map_map. apply map_ext. intros a. lia.
Qed.

(** ** Deleted streams are hidden while the process that deleted them runs *)
Definition noted (k : esconf) : Prop :=
  (forall i, In (Ret i OutDeleted) (x_hist k) -> exists c ex s cn, nth_error (x_calls k) i = Some c /\ es_op c = OpDelete ex s cn /\ memb (sname s) (x_del k) = true).
Lemma noted_step k lb k' : recdel = true -> lb <> XRestart -> noted k -> step k lb = Some k' -> noted k'.
Proof.
  intros Hr Hl W H.
  assert (K : forall k1, (forall i c, nth_error (x_calls k) i = Some c -> exists c', nth_error (x_calls k1) i = Some c' /\ es_op c' = es_op c) ->
     (forall sn, memb sn (x_del k) = true -> memb sn (x_del k1) = true) -> (forall i, In (Ret i OutDeleted) (x_hist k1) -> In (Ret i OutDeleted) (x_hist k)) -> noted k1).
  { intros k1 H1 H2 H3 i Hi. destruct (W i (H3 i Hi)) as (c & ex & s & cn & Hc & Ho & Hd). destruct (H1 i c Hc) as (c' & Hc' & Ho').
    exists c', ex, s, cn. repeat split; auto. congruence. }
  pose proof (fun i c => ops_keep j prefix recdel k lb k' i c H) as Hops.
  destruct lb as [o|i0 gaps|i0 n|i0 gaps| | |sn ty r gap|]; cbn [xstep] in H; try congruence.
  - injection H as <-. apply K; auto. intros i Hi. cbn in Hi. apply in_app_or in Hi as [Hi|[Hi|[]]]; [auto|discriminate].
  - destruct (nth_error (x_calls k) i0) as [c0|] eqn:H0; [|discriminate]. unfold es_step, after_check in H.
    repeat match goal with H : context [match ?x with _ => _ end] |- _ => destruct x eqn:?; try discriminate end; injection H as <-;
      try (apply K; auto; intros i Hi; cbn in Hi; apply in_app_or in Hi as [Hi|[Hi|[]]]; [auto|discriminate]); try (apply K; auto; fail).
    intros i Hi. cbn in Hi. apply in_app_or in Hi as [Hi|[Hi|[]]].
    + destruct (W i Hi) as (c & ex1 & s1 & cn1 & Hc & Ho & Hd). destruct (Hops i c Hc) as (c' & Hc' & Ho').
      exists c', ex1, s1, cn1. repeat split; auto; [congruence|]. cbn [xreply x_del add_del]. now apply memb_more.
    + injection Hi as <-. cbn. rewrite (nth_upd _ _ _ _ _ H0), Nat.eqb_refl. eexists _, _, _, _. split; [reflexivity|]. split; [reflexivity|]. now rewrite String.eqb_refl.
  - destruct (nth_error (x_calls k) i0) as [c0|] eqn:H0; [|discriminate]. unfold es_fail, after_check in H.
    repeat match goal with H : context [match ?x with _ => _ end] |- _ => destruct x eqn:?; try discriminate end; injection H as <-;
      try (apply K; auto; intros i Hi; cbn in Hi; apply in_app_or in Hi as [Hi|[Hi|[]]]; [auto|discriminate]); apply K; auto.
  - destruct (nth_error (x_calls k) i0) as [c0|] eqn:H0; [|discriminate]. unfold es_lost in H.
    repeat match goal with H : context [match ?x with _ => _ end] |- _ => destruct x eqn:?; try discriminate end; injection H as <-;
      try (apply K; auto; intros i Hi; cbn in Hi; apply in_app_or in Hi as [Hi|[Hi|[]]]; [auto|discriminate]).
  - unfold es_deliver in H.
    repeat match goal with H : context [match ?x with _ => _ end] |- _ => destruct x eqn:?; try discriminate end; injection H as <-; exact W.
  - now injection H as <-.
  - destruct (memb sn (x_tomb k)); [discriminate|]. now injection H as <-.
Qed.
Lemma noted_run ls : forall k k', recdel = true -> no_restart ls -> noted k -> run k ls = Some k' -> noted k'.
Proof.
  induction ls as [|lb ls IH]; intros k k' Hr F O; cbn; [now intros [= <-]|].
  destruct (step k lb) eqn:E; [|discriminate]. intros H. eapply IH; [| | |exact H]; auto; [intros X; apply F; now right|].
  eapply noted_step; eauto. intros ->. apply F. now left.
Qed.

Lemma our_stream e r : json_ok j -> our j prefix e -> record_from j e = Some r -> en_stream e = sname (r_stream r).
Proof.
  intros J (r0 & ev & Er & _ & Es & _) H. unfold record_from in H. rewrite Er in H. destruct (j_decode _ _ _); [|discriminate]. injection H as <-. exact Es.
Qed.
Lemma in_seen r es : In r (flat_map seen es) -> exists e, In e es /\ skipped prefix e = false /\ record_from j e = Some r.
Proof.
  intros H. apply in_flat_map in H as (e & He & Hr). unfold EventStoreMore.seen in Hr. destruct (skipped prefix e) eqn:Es; [destruct Hr|].
  destruct (record_from j e) eqn:Er; [|destruct Hr]. destruct Hr as [->|[]]. eauto.
Qed.

Lemma types_loop_in' ts g del es : forall r, In (RRec r) (types_loop j prefix recdel ts g del es) ->
  exists e, In e es /\ record_from j e = Some r /\ skipped prefix e = false /\ (recdel = true -> memb (en_stream e) del = false).
Proof.
  induction es as [|e es IH]; intros r; cbn [types_loop]; [intros []|].
  assert (K : In (RRec r) (types_loop j prefix recdel ts g del es) -> exists e0, In e0 (e :: es) /\ record_from j e0 = Some r /\ skipped prefix e0 = false /\ (recdel = true -> memb (en_stream e0) del = false)).
  { intros H. apply IH in H as (e0 & C & D). exists e0. split; auto. now right. }
  destruct (internal e) eqn:Ei; [apply K|]. destruct (current prefix e) eqn:Ec; cbn [negb]; [|apply K].
  destruct (recdel && memb (en_stream e) del)%bool eqn:Ed; [apply K|].
  destruct (record_from j e) as [r'|] eqn:E; [|cbn; intros [H|[]]; discriminate].
  destruct (memb (r_atype r') ts); cbn [negb]; [|apply K]. destruct (r_gsn r' <? g); [apply K|].
  intros [[= <-]|H']; [|auto]. exists e. split; [now left|]. split; auto. split; [unfold skipped; now rewrite Ei, Ec|]. intros ->. exact Ed.
Qed.

(** ** The subscription *)
Definition relayed (k : esconf) : Prop :=
  forall p, x_sub k = Some p -> (p <= length (x_log k))%nat /\ x_bcast k = flat_map seen (firstn p (x_log k)).
Definition relaying (k : esconf) : Prop := exists p, (p <= length (x_log k))%nat /\ x_bcast k = flat_map seen (firstn p (x_log k)).

Lemma log_grows k lb k' : step k lb = Some k' -> exists new, x_log k' = x_log k ++ new.
Proof.
  intros H. destruct lb as [o|i0 gaps|i0 n|i0 gaps| | |sn ty r gap|]; cbn [xstep] in H;
    try (injection H as <-; exists []; cbn; now rewrite app_nil_r).
  - destruct (nth_error (x_calls k) i0) as [c0|] eqn:H0; [|discriminate]. unfold es_step, after_check in H.
    repeat match goal with H : context [match ?x with _ => _ end] |- _ => destruct x eqn:?; try discriminate end; injection H as <-; cbn;
    first [exists []; now rewrite app_nil_r | eexists; reflexivity].
  - destruct (nth_error (x_calls k) i0) as [c0|] eqn:H0; [|discriminate]. unfold es_fail, after_check in H.
    repeat match goal with H : context [match ?x with _ => _ end] |- _ => destruct x eqn:?; try discriminate end; injection H as <-; cbn;
    first [exists []; now rewrite app_nil_r | eexists; reflexivity].
  - destruct (nth_error (x_calls k) i0) as [c0|] eqn:H0; [|discriminate]. unfold es_lost in H.
    repeat match goal with H : context [match ?x with _ => _ end] |- _ => destruct x eqn:?; try discriminate end; injection H as <-; cbn;
    first [exists []; now rewrite app_nil_r | eexists; reflexivity].
  - unfold es_deliver in H.
    repeat match goal with H : context [match ?x with _ => _ end] |- _ => destruct x eqn:?; try discriminate end; injection H as <-; cbn;
    exists []; now rewrite app_nil_r.
  - destruct (memb sn (x_tomb k)); [discriminate|]. injection H as <-. cbn. eexists; reflexivity.
Qed.
Lemma sub_same k lb k' : step k lb = Some k' -> (x_sub k' = x_sub k /\ x_bcast k' = x_bcast k) \/ lb = XDeliver \/ lb = XDropped \/ lb = XRestart.
Proof.
  intros H. destruct lb as [o|i0 gaps|i0 n|i0 gaps| | |sn ty r gap|]; auto; left; cbn [xstep] in H; try (injection H as <-; auto).
  - destruct (nth_error (x_calls k) i0) as [c0|] eqn:H0; [|discriminate]. unfold es_step, after_check in H.
    repeat match goal with H : context [match ?x with _ => _ end] |- _ => destruct x eqn:?; try discriminate end; injection H as <-; auto.
  - destruct (nth_error (x_calls k) i0) as [c0|] eqn:H0; [|discriminate]. unfold es_fail, after_check in H.
    repeat match goal with H : context [match ?x with _ => _ end] |- _ => destruct x eqn:?; try discriminate end; injection H as <-; auto.
  - destruct (nth_error (x_calls k) i0) as [c0|] eqn:H0; [|discriminate]. unfold es_lost in H.
    repeat match goal with H : context [match ?x with _ => _ end] |- _ => destruct x eqn:?; try discriminate end; injection H as <-; auto.
  - destruct (memb sn (x_tomb k)); [discriminate|]. now injection H as <-.
Qed.
Lemma firstn_S {A} p (l : list A) e : nth_error l p = Some e -> firstn (S p) l = firstn p l ++ [e].
Proof. revert l. induction p as [|p IH]; intros [|a l] H; cbn in *; try discriminate; [now injection H as ->|]. f_equal. auto. Qed.

Lemma relayed_step k lb k' : relayed k -> relaying k -> step k lb = Some k' -> relayed k' /\ relaying k'.
Proof.
  intros R (q & Hq & Eq) H.
  assert (K : x_sub k' = x_sub k -> x_bcast k' = x_bcast k -> relayed k' /\ relaying k').
  { intros E1 E2. destruct (log_grows _ _ _ H) as (new & El). split.
    - intros p Hp. rewrite E1 in Hp. destruct (R p Hp) as [Hl Hb]. rewrite El, app_length. split; [lia|]. rewrite E2, Hb, firstn_app.
      replace (p - length (x_log k))%nat with 0%nat by lia. cbn. now rewrite app_nil_r.
    - exists q. rewrite El, app_length. split; [lia|]. rewrite E2, Eq, firstn_app. replace (q - length (x_log k))%nat with 0%nat by lia. cbn. now rewrite app_nil_r. }
  destruct (sub_same _ _ _ H) as [[E1 E2]|[ -> |[ -> | -> ]]]; auto.
  - cbn [xstep] in H. unfold es_deliver in H. destruct (x_sub k) as [p|] eqn:Es; [|discriminate]. destruct (R p Es) as [Hl Hb].
    destruct (nth_error (x_log k) p) as [e|] eqn:En; [|discriminate].
    assert (Hp : (S p <= length (x_log k))%nat) by (apply nth_error_Some; congruence).
    assert (F : forall bc, bc = x_bcast k ++ seen e -> bc = flat_map seen (firstn (S p) (x_log k))).
    { intros bc ->. rewrite (firstn_S _ _ _ En), flat_map_app, Hb. cbn. now rewrite app_nil_r. }
    unfold EventStoreMore.seen, skipped in F. destruct (internal e) eqn:Ei; cbn [orb] in F.
    { injection H as <-. rewrite app_nil_r in F. split; [intros p' [= <-]; cbn; auto|exists (S p); cbn; auto]. }
    destruct (current prefix e) eqn:Ec; cbn [negb orb] in F, H.
    2:{ injection H as <-. rewrite app_nil_r in F. split; [intros p' [= <-]; cbn; auto|exists (S p); cbn; auto]. }
    destruct (record_from j e) as [r|] eqn:Er; injection H as <-.
    + split; [intros p' [= <-]; cbn; auto|exists (S p); cbn; auto].
    + split; [intros p' [=]|]. exists q. cbn. auto.
  - injection H as <-. split; [intros p [=]|exists q; cbn; auto].
  - injection H as <-. split; [intros p [= <-]; cbn; split; [lia|reflexivity]|exists 0%nat; cbn; split; [lia|reflexivity]].
Qed.
Lemma relayed_run ls : forall k k', relayed k -> relaying k -> run k ls = Some k' -> relayed k' /\ relaying k'.
Proof.
  induction ls as [|lb ls IH]; intros k k' A B; cbn; [intros [= <-]; auto|].
  destruct (step k lb) eqn:E; [|discriminate]. intros H. destruct (relayed_step _ _ _ A B E). eapply IH; eauto.
Qed.
Lemma silent k lb k' : lb <> XRestart -> x_sub k = None -> step k lb = Some k' -> x_sub k' = None /\ x_bcast k' = x_bcast k.
Proof.
  intros Hl Hn H. destruct (sub_same _ _ _ H) as [[E1 E2]|[ -> |[ -> | -> ]]]; try congruence; [split; congruence| |].
  - cbn [xstep] in H. unfold es_deliver in H. now rewrite Hn in H.
  - injection H as <-. auto.
Qed.
Lemma silent_run ls : forall k k', no_restart ls -> x_sub k = None -> run k ls = Some k' -> x_bcast k' = x_bcast k.
Proof.
  induction ls as [|lb ls IH]; intros k k' F A; cbn; [now intros [= <-]|].
  destruct (step k lb) eqn:E; [|discriminate]. intros H. destruct (silent k lb e) as [B <-]; auto; [intros ->; apply F; now left|].
  eapply IH; eauto. intros X; apply F; now right.
Qed.
Lemma relayed_start : relayed es_start /\ relaying es_start.
Proof. split; [intros p [= <-]; auto|exists 0%nat; auto]. Qed.

Lemma seen_sorted es : StronglySorted N.lt (map en_commit es) -> increasing r_gsn (flat_map seen es).
Proof.
  induction es as [|e es IH]; intros H; [constructor|]. cbn in H. inversion H as [|? ? Hs Hf]; subst. specialize (IH Hs). cbn [flat_map].
  unfold EventStoreMore.seen at 1. destruct (skipped prefix e); auto. destruct (record_from j e) as [r|] eqn:Er; auto. cbn. constructor; auto.
  apply Forall_forall. intros r' Hr'. apply in_seen in Hr' as (e' & He' & _ & Er'). apply record_from_nums in Er as [-> _]. apply record_from_nums in Er' as [-> _].
  rewrite Forall_map in Hf. rewrite Forall_forall in Hf. apply (Hf e' He').
Qed.
Lemma sorted_firstn {A} (R : A -> A -> Prop) p l : StronglySorted R l -> StronglySorted R (firstn p l).
Proof. intros H. rewrite <- (firstn_skipn p l) in H. now apply sorted_prefix in H. Qed.

(** ** Totals *)
Lemma total_map l : total_of (map RRec l) = N.of_nat (length l).
Proof. induction l as [|a l IH]; [reflexivity|]. cbn [map total_of length]. rewrite IH. lia. Qed.

(** ** What the log and the tombstones come from *)
Lemma place_streams sn n c gaps rs : Forall (fun e => en_stream e = sn) (place sn n c gaps rs).
Proof. revert n c gaps. induction rs as [|r rs IH]; intros n c gaps; cbn [place]; constructor; [reflexivity|apply IH]. Qed.

Lemma hist_keep k lb k' a : step k lb = Some k' -> In a (x_hist k) -> In a (x_hist k').
Proof.
  intros H Hin. destruct lb as [o|i0 gaps|i0 n|i0 gaps| | |sn ty r gap|]; cbn [xstep] in H; try (injection H as <-; cbn; auto; apply in_or_app; auto; fail).
  - destruct (nth_error (x_calls k) i0) as [c0|] eqn:H0; [|discriminate]. unfold es_step, after_check in H.
    repeat match goal with H : context [match ?x with _ => _ end] |- _ => destruct x eqn:?; try discriminate end; injection H as <-; cbn; auto; apply in_or_app; auto.
  - destruct (nth_error (x_calls k) i0) as [c0|] eqn:H0; [|discriminate]. unfold es_fail, after_check in H.
    repeat match goal with H : context [match ?x with _ => _ end] |- _ => destruct x eqn:?; try discriminate end; injection H as <-; cbn; auto; apply in_or_app; auto.
  - destruct (nth_error (x_calls k) i0) as [c0|] eqn:H0; [|discriminate]. unfold es_lost in H.
    repeat match goal with H : context [match ?x with _ => _ end] |- _ => destruct x eqn:?; try discriminate end; injection H as <-; cbn; auto; apply in_or_app; auto.
  - unfold es_deliver in H.
    repeat match goal with H : context [match ?x with _ => _ end] |- _ => destruct x eqn:?; try discriminate end; injection H as <-; auto.
  - destruct (memb sn (x_tomb k)); [discriminate|]. injection H as <-. auto.
Qed.

Definition buried (k : esconf) : Prop :=
  forall sn, memb sn (x_tomb k) = true -> exists i x s cn,
    In (Inv i (OpDelete x s cn)) (x_hist k) /\ sname s = sn /\ revisions sn (x_log k) = zero_based x + 1.

Lemma buried_step k lb k' : good k -> buried k -> step k lb = Some k' -> buried k'.
Proof.
  intros G B H.
  assert (Hh : forall a, In a (x_hist k) -> In a (x_hist k')) by (intros a; now apply (hist_keep k lb k')).
  assert (K1 : x_tomb k' = x_tomb k -> x_log k' = x_log k -> buried k').
  { intros E1 E2 sn Hs. rewrite E1 in Hs. destruct (B sn Hs) as (i & x & s & cn & Hi & Es & Er). exists i, x, s, cn. rewrite E2. auto. }
  assert (K2 : forall sn0 new, x_tomb k' = x_tomb k -> memb sn0 (x_tomb k) = false -> Forall (fun e => en_stream e = sn0) new ->
    x_log k' = x_log k ++ new -> buried k').
  { intros sn0 new E1 E0 Ef E2 sn Hs. rewrite E1 in Hs. destruct (B sn Hs) as (i & x & s & cn & Hi & Es & Er). exists i, x, s, cn.
    split; [auto|]. split; [auto|]. rewrite E2. unfold revisions in *. rewrite events_app, (events_other sn0 sn new), app_nil_r; auto. intros ->. congruence. }
  assert (K3 : forall i c ex s cn, nth_error (x_calls k) i = Some c -> es_op c = OpDelete ex s cn ->
    x_tomb k' = sname s :: x_tomb k -> x_log k' = x_log k -> revisions (sname s) (x_log k) = zero_based ex + 1 -> buried k').
  { intros i c ex s cn Hc Ho E1 E2 Er sn Hs. rewrite E1, memb_cons in Hs. apply orb_true_iff in Hs as [Hs|Hs].
    - apply String.eqb_eq in Hs. subst sn. exists i, ex, s, cn. split; [|split; [reflexivity|now rewrite E2]].
      apply Hh. rewrite <- Ho. now apply (i_ops _ _ _ G).
    - destruct (B sn Hs) as (i' & x & s' & cn' & Hi & Es & Er'). exists i', x, s', cn'. rewrite E2. auto. }
  destruct lb as [o|i0 gaps|i0 n|i0 gaps| | |sn ty r gap|]; cbn [xstep] in H;
    try (injection H as <-; apply K1; reflexivity).
  - destruct (nth_error (x_calls k) i0) as [c0|] eqn:H0; [|discriminate]. unfold es_step, after_check in H.
    repeat match goal with H : context [match ?x with _ => _ end] |- _ => destruct x eqn:?; try discriminate end; injection H as <-;
      try (apply K1; reflexivity);
      try (eapply K2; [reflexivity|eassumption|apply place_streams|reflexivity]);
      (eapply K3; [exact H0|eassumption|reflexivity|reflexivity|apply N.eqb_eq; assumption]).
  - destruct (nth_error (x_calls k) i0) as [c0|] eqn:H0; [|discriminate]. unfold es_fail, after_check in H.
    repeat match goal with H : context [match ?x with _ => _ end] |- _ => destruct x eqn:?; try discriminate end; injection H as <-; apply K1; reflexivity.
  - destruct (nth_error (x_calls k) i0) as [c0|] eqn:H0; [|discriminate]. unfold es_lost in H.
    repeat match goal with H : context [match ?x with _ => _ end] |- _ => destruct x eqn:?; try discriminate end; injection H as <-;
      try (eapply K2; [reflexivity|eassumption|apply place_streams|reflexivity]).
    eapply K3; [exact H0|eassumption|reflexivity|reflexivity|apply N.eqb_eq; assumption].
  - unfold es_deliver in H.
    repeat match goal with H : context [match ?x with _ => _ end] |- _ => destruct x eqn:?; try discriminate end; injection H as <-; apply K1; reflexivity.
  - destruct (memb sn (x_tomb k)) eqn:E; [discriminate|]. injection H as <-. eapply K2; [reflexivity|exact E| |reflexivity]. repeat constructor.
Qed.
Lemma buried_run ls : forall k k', good k -> buried k -> run k ls = Some k' -> buried k'.
Proof.
  induction ls as [|lb ls IH]; intros k k' G O; cbn; [now intros [= <-]|].
  destruct (step k lb) eqn:E; [|discriminate]. intros H. eapply IH; [| |exact H]; [eapply good_step; eauto|eapply buried_step; eauto].
Qed.

(** The log in chunks: what a call appended ([Some i]) or another writer ([None]). *)
Definition chunk_ok (k : esconf) (before : list entry) (i : nat) (mine : list entry) : Prop :=
  exists ex s evs cn, In (Inv i (OpSave ex s evs cn)) (x_hist k)
    /\ Forall (fun e => en_stream e = sname s) mine /\ Forall2 (entry_for j s) evs mine
    /\ (forall x, ex = Some x -> 0 < x -> revisions (sname s) before = x).
Definition chunked (k : esconf) (cs : list (option nat * list entry)) : Prop :=
  x_log k = concat (map snd cs)
  /\ NoDup (flat_map (fun c => match fst c with Some i => [i] | None => [] end) cs)
  /\ (forall i mine, In (Some i, mine) cs -> exists c, nth_error (x_calls k) i = Some c /\ es_pc c = XDone)
  /\ (forall c1 i mine c2, cs = c1 ++ (Some i, mine) :: c2 -> chunk_ok k (concat (map snd c1)) i mine)
  /\ (forall i n b, In (Ret i (OutSaved n b)) (x_hist k) -> exists mine, In (Some i, mine) cs).

Lemma done_keep k lb k' i c : step k lb = Some k' -> nth_error (x_calls k) i = Some c -> es_pc c = XDone ->
  exists c', nth_error (x_calls k') i = Some c' /\ es_pc c' = XDone.
Proof.
  intros H Hn Hd.
  assert (U : forall i0 c0 o p, nth_error (x_calls k) i0 = Some c0 -> es_pc c0 <> XDone ->
    exists c', nth_error (upd i0 (mk_escall o p) (x_calls k)) i = Some c' /\ es_pc c' = XDone).
  { intros i0 c0 o p H0 Hp. rewrite (nth_upd _ _ _ _ _ H0). destruct (Nat.eqb_spec i i0) as [->|]; [congruence|eauto]. }
  destruct lb as [o|i0 gaps|i0 n|i0 gaps| | |sn ty r gap|]; cbn [xstep] in H.
  - injection H as <-. exists c. split; auto. cbn. rewrite nth_error_app1; auto. apply nth_error_Some. congruence.
  - destruct (nth_error (x_calls k) i0) as [c0|] eqn:H0; [|discriminate]. unfold es_step, after_check in H.
    repeat match goal with H : context [match ?x with _ => _ end] |- _ => destruct x eqn:?; try discriminate end; injection H as <-; cbn;
    (eapply U; [exact H0|congruence]).
  - destruct (nth_error (x_calls k) i0) as [c0|] eqn:H0; [|discriminate]. unfold es_fail, after_check in H.
    repeat match goal with H : context [match ?x with _ => _ end] |- _ => destruct x eqn:?; try discriminate end; injection H as <-; cbn;
    (eapply U; [exact H0|congruence]).
  - destruct (nth_error (x_calls k) i0) as [c0|] eqn:H0; [|discriminate]. unfold es_lost in H.
    repeat match goal with H : context [match ?x with _ => _ end] |- _ => destruct x eqn:?; try discriminate end; injection H as <-; cbn;
    (eapply U; [exact H0|congruence]).
  - unfold es_deliver in H.
    repeat match goal with H : context [match ?x with _ => _ end] |- _ => destruct x eqn:?; try discriminate end; injection H as <-; cbn; eauto.
  - injection H as <-. cbn; eauto.
  - destruct (memb sn (x_tomb k)); [discriminate|]. injection H as <-. cbn; eauto.
  - injection H as <-. cbn. rewrite nth_error_map, Hn. cbn. eauto.
Qed.

Definition writer (c : option nat * list entry) : list nat := match fst c with Some i => [i] | None => [] end.

Lemma chunked_grow k lb k' cs w new : step k lb = Some k' -> chunked k cs -> x_log k' = x_log k ++ new ->
  match w with
  | None => True
  | Some i => (exists c, nth_error (x_calls k) i = Some c /\ es_pc c <> XDone) /\ chunk_ok k' (x_log k) i new
              /\ (exists c, nth_error (x_calls k') i = Some c /\ es_pc c = XDone)
  end ->
  (forall i n b, In (Ret i (OutSaved n b)) (x_hist k') -> In (Ret i (OutSaved n b)) (x_hist k) \/ w = Some i) ->
  chunked k' (cs ++ [(w, new)]).
Proof.
  intros H (El & Hn & Hd & Hc & Hs) Eg Hw Hr. split; [|split; [|split; [|split]]].
  - rewrite Eg, El, map_app, concat_app. cbn. now rewrite app_nil_r.
  - rewrite flat_map_app. destruct w as [i|]; cbn [flat_map fst app]; [|rewrite app_nil_r; exact Hn].
    apply NoDup_snoc; [exact Hn|]. intros Hi. apply in_flat_map in Hi as ((w & mine) & Hin & Hi). destruct w as [i'|]; [|destruct Hi].
    destruct Hi as [<-|[]]. destruct (Hd _ _ Hin) as (c & Hc1 & Hc2). destruct Hw as ((c' & Hc1' & Hc2') & _). congruence.
  - intros i mine Hi. apply in_app_or in Hi as [Hi|[Hi|[]]].
    + destruct (Hd _ _ Hi) as (c & Hc1 & Hc2). eapply done_keep; eauto.
    + injection Hi as -> <-. apply Hw.
  - intros c1 i mine c2 E. destruct c2 as [|y c2] using rev_ind.
    + apply app_inj_tail in E as [<- E]. injection E as -> <-. rewrite <- El. apply Hw.
    + clear IHc2. rewrite app_comm_cons, app_assoc in E. apply app_inj_tail in E as [E _].
      destruct (Hc _ _ _ _ E) as (ex & s & evs & cn & Hi & A). exists ex, s, evs, cn. split; [|exact A]. eapply hist_keep; eauto.
  - intros i n b Hi. destruct (Hr i n b Hi) as [Hi'|Ew].
    + destruct (Hs _ _ _ Hi') as (mine & Hm). exists mine. apply in_or_app. auto.
    + subst w. exists new. apply in_or_app. right. now left.
Qed.

Lemma chunked_same k lb k' cs : step k lb = Some k' -> chunked k cs -> x_log k' = x_log k ->
  (forall i n b, In (Ret i (OutSaved n b)) (x_hist k') -> In (Ret i (OutSaved n b)) (x_hist k)) -> chunked k' cs.
Proof.
  intros H (El & Hn & Hd & Hc & Hs) Eg Hr. split; [congruence|]. split; [exact Hn|]. split; [|split].
  - intros i mine Hi. destruct (Hd _ _ Hi) as (c & Hc1 & Hc2). eapply done_keep; eauto.
  - intros c1 i mine c2 E. destruct (Hc _ _ _ _ E) as (ex & s & evs & cn & Hi & A). exists ex, s, evs, cn. split; [|exact A]. eapply hist_keep; eauto.
  - intros i n b Hi. eauto.
Qed.

Lemma accepted_at k ex s : append_accepted prefix k ex s = true -> forall x, ex = Some x -> 0 < x -> revisions (sname s) (x_log k) = x.
Proof.
  intros H x -> Hx. unfold append_accepted in H. replace (0 <? x) with true in H by (symmetry; now apply N.ltb_lt). apply N.eqb_eq in H. rewrite H. unfold zero_based.
  destruct (N.ltb_spec x 1); lia.
Qed.

Lemma chunked_step k lb k' cs : good k -> chunked k cs -> step k lb = Some k' -> exists cs', chunked k' cs'.
Proof.
  intros G C H. pose proof H as H1.
  assert (S1 : x_log k' = x_log k -> (forall i n b, In (Ret i (OutSaved n b)) (x_hist k') -> In (Ret i (OutSaved n b)) (x_hist k)) -> exists cs', chunked k' cs')
    by (intros A B; exists cs; eapply chunked_same; eauto).
  assert (S2 : forall i c ex s evs cn rs gaps, nth_error (x_calls k) i = Some c -> es_pc c = XAppend rs -> es_op c = OpSave ex s evs cn ->
    Forall2 (row_for j s) evs rs -> append_accepted prefix k ex s = true -> x_log k' = appended_log prefix k s gaps rs ->
    x_calls k' = upd i (mk_escall (es_op c) XDone) (x_calls k) ->
    (forall i' n b, In (Ret i' (OutSaved n b)) (x_hist k') -> In (Ret i' (OutSaved n b)) (x_hist k) \/ Some i = Some i') -> exists cs', chunked k' cs').
  { intros i c ex s evs cn rs gaps Hc Hp Ho HF Ha El Ec Hr. eexists.
    eapply (chunked_grow k _ k' cs (Some i)); [exact H1|exact C|rewrite El; reflexivity| |exact Hr].
    split; [exists c; split; [exact Hc|congruence]|]. split.
    - exists ex, s, evs, cn. split; [apply (hist_keep k _ k' _ H1); rewrite <- Ho; now apply (i_ops _ _ _ G)|].
      split; [apply place_streams|]. split; [now apply place_rows|]. now apply accepted_at.
    - rewrite Ec, (nth_upd _ _ _ _ _ Hc), Nat.eqb_refl. eexists. split; reflexivity. }
  destruct lb as [o|i0 gaps|i0 n|i0 gaps| | |sn ty r gap|]; cbn [xstep] in H;
    try (injection H as <-; apply S1; [reflexivity|]; cbn; intros ? ? ? Hi; first [exact Hi | apply in_app_or in Hi as [Hi|[Hi|[]]]; [auto|discriminate]]).
  - destruct (nth_error (x_calls k) i0) as [c0|] eqn:H0; [|discriminate]. pose proof (i_pc _ _ _ G _ _ H0) as Hp. unfold es_step, after_check in H.
    repeat match goal with H : context [match ?x with _ => _ end] |- _ => destruct x eqn:?; try discriminate end; injection H as E;
      try (apply S1; rewrite <- E; [reflexivity|]; cbn; intros ? ? ? Hi; first [exact Hi | apply in_app_or in Hi as [Hi|[Hi|[]]]; [auto|discriminate]]).
    cbn in Hp. destruct Hp as (ex' & s' & evs' & cn' & [= <- <- <- <-] & He & HF).
    eapply S2; eauto; [rewrite <- E; reflexivity|rewrite <- E; cbn; congruence|].
    rewrite <- E. cbn. intros ? ? ? Hi. apply in_app_or in Hi as [Hi|[Hi|[]]]; [auto|]. injection Hi as -> _ _. now right.
  - destruct (nth_error (x_calls k) i0) as [c0|] eqn:H0; [|discriminate]. unfold es_fail, after_check in H.
    repeat match goal with H : context [match ?x with _ => _ end] |- _ => destruct x eqn:?; try discriminate end; injection H as E;
      apply S1; rewrite <- E; try reflexivity; cbn; intros ? ? ? Hi; auto; apply in_app_or in Hi as [Hi|[Hi|[]]]; auto; discriminate.
  - destruct (nth_error (x_calls k) i0) as [c0|] eqn:H0; [|discriminate]. pose proof (i_pc _ _ _ G _ _ H0) as Hp. unfold es_lost in H.
    repeat match goal with H : context [match ?x with _ => _ end] |- _ => destruct x eqn:?; try discriminate end; injection H as E;
      try (apply S1; rewrite <- E; [reflexivity|]; cbn; intros ? ? ? Hi; first [exact Hi | apply in_app_or in Hi as [Hi|[Hi|[]]]; [auto|discriminate]]).
    cbn in Hp. destruct Hp as (ex' & s' & evs' & cn' & [= <- <- <- <-] & He & HF).
    eapply S2; eauto; [rewrite <- E; reflexivity|rewrite <- E; cbn; congruence|].
    rewrite <- E. cbn. intros ? ? ? Hi. apply in_app_or in Hi as [Hi|[Hi|[]]]; [auto|discriminate].
  - unfold es_deliver in H.
    repeat match goal with H : context [match ?x with _ => _ end] |- _ => destruct x eqn:?; try discriminate end; injection H as E; apply S1; rewrite <- E; auto.
  - destruct (memb sn (x_tomb k)) eqn:E; [discriminate|]. injection H as E'.
    eexists. eapply (chunked_grow k _ k' cs None); [exact H1|exact C|rewrite <- E'; reflexivity|exact Logic.I|].
    rewrite <- E'. cbn. auto.
Qed.
Lemma chunked_run ls : forall k k' cs, good k -> chunked k cs -> run k ls = Some k' -> exists cs', chunked k' cs'.
Proof.
  induction ls as [|lb ls IH]; intros k k' cs G O; cbn; [intros [= <-]; eauto|].
  destruct (step k lb) eqn:E; [|discriminate]. intros H. destruct (chunked_step _ _ _ _ G O E) as (cs1 & C1). eapply IH; [|exact C1|exact H]. eapply good_step; eauto.
Qed.
Lemma chunked_start : chunked es_start [].
Proof. split; [reflexivity|]. split; [constructor|]. split; [intros i m []|]. split; [intros [|] ? ? ? [=]|intros i n b []]. Qed.
End Facts.
