From Coq Require Import Sorted PeanoNat.
From Verif Require Import Base Locks LocksSpec Postgres PostgresSpec StoreSpec EventStore EventStoreSpec LocksProofs EventStoreProofs.

Lemma prefix_app p s : String.prefix p (p ++ s) = true.
Proof. induction p as [|a p IH]; cbn; [destruct s; reflexivity|]. destruct (ascii_dec a a); [auto|congruence]. Qed.
Lemma append_inj p a b : (p ++ a)%string = (p ++ b)%string -> a = b.
Proof. induction p as [|x p IH]; cbn; auto. intros [= H]. auto. Qed.

Section More.
Variable j : jlib.
Variable prefix : option string.
Variable recdel : bool.
Notation sname := (server_name prefix).
Notation run := (xrun j prefix recdel).
Notation step := (xstep j prefix recdel).

Lemma sname_inj a b : sname a = sname b -> a = b.
Proof. unfold server_name. destruct prefix; auto. apply append_inj. Qed.
Lemma sname_current e s : en_stream e = sname s -> current prefix e = true.
Proof. unfold current, server_name. intros ->. destruct prefix; auto. apply prefix_app. Qed.

(** ** What a step adds to the history *)
Lemma ops_keep k lb k' i c : step k lb = Some k' -> nth_error (x_calls k) i = Some c ->
  exists c', nth_error (x_calls k') i = Some c' /\ es_op c' = es_op c.
Proof.
  intros H Hn.
  assert (U : forall i0 c0 p, nth_error (x_calls k) i0 = Some c0 -> exists c', nth_error (upd i0 (mk_escall (es_op c0) p) (x_calls k)) i = Some c' /\ es_op c' = es_op c).
  { intros i0 c0 p H0. rewrite (nth_upd _ _ _ _ _ H0). destruct (Nat.eqb_spec i i0) as [->|]; [|eauto]. eexists. split; [reflexivity|]. cbn. congruence. }
  destruct lb as [o|i0 gaps|i0 n|i0 gaps| | |sn ty r gap|]; cbn [xstep] in H.
  - injection H as <-. exists c. split; auto. cbn. rewrite nth_error_app1; auto. apply nth_error_Some. congruence.
  - destruct (nth_error (x_calls k) i0) as [c0|] eqn:H0; [|discriminate]. unfold es_step, after_check in H.
    repeat match goal with H : context [match ?x with _ => _ end] |- _ => destruct x eqn:?; try discriminate end; injection H as <-; cbn;
    match goal with E : es_op c0 = _ |- _ => rewrite <- E end; apply U; auto.
  - destruct (nth_error (x_calls k) i0) as [c0|] eqn:H0; [|discriminate]. unfold es_fail, after_check in H.
    repeat match goal with H : context [match ?x with _ => _ end] |- _ => destruct x eqn:?; try discriminate end; injection H as <-; cbn;
    match goal with E : es_op c0 = _ |- _ => rewrite <- E end; apply U; auto.
  - destruct (nth_error (x_calls k) i0) as [c0|] eqn:H0; [|discriminate]. unfold es_lost in H.
    repeat match goal with H : context [match ?x with _ => _ end] |- _ => destruct x eqn:?; try discriminate end; injection H as <-; cbn;
    match goal with E : es_op c0 = _ |- _ => rewrite <- E end; apply U; auto.
  - unfold es_deliver in H.
    repeat match goal with H : context [match ?x with _ => _ end] |- _ => destruct x eqn:?; try discriminate end; injection H as <-; cbn; eauto.
  - injection H as <-. cbn; eauto.
  - destruct (memb sn (x_tomb k)); [discriminate|]. injection H as <-. cbn; eauto.
  - injection H as <-. cbn. rewrite nth_error_map, Hn. cbn. eauto.
Qed.

Lemma hist_grows k lb k' : step k lb = Some k' -> x_hist k' = x_hist k \/ exists a, x_hist k' = x_hist k ++ [a] /\
  (forall i n b, a = Ret i (OutSaved n b) -> exists gaps c rs ex s evs cn, lb = XStep i gaps /\ nth_error (x_calls k) i = Some c /\ es_pc c = XAppend rs
     /\ es_op c = OpSave ex s evs cn /\ append_accepted prefix k ex s = true /\ memb (sname s) (x_tomb k) = false).
Proof.
  intros H. destruct lb as [o|i0 gaps|i0 n|i0 gaps| | |sn ty r gap|]; cbn [xstep] in H.
  - injection H as <-. right. eexists. split; [reflexivity|]. discriminate.
  - destruct (nth_error (x_calls k) i0) as [c0|] eqn:H0; [|discriminate]. unfold es_step, after_check in H.
    repeat match goal with H : context [match ?x with _ => _ end] |- _ => destruct x eqn:?; try discriminate end; injection H as <-; cbn; auto;
    right; eexists; (split; [reflexivity|]); intros ? ? ? [= <- <- <-]; try discriminate.
    eexists _, _, _, _, _, _, _. repeat split; eauto.
  - destruct (nth_error (x_calls k) i0) as [c0|] eqn:H0; [|discriminate]. unfold es_fail, after_check in H.
    repeat match goal with H : context [match ?x with _ => _ end] |- _ => destruct x eqn:?; try discriminate end; injection H as <-; cbn; auto;
    right; eexists; (split; [reflexivity|]); discriminate.
  - destruct (nth_error (x_calls k) i0) as [c0|] eqn:H0; [|discriminate]. unfold es_lost in H.
    repeat match goal with H : context [match ?x with _ => _ end] |- _ => destruct x eqn:?; try discriminate end; injection H as <-; cbn; auto;
    right; eexists; (split; [reflexivity|]); discriminate.
  - unfold es_deliver in H.
    repeat match goal with H : context [match ?x with _ => _ end] |- _ => destruct x eqn:?; try discriminate end; injection H as <-; cbn; eauto.
  - injection H as <-. cbn; eauto.
  - destruct (memb sn (x_tomb k)); [discriminate|]. injection H as <-. cbn; eauto.
  - injection H as <-. cbn. auto.
Qed.

Lemma op_of_inv k i c o : good j prefix k -> nth_error (x_calls k) i = Some c -> In (Inv i o) (x_hist k) -> es_op c = o.
Proof. intros G Hn Hi. destruct (i_inv _ _ _ G _ _ Hi) as (c' & H & <-). congruence. Qed.

(** ** One winner *)
Definition winners (k : esconf) : Prop := forall i i' x s evs evs' cn cn' n n' b b', 0 < x ->
  In (Inv i (OpSave (Some x) s evs cn)) (x_hist k) -> In (Ret i (OutSaved n b)) (x_hist k) ->
  In (Inv i' (OpSave (Some x) s evs' cn')) (x_hist k) -> In (Ret i' (OutSaved n' b')) (x_hist k) -> i = i'.

Lemma revisions_app sn a b : revisions sn (a ++ b) = revisions sn a + revisions sn b.
Proof. unfold revisions. rewrite events_app, app_length. lia. Qed.
Lemma placed_more log ex s evs n : placed j prefix log ex s evs n -> forall x, ex = Some x -> 0 < x -> x < revisions (sname s) log.
Proof.
  intros (l1 & mine & l2 & -> & Hm & HF & -> & Hx & He) x Ex Hp. specialize (Hx x Ex Hp). rewrite !revisions_app.
  assert (revisions (sname s) mine = N.of_nat (length evs)).
  { unfold revisions. rewrite (events_same _ _ Hm). f_equal. clear -HF. induction HF; cbn; auto. }
  destruct evs; [congruence|]. cbn [length] in *. lia.
Qed.
Lemma answer_saved k i n b o : good j prefix k -> In (Inv i o) (x_hist k) -> In (Ret i (OutSaved n b)) (x_hist k) ->
  exists ex s evs cn, o = OpSave ex s evs cn /\ placed j prefix (x_log k) ex s evs n.
Proof.
  intros G Hi Hr. destruct (i_ret _ _ _ G _ _ Hr) as (c & Hc & Ha). rewrite (op_of_inv _ _ _ _ G Hc Hi) in Ha. exact Ha.
Qed.
Lemma inv_old k lb k' i o x : good j prefix k -> good j prefix k' -> step k lb = Some k' -> In (Ret i x) (x_hist k) -> In (Inv i o) (x_hist k') -> In (Inv i o) (x_hist k).
Proof.
  intros G G' H Hr Hi. destruct (i_ret _ _ _ G _ _ Hr) as (c & Hc & _). destruct (ops_keep _ _ _ _ _ H Hc) as (c' & Hc' & Eo).
  rewrite <- (op_of_inv _ _ _ _ G' Hc' Hi), Eo. now apply (i_ops _ _ _ G).
Qed.
Lemma winners_step k lb k' : good j prefix k -> winners k -> step k lb = Some k' -> winners k'.
Proof.
  intros G W H. pose proof (good_step _ _ _ _ _ _ G H) as G'.
  intros i i' x s evs evs' cn cn' n n' b b' Hx I R I' R'.
  destruct (hist_grows _ _ _ H) as [E|(a & E & Ha)].
  - rewrite E in *. eapply W; eauto.
  - pose proof R as R0. pose proof R' as R0'. rewrite E in R, R'. apply in_app_or in R as [R|[R|[]]]; apply in_app_or in R' as [R'|[R'|[]]].
    + eapply W; [exact Hx|eapply inv_old; eauto|exact R|eapply inv_old; eauto|exact R'].
    + destruct (Ha _ _ _ R') as (gaps & c & rs & ex & s' & evs0 & cn0 & El & Hc & Ep & Eo & Ea & Et).
      destruct (ops_keep _ _ _ _ _ H Hc) as (c' & Hc' & Eo'). rewrite (op_of_inv _ _ _ _ G' Hc' I') in Eo'. rewrite Eo in Eo'. injection Eo' as <- <- <- <-.
      pose proof (inv_old _ _ _ _ _ _ G G' H R I) as I0. destruct (answer_saved _ _ _ _ _ G I0 R) as (ex1 & s1 & evs1 & cn1 & [= <- <- <- <-] & Hp).
      pose proof (placed_more _ _ _ _ _ Hp x eq_refl Hx) as Hlt. unfold append_accepted in Ea. apply N.ltb_lt in Hx as Hx'. rewrite Hx' in Ea. apply N.eqb_eq in Ea.
      unfold zero_based in Ea. destruct (N.ltb_spec x 1); lia.
    + destruct (Ha _ _ _ R) as (gaps & c & rs & ex & s' & evs0 & cn0 & El & Hc & Ep & Eo & Ea & Et).
      destruct (ops_keep _ _ _ _ _ H Hc) as (c' & Hc' & Eo'). rewrite (op_of_inv _ _ _ _ G' Hc' I) in Eo'. rewrite Eo in Eo'. injection Eo' as <- <- <- <-.
      pose proof (inv_old _ _ _ _ _ _ G G' H R' I') as I0. destruct (answer_saved _ _ _ _ _ G I0 R') as (ex1 & s1 & evs1 & cn1 & [= <- <- <- <-] & Hp).
      pose proof (placed_more _ _ _ _ _ Hp x eq_refl Hx) as Hlt. unfold append_accepted in Ea. apply N.ltb_lt in Hx as Hx'. rewrite Hx' in Ea. apply N.eqb_eq in Ea.
      unfold zero_based in Ea. destruct (N.ltb_spec x 1); lia.
    + congruence.
Qed.
Lemma winners_run ls : forall k k', good j prefix k -> winners k -> run k ls = Some k' -> winners k'.
Proof.
  induction ls as [|lb ls IH]; intros k k' G W; cbn; [now intros [= <-]|].
  destruct (step k lb) eqn:E; [|discriminate]. intros H. eapply IH; [| |exact H]; [eapply good_step; eauto|eapply winners_step; eauto].
Qed.

(** ** After a delete *)
Lemma deleted_tomb k i ex s cn : good j prefix k -> In (Inv i (OpDelete ex s cn)) (x_hist k) -> In (Ret i OutDeleted) (x_hist k) ->
  memb (sname s) (x_tomb k) = true /\ revisions (sname s) (x_log k) = zero_based ex + 1.
Proof.
  intros G Hi Hr. destruct (i_ret _ _ _ G _ _ Hr) as (c & Hc & Ha). rewrite (op_of_inv _ _ _ _ G Hc Hi) in Ha.
  destruct Ha as (ex' & s' & cn' & [= <- <- <-] & H). exact H.
Qed.
Definition closed (k : esconf) : Prop := forall i i' ex s cn ex' evs cn' n b,
  In (Inv i (OpDelete ex s cn)) (x_hist k) -> In (Inv i' (OpSave ex' s evs cn')) (x_hist k) ->
  ~ (exists h1 h2 h3, x_hist k = h1 ++ Ret i OutDeleted :: h2 ++ Ret i' (OutSaved n b) :: h3).
Lemma closed_step k lb k' : good j prefix k -> closed k -> step k lb = Some k' -> closed k'.
Proof.
  intros G W H. pose proof (good_step _ _ _ _ _ _ G H) as G'. intros i i' ex s cn ex' evs cn' n b I I' (h1 & h2 & h3 & E0).
  destruct (hist_grows _ _ _ H) as [E|(a & E & Ha)].
  - apply (W i i' ex s cn ex' evs cn' n b); [congruence|congruence|]. exists h1, h2, h3. congruence.
  - rewrite E0 in E. destruct h3 as [|y h3] using rev_ind.
    + replace (h1 ++ Ret i OutDeleted :: h2 ++ [Ret i' (OutSaved n b)]) with ((h1 ++ Ret i OutDeleted :: h2) ++ [Ret i' (OutSaved n b)]) in E
        by (rewrite <- app_assoc; reflexivity). apply app_inj_tail in E as [E <-]. destruct (Ha _ _ _ eq_refl) as (gaps & c & rs & ex0 & s' & evs0 & cn0 & El & Hc & Ep & Eo & Ea & Et).
      destruct (ops_keep _ _ _ _ _ H Hc) as (c' & Hc' & Eo'). rewrite (op_of_inv _ _ _ _ G' Hc' I') in Eo'. rewrite Eo in Eo'. injection Eo' as <- <- <- <-.
      assert (R : In (Ret i OutDeleted) (x_hist k)) by (rewrite <- E; apply in_or_app; right; now left).
      pose proof (inv_old _ _ _ _ _ _ G G' H R I) as I0. destruct (deleted_tomb _ _ _ _ _ G I0 R). congruence.
    + clear IHh3. replace (h1 ++ Ret i OutDeleted :: h2 ++ Ret i' (OutSaved n b) :: h3 ++ [y]) with ((h1 ++ Ret i OutDeleted :: h2 ++ Ret i' (OutSaved n b) :: h3) ++ [y]) in E
        by (rewrite <- !app_assoc; cbn; now rewrite <- !app_assoc). apply app_inj_tail in E as [E <-].
      apply (W i i' ex s cn ex' evs cn' n b).
      * eapply inv_old; eauto. rewrite <- E. apply in_or_app; right; now left.
      * eapply inv_old; eauto. rewrite <- E. apply in_or_app; right. right. apply in_or_app. right. now left.
      * exists h1, h2, h3. auto.
Qed.
Lemma closed_run ls : forall k k', good j prefix k -> closed k -> run k ls = Some k' -> closed k'.
Proof.
  induction ls as [|lb ls IH]; intros k k' G W; cbn; [now intros [= <-]|].
  destruct (step k lb) eqn:E; [|discriminate]. intros H. eapply IH; [| |exact H]; [eapply good_step; eauto|eapply closed_step; eauto].
Qed.

(** ** What the log consists of *)
Definition skipped (e : entry) : bool := internal e || negb (current prefix e).
Definition our (e : entry) : Prop :=
  exists r ev, en_rec e = Some r /\ en_type e = r_etype r /\ en_stream e = sname (r_stream r) /\ row_for j (r_stream r) ev r.
Definition ours (k : esconf) : Prop := (forall e, In e (x_log k) -> skipped e = true \/ our e).

Lemma place_our s evs rs : Forall2 (row_for j s) evs rs -> forall n c gaps e, In e (place (sname s) n c gaps rs) -> our e.
Proof.
  induction 1 as [|ev r evs rs H F IH]; intros n c gaps e; cbn; [tauto|]. intros [<-|Hi]; [|eauto].
  exists r, ev. destruct H as (Hs & H'). cbn. repeat split; auto; try tauto; now rewrite Hs.
Qed.
Lemma ours_step k lb k' : good j prefix k -> harmless prefix lb -> ours k -> step k lb = Some k' -> ours k'.
Proof.
  intros G Hh O H. destruct lb as [o|i0 gaps|i0 n|i0 gaps| | |sn ty r gap|]; cbn [xstep] in H.
  - now injection H as <-.
  - destruct (nth_error (x_calls k) i0) as [c0|] eqn:H0; [|discriminate]. pose proof (i_pc _ _ _ G _ _ H0) as Hp. unfold es_step, after_check in H.
    repeat match goal with H : context [match ?x with _ => _ end] |- _ => destruct x eqn:?; try discriminate end; injection H as <-; try exact O.
    cbn in Hp. destruct Hp as (ex' & s' & evs' & cn' & [= <- <- <- <-] & He & HF). intros e Hi. cbn in Hi. unfold appended_log in Hi.
    apply in_app_or in Hi as [Hi|Hi]; [auto|]. right. eapply place_our; eauto.
  - destruct (nth_error (x_calls k) i0) as [c0|] eqn:H0; [|discriminate]. unfold es_fail, after_check in H.
    repeat match goal with H : context [match ?x with _ => _ end] |- _ => destruct x eqn:?; try discriminate end; injection H as <-; exact O.
  - destruct (nth_error (x_calls k) i0) as [c0|] eqn:H0; [|discriminate]. pose proof (i_pc _ _ _ G _ _ H0) as Hp. unfold es_lost in H.
    repeat match goal with H : context [match ?x with _ => _ end] |- _ => destruct x eqn:?; try discriminate end; injection H as <-; try exact O.
    cbn in Hp. destruct Hp as (ex' & s' & evs' & cn' & [= <- <- <- <-] & He & HF). intros e Hi. cbn in Hi. unfold appended_log in Hi.
    apply in_app_or in Hi as [Hi|Hi]; [auto|]. right. eapply place_our; eauto.
  - unfold es_deliver in H.
    repeat match goal with H : context [match ?x with _ => _ end] |- _ => destruct x eqn:?; try discriminate end; injection H as <-; exact O.
  - now injection H as <-.
  - destruct (memb sn (x_tomb k)); [discriminate|]. injection H as <-. intros e Hi. cbn in Hi. apply in_app_or in Hi as [Hi|[<-|[]]]; [auto|].
    left. unfold skipped, internal, current. cbn. cbn in Hh. destruct Hh as [->|(p & -> & ->)]; cbn; auto using orb_true_r.
  - now injection H as <-.
Qed.
Lemma ours_run ls : forall k k', good j prefix k -> Forall (harmless prefix) ls -> ours k -> run k ls = Some k' -> ours k'.
Proof.
  induction ls as [|lb ls IH]; intros k k' G F O; cbn; [now intros [= <-]|]. inversion F; subst.
  destruct (step k lb) eqn:E; [|discriminate]. intros H. eapply IH; [| | |exact H]; auto; [eapply good_step; eauto|eapply ours_step; eauto].
Qed.

(** The record a reader gets for an entry, if any. *)
Definition seen (e : entry) : list record :=
  if skipped e then [] else match record_from j e with Some r => [r] | None => [] end.

Lemma our_seen e : json_ok j -> our e -> skipped e = false -> exists r ev, record_from j e = Some r /\ seen e = [r] /\ en_stream e = sname (r_stream r)
  /\ r_ssn r = en_num e + 1 /\ r_gsn r = en_commit e /\ row_for j (r_stream r) ev (match en_rec e with Some x => x | None => r end).
Proof.
  intros J (r & ev & Er & Et & Es & R) Hs. unfold seen. rewrite Hs. unfold record_from. rewrite Er.
  destruct R as (_ & R). pose proof R as R'. destruct R' as (_ & _ & _ & _ & Eet & Ed & _). rewrite Eet, (J _ _ Ed).
  eexists _, ev. split; [reflexivity|]. split; [reflexivity|]. cbn. repeat split; tauto.
Qed.

Lemma loop_ours s n es : json_ok j -> (forall e, In e es -> skipped e = true \/ our e) -> (forall e, In e es -> en_stream e = sname s) -> forall t,
  stream_loop j prefix s n t es = map RRec (filter (fun r => n <=? r_ssn r) (flat_map seen es))
    ++ (match t, filter (fun r => n <=? r_ssn r) (flat_map seen es) with O, [] => [RErr EStreamNotFound] | _, _ => [] end).
Proof.
  intros J. induction es as [|e es IH]; intros HO HS t.
  - cbn. destruct t; reflexivity.
  - cbn [stream_loop flat_map]. specialize (IH (fun e' H => HO e' (or_intror H)) (fun e' H => HS e' (or_intror H))).
    assert (Hsk : internal e = true \/ (internal e = false /\ current prefix e = false) \/ (internal e = false /\ current prefix e = true))
      by (destruct (internal e), (current prefix e); auto).
    destruct Hsk as [Hi|[[Hi Hc]|[Hi Hc]]].
    + rewrite Hi. assert (seen e = []) as -> by (unfold seen, skipped; now rewrite Hi). apply IH.
    + rewrite Hi, Hc. cbn [negb]. assert (seen e = []) as -> by (unfold seen, skipped; now rewrite Hi, Hc). apply IH.
    + assert (Hk : skipped e = false) by (unfold skipped; now rewrite Hi, Hc). rewrite Hi, Hc. cbn [negb].
      destruct (HO e (or_introl eq_refl)) as [X|O]; [congruence|]. destruct (our_seen e J O Hk) as (r & ev & Er & Es & En & _). rewrite Er, Es.
      assert (r_stream r = s) as -> by (apply sname_inj; rewrite <- En; apply HS; now left). rewrite String.eqb_refl. cbn [negb].
      cbn [app filter]. destruct (N.ltb_spec (r_ssn r) n) as [Hl|Hl].
      * assert (n <=? r_ssn r = false) as -> by (apply N.leb_gt; lia). apply IH.
      * assert (n <=? r_ssn r = true) as -> by (apply N.leb_le; lia). rewrite IH. cbn. f_equal. destruct t; destruct (filter _ (flat_map seen es)); reflexivity.
Qed.
Lemma all_ours del es : json_ok j -> (forall e, In e es -> skipped e = true \/ our e) ->
  all_loop j prefix recdel del es = map RRec (flat_map seen (filter (fun e => negb (recdel && memb (en_stream e) del)) es)).
Proof.
  intros J. induction es as [|e es IH]; intros HO; [reflexivity|]. specialize (IH (fun e' H => HO e' (or_intror H))). cbn [all_loop filter].
  assert (Hsk : internal e = true \/ (internal e = false /\ current prefix e = false) \/ (internal e = false /\ current prefix e = true))
      by (destruct (internal e), (current prefix e); auto).
  destruct Hsk as [Hi|[[Hi Hc]|[Hi Hc]]].
  - rewrite Hi. destruct (negb _); auto. cbn. assert (seen e = []) as -> by (unfold seen, skipped; now rewrite Hi). apply IH.
  - rewrite Hi, Hc. cbn [negb]. destruct (negb _); auto. cbn. assert (seen e = []) as -> by (unfold seen, skipped; now rewrite Hi, Hc). apply IH.
  - rewrite Hi, Hc. cbn [negb]. assert (Hk : skipped e = false) by (unfold skipped; now rewrite Hi, Hc).
    destruct (recdel && _)%bool; cbn [negb]; auto. destruct (HO e (or_introl eq_refl)) as [X|O]; [congruence|].
    destruct (our_seen e J O Hk) as (r & ev & Er & Es & _). rewrite Er. cbn. rewrite Es, IH. reflexivity.
Qed.
Lemma types_ours ts g del es : json_ok j -> (forall e, In e es -> skipped e = true \/ our e) ->
  types_loop j prefix recdel ts g del es
  = map RRec (filter (fun r => memb (r_atype r) ts && (g <=? r_gsn r)) (flat_map seen (filter (fun e => negb (recdel && memb (en_stream e) del)) es))).
Proof.
  intros J. induction es as [|e es IH]; intros HO; [reflexivity|]. specialize (IH (fun e' H => HO e' (or_intror H))). cbn [types_loop filter].
  assert (Hsk : internal e = true \/ (internal e = false /\ current prefix e = false) \/ (internal e = false /\ current prefix e = true))
      by (destruct (internal e), (current prefix e); auto).
  destruct Hsk as [Hi|[[Hi Hc]|[Hi Hc]]].
  - rewrite Hi. destruct (negb _); auto. cbn [flat_map]. assert (seen e = []) as -> by (unfold seen, skipped; now rewrite Hi). apply IH.
  - rewrite Hi, Hc. cbn [negb]. destruct (negb _); auto. cbn [flat_map]. assert (seen e = []) as -> by (unfold seen, skipped; now rewrite Hi, Hc). apply IH.
  - rewrite Hi, Hc. cbn [negb]. assert (Hk : skipped e = false) by (unfold skipped; now rewrite Hi, Hc).
    destruct (recdel && _)%bool; cbn [negb]; auto. destruct (HO e (or_introl eq_refl)) as [X|O]; [congruence|].
    destruct (our_seen e J O Hk) as (r & ev & Er & Es & _). rewrite Er. cbn [flat_map]. rewrite Es. cbn [app filter].
    destruct (memb (r_atype r) ts); cbn [negb andb]; auto. rewrite N.leb_antisym. destruct (r_gsn r <? g); cbn [negb]; auto. cbn [map]. now rewrite IH.
Qed.

Lemma seen_filter (P : record -> bool) (Q : entry -> bool) es :
  (forall e r, In e es -> seen e = [r] -> P r = true -> Q e = true) ->
  filter P (flat_map seen (filter Q es)) = filter P (flat_map seen es).
Proof.
  induction es as [|e es IH]; intros H; [reflexivity|]. specialize (IH (fun e' r Hi => H e' r (or_intror Hi))).
  assert (K : seen e = [] \/ exists r, seen e = [r]) by (unfold seen; destruct (skipped e); auto; destruct (record_from j e); eauto).
  cbn [filter flat_map]. destruct (Q e) eqn:E.
  - cbn [flat_map]. rewrite !filter_app. now rewrite IH.
  - destruct K as [->|(r & Er)]; [exact IH|]. rewrite Er. cbn [app filter].
    destruct (P r) eqn:EP; [|exact IH]. rewrite (H e r (or_introl eq_refl) Er EP) in E. discriminate.
Qed.
Lemma seen_nums e r : seen e = [r] -> r_gsn r = en_commit e /\ r_ssn r = en_num e + 1.
Proof.
  unfold seen. destruct (skipped e); [discriminate|]. destruct (record_from j e) as [x|] eqn:E; [|discriminate]. intros [= <-].
  eapply record_from_nums; eauto.
Qed.

(** Everything a reader of the whole store is shown. *)
Definition all_seen (k : esconf) : list record := flat_map seen (filter (fun e => negb (recdel && memb (en_stream e) (x_del k))) (x_log k)).
Lemma filter_comm {A} (P Q : A -> bool) l : filter P (filter Q l) = filter Q (filter P l).
Proof. induction l as [|a l IH]; cbn; auto. destruct (Q a) eqn:EQ; destruct (P a) eqn:EP; cbn; rewrite ?EP, ?EQ, ?IH; auto. Qed.
Lemma read_all_seen k g : json_ok j -> ours k ->
  read_all j prefix recdel (x_log k) (x_del k) g = map RRec (filter (fun r => g <=? r_gsn r) (all_seen k)).
Proof.
  intros J O. unfold read_all. rewrite all_ours; auto; [|intros e He; apply filter_In in He as [He _]; auto].
  f_equal. unfold all_seen. rewrite filter_comm. rewrite <- (seen_filter (fun r => g <=? r_gsn r) (fun e => g <=? en_commit e)).
  - symmetry. set (es := filter (fun e => negb (recdel && memb (en_stream e) (x_del k))) (x_log k)).
    induction es as [|e es IH]; [reflexivity|]. cbn [filter]. destruct (g <=? en_commit e) eqn:E; [|exact IH]. cbn [flat_map]. rewrite filter_app, IH. f_equal.
    unfold seen. destruct (skipped e); [reflexivity|]. destruct (record_from j e) as [r|] eqn:Er; [|reflexivity]. cbn. apply record_from_nums in Er as [-> _]. now rewrite E.
  - intros e r _ Es. destruct (seen_nums e r Es) as [-> _]. auto.
Qed.
Lemma read_types_seen k g ts : json_ok j -> ours k ->
  read_types j prefix recdel (x_log k) (x_del k) g ts = map RRec (filter (fun r => memb (r_atype r) ts && (g <=? r_gsn r)) (all_seen k)).
Proof.
  intros J O. unfold read_types. rewrite types_ours; auto; [|intros e He; apply filter_In in He as [He _]; auto].
  f_equal. unfold all_seen. rewrite filter_comm. apply seen_filter. intros e r _ Es H. apply andb_prop in H as [_ H]. destruct (seen_nums e r Es) as [<- _]. exact H.
Qed.
Lemma read_stream_seen k s n : json_ok j -> ours k -> memb (sname s) (x_tomb k) = false -> (recdel = true -> memb (sname s) (x_del k) = false) ->
  read_stream j prefix (x_log k) (x_tomb k) s n
  = match filter (fun r => String.eqb (r_stream r) s && (n <=? r_ssn r)) (all_seen k) with [] => [RErr EStreamNotFound] | rs => map RRec rs end.
Proof.
  intros J O T D. unfold read_stream. rewrite T.
  assert (A : filter (fun r => String.eqb (r_stream r) s && (n <=? r_ssn r)) (all_seen k)
              = filter (fun r => n <=? r_ssn r) (flat_map seen (events_of (sname s) (x_log k)))).
  { unfold all_seen. rewrite seen_filter.
    - unfold events_of. unfold ours in O. revert O. generalize (x_log k). intros es O.
      induction es as [|e es IH]; [reflexivity|]. specialize (IH (fun e' H => O e' (or_intror H))). cbn [flat_map filter]. rewrite filter_app, IH.
      assert (K : skipped e = true \/ exists r, seen e = [r] /\ en_stream e = sname (r_stream r)).
      { destruct (skipped e) eqn:Sk; auto. right. destruct (O e (or_introl eq_refl)) as [X|X]; [congruence|]. destruct (our_seen e J X Sk) as (r & ev & _ & Es & En & _). eauto. }
      destruct K as [K|(r & Er & En)].
      + assert (E : seen e = []) by (unfold seen; now rewrite K). rewrite E. cbn [filter app]. destruct (String.eqb (en_stream e) (sname s)); [cbn [flat_map]; rewrite E; reflexivity|reflexivity].
      + rewrite Er, En. cbn [filter]. destruct (String.eqb_spec (r_stream r) s) as [->|N].
        * rewrite String.eqb_refl. cbn [flat_map andb]. rewrite filter_app, Er. reflexivity.
        * assert (N' : String.eqb (sname (r_stream r)) (sname s) = false) by (apply String.eqb_neq; intros X; apply N; now apply sname_inj in X).
          rewrite N'. reflexivity.
    - intros e r He Er H. apply andb_prop in H as [H _]. apply String.eqb_eq in H. destruct recdel eqn:RD; [|reflexivity].
      destruct (skipped e) eqn:Sk; [unfold seen in Er; rewrite Sk in Er; discriminate|]. destruct (O e He) as [X|X]; [congruence|].
      destruct (our_seen e J X Sk) as (r' & ev & _ & Es & En & _). assert (r' = r) by congruence. subst r'. rewrite En, H, (D eq_refl). reflexivity. }
  rewrite A. destruct (events_of (sname s) (x_log k)) as [|e0 es0] eqn:EV; [reflexivity|]. rewrite <- EV.
  rewrite (loop_ours s n); auto.
  - rewrite (seen_filter (fun r => n <=? r_ssn r) (fun e => zero_based n <=? en_num e)).
    + destruct (filter (fun r => n <=? r_ssn r) (flat_map seen (events_of (sname s) (x_log k)))); [reflexivity|now rewrite app_nil_r].
    + intros e r _ Er H. destruct (seen_nums e r Er) as [_ E]. rewrite E in H. apply N.leb_le in H. apply N.leb_le. unfold zero_based. destruct (N.ltb_spec n 1); lia.
  - intros e He. apply filter_In in He as [He _]. unfold events_of in He. apply filter_In in He as [He _]. auto.
  - intros e He. apply filter_In in He as [He _]. unfold events_of in He. apply filter_In in He as [_ He]. now apply String.eqb_eq.
Qed.
End More.
