(** Acknowledged saves of the PostgreSQL store. *)
From Coq Require Import Sorted Permutation PeanoNat.
From Verif Require Import Base Locks LocksSpec LocksProofs Postgres PostgresSpec PostgresProofs PostgresStream.

Section Ack.
Variable j : jlib.
Variable key : string -> N.
Variable limit : nat.
Notation gstep := (gstep j key limit).
Notation grun := (grun j key limit).
Notation gcase := (gcase j key).
Notation Good := (Good j key).

(** * Calls and the history *)
Record Told (k : pgconf) : Prop := {
  t_inv : forall i o, In (Inv i o) (g_hist k) -> exists p, nth_error (g_calls k) i = Some (mk_pgcall o p);
  t_call : forall i o p, nth_error (g_calls k) i = Some (mk_pgcall o p) -> In (Inv i o) (g_hist k);
  t_ret : forall i x, In (Ret i x) (g_hist k) -> exists o b, nth_error (g_calls k) i = Some (mk_pgcall o (PDone b))
}.

Lemma crash_acts_in a cs : forall n, In a (crash_acts n cs) ->
  exists m c, nth_error cs m = Some c /\ a = Ret (n + m) (OutFailed EDatabase) /\ crash_call c = mk_pgcall (pg_op c) (PDone false).
Proof.
  induction cs as [|c cs IH]; intros n; cbn; [tauto|]. intros H. apply in_app_iff in H as [H|H].
  - exists 0%nat, c. rewrite Nat.add_0_r. split; [reflexivity|]. destruct c as [o p]. unfold crash_call. cbn in *.
    destruct p; cbn in H; try tauto; destruct H as [<-|[]]; auto.
  - destruct (IH _ H) as (m & c' & H1 & H2 & H3). exists (S m), c'. rewrite Nat.add_succ_r. auto.
Qed.

Lemma nth_app_old {A} (l : list A) x i c : nth_error l i = Some c -> nth_error (l ++ [x]) i = Some c.
Proof. intros H. rewrite nth_error_app1; auto. apply nth_error_Some. congruence. Qed.

Lemma qm_hist k i o p p' lk h bc : qm j key k i o p p' lk h bc ->
  (forall i' o', ~ In (Inv i' o') h) /\ (forall i' x, In (Ret i' x) h -> i' = i /\ exists b, p' = PDone b).
Proof. destruct 1; cbn; split; intros; intuition (try discriminate); match goal with H : _ = _ |- _ => injection H as <- <- | _ => idtac end; eauto. Qed.

Lemma qm_done k i o b p' lk h bc : qm j key k i o (PDone b) p' lk h bc -> exists b', p' = PDone b'.
Proof. intros Q. inversion Q; subst; eauto. Qed.

Lemma told_move k i o p p' rows sq lk h bc : Told k -> nth_error (g_calls k) i = Some (mk_pgcall o p) ->
  (forall i' o', ~ In (Inv i' o') h) -> (forall i' x, In (Ret i' x) h -> i' = i /\ exists b, p' = PDone b) ->
  (forall b, p = PDone b -> exists b', p' = PDone b') ->
  Told (mk_pg rows sq lk (upd i (mk_pgcall o p') (g_calls k)) (g_hist k ++ h) bc).
Proof.
  intros [T1 T2 T3] Hn H1 H2 H3. split; cbn [g_hist g_calls].
  - intros a oa H. apply in_app_iff in H as [H|H]; [|exfalso; eapply H1; eauto]. destruct (T1 _ _ H) as (pa & Ha).
    rewrite (nth_upd _ _ _ _ _ Hn). destruct (Nat.eqb_spec a i) as [->|N]; eauto. rewrite Hn in Ha. injection Ha as <- _. eauto.
  - intros a oa pa. rewrite (nth_upd _ _ _ _ _ Hn), in_app_iff. destruct (Nat.eqb_spec a i) as [->|N]; eauto. intros E. injection E as <- _. eauto.
  - intros a x H. rewrite (nth_upd _ _ _ _ _ Hn). apply in_app_iff in H as [H|H].
    + destruct (T3 _ _ H) as (oa & b & Ha). destruct (Nat.eqb_spec a i) as [->|N]; eauto.
      rewrite Hn in Ha. injection Ha as <- ->. destruct (H3 _ eq_refl) as (b' & ->). eauto.
    + destruct (H2 _ _ H) as (-> & b & ->). rewrite Nat.eqb_refl. eauto.
Qed.

Lemma told_step k lb k' : Told k -> gcase k lb k' -> Told k'.
Proof.
  intros HT C. destruct C as [o|lb i o p p' lk h bc Hn Hq|lb i o r todo mine Hn|lb i o mine p' h Hn Hp|lb i o done x Hn Hx|skip].
  - destruct HT as [T1 T2 T3]. split; cbn [g_hist g_calls].
    + intros a oa H. apply in_app_iff in H as [H|[H|[]]].
      * destruct (T1 _ _ H) as (p & Hp). exists p. now apply nth_app_old.
      * injection H as <- <-. exists PNew. rewrite nth_error_app2 by lia. now rewrite Nat.sub_diag.
    + intros a oa p H. rewrite in_app_iff. apply nth_app_new in H as [H|[-> E]]; eauto. injection E as -> _. right. now left.
    + intros a x H. apply in_app_iff in H as [H|[H|[]]]; [|discriminate]. destruct (T3 _ _ H) as (o' & b & Hb). exists o', b. now apply nth_app_old.
  - destruct (qm_hist _ _ _ _ _ _ _ _ Hq) as [Q1 Q2]. eapply told_move; eauto. intros b ->. eapply qm_done; eauto.
  - rewrite <- (app_nil_r (g_hist k)). eapply told_move; eauto; cbn; try tauto. discriminate.
  - eapply told_move; eauto; destruct Hp as [[-> ->]|[-> ->]]; cbn; try tauto; try discriminate.
    + intros a b [?|[]]. discriminate.
    + intros a x [E|[]]. injection E as <- <-. eauto.
  - eapply told_move; eauto; cbn; try discriminate.
    + intros a b [?|[]]. discriminate.
    + intros a y [E|[]]. injection E as <- <-. eauto.
  - destruct HT as [T1 T2 T3]. split; cbn [g_hist g_calls].
    + intros a oa H. apply in_app_iff in H as [H|H].
      * destruct (T1 _ _ H) as (p & Hp). rewrite nth_error_map, Hp. cbn.
        destruct (crash_call_cases (mk_pgcall oa p)) as [[-> _]| ->]; cbn; eauto.
      * apply crash_acts_in in H as (m & c & _ & E & _). discriminate.
    + intros a oa p. rewrite nth_error_map, in_app_iff. destruct (nth_error (g_calls k) a) as [[o0 p0]|] eqn:E0; [|discriminate]. cbn. intros E. injection E as E.
      left. destruct (crash_call_cases (mk_pgcall o0 p0)) as [[E1 _]|E1]; rewrite E1 in E; cbn in E; injection E as <- <-; eauto.
    + intros a x H. rewrite nth_error_map. apply in_app_iff in H as [H|H].
      * destruct (T3 _ _ H) as (o & b & ->). cbn. eauto.
      * apply crash_acts_in in H as (m & c & H1 & E & H3). cbn in E. injection E as -> ->. rewrite H1. cbn. rewrite H3. eauto.
Qed.

Lemma told_start : Told pg_start.
Proof. split; cbn; try tauto. intros i o p. destruct i; discriminate. Qed.

Lemma hist_grows k lb k' : gcase k lb k' -> exists h, g_hist k' = g_hist k ++ h.
Proof. destruct 1; cbn; eauto. exists []. now rewrite app_nil_r. Qed.

Lemma made_app h h' : made (h ++ h') = made h ++ made h'.
Proof. apply flat_map_app. Qed.
Lemma never_deleted_before s h h' : never_deleted s (h ++ h') -> never_deleted s h.
Proof. unfold never_deleted. intros H ex cn Hi. apply (H ex cn). rewrite made_app, in_app_iff. auto. Qed.
Lemma made_inv h i o : In (Inv i o) h -> In o (made h).
Proof. intros H. apply in_flat_map. exists (Inv i o). split; auto. now left. Qed.

Lemma never_deleted_apart s k : Told k -> never_deleted s (g_hist k) -> apart s k.
Proof.
  intros HT Hd i a c c' Hi _ ((ex & cn & Eo) & _) _. exfalso. destruct c as [o p]. cbn in Eo. subst o.
  apply (Hd ex cn). eapply made_inv. eapply t_call; eauto.
Qed.

(** * The committed rows of a stream, save by save *)
Record Blocks (s : string) (bl : list (nat * list record)) (k : pgconf) : Prop := {
  b_rows : rows_of s (g_rows k) = concat (map snd bl);
  b_nodup : NoDup (map fst bl);
  b_call : forall l i b l', bl = l ++ (i, b) :: l' -> exists ex evs cn p,
     nth_error (g_calls k) i = Some (mk_pgcall (OpSave ex s evs cn) p) /\ (p = PSaved b \/ exists d, p = PDone d)
     /\ Forall2 (row_for j s) evs b /\ b <> []
     /\ (forall x, ex = Some x -> x = N.of_nat (length (concat (map snd l))));
  b_saved : forall i ex evs cn mine, nth_error (g_calls k) i = Some (mk_pgcall (OpSave ex s evs cn) (PSaved mine)) -> In (i, mine) bl;
  b_ret : forall i ex evs cn n bc, In (Inv i (OpSave ex s evs cn)) (g_hist k) -> In (Ret i (OutSaved n bc)) (g_hist k) ->
     exists mine, In (i, mine) bl /\ notify j mine = (bc, true) /\ n = last_ssn mine;
  b_fail : forall i b e, In (i, b) bl -> In (Ret i (OutFailed e)) (g_hist k) -> e = EDatabase \/ e = EDeserialize
}.

Lemma snoc_split {A} (bl : list A) x : forall l y l', bl ++ [x] = l ++ y :: l' ->
  (exists l2, l' = l2 ++ [x] /\ bl = l ++ y :: l2) \/ (l' = [] /\ y = x /\ l = bl).
Proof.
  induction bl as [|a bl IH]; intros [|b l] y l' E; cbn in *.
  - injection E as <- <-. auto.
  - injection E as _ E. destruct l; discriminate.
  - injection E as <- <-. left. exists bl. auto.
  - injection E as <- E. destruct (IH _ _ _ E) as [(l2 & -> & ->)|(-> & -> & ->)]; [left|right]; eauto.
Qed.

Lemma in_split_ {A} (x : A) l : In x l -> exists a b, l = a ++ x :: b.
Proof. apply in_split. Qed.

(** A move of one call that leaves the stream's rows alone. *)
Lemma blocks_move s bl k i o p p' rows sq lk h bc : Blocks s bl k -> Told k ->
  nth_error (g_calls k) i = Some (mk_pgcall o p) -> rows_of s rows = rows_of s (g_rows k) ->
  (forall i' o', ~ In (Inv i' o') h) ->
  (forall m, p = PSaved m -> exists d, p' = PDone d) -> (forall d, p = PDone d -> exists d', p' = PDone d') ->
  (forall m, p' <> PSaved m) ->
  (forall i' n bc', In (Ret i' (OutSaved n bc')) h -> i' = i /\ exists m, p = PSaved m /\ notify j m = (bc', true) /\ n = last_ssn m) ->
  (forall i' e, In (Ret i' (OutFailed e)) h -> i' = i /\ (e = EDatabase \/ e = EDeserialize \/ (forall m, p <> PSaved m) /\ (forall d, p <> PDone d))) ->
  Blocks s bl (mk_pg rows sq lk (upd i (mk_pgcall o p') (g_calls k)) (g_hist k ++ h) bc).
Proof.
  intros [B1 B2 B3 B4 B5 B6] HT Hn HR Hinv Hs Hd Hns Hret Hfail. split; cbn [g_rows g_calls g_hist]; auto.
  - congruence.
  - intros l a b l' E. destruct (B3 _ _ _ _ E) as (ex & evs & cn & pa & Ha & Hp & F). rewrite (nth_upd _ _ _ _ _ Hn).
    destruct (Nat.eqb_spec a i) as [->|N]; [|eauto 10]. rewrite Hn in Ha. injection Ha as -> ->. exists ex, evs, cn, p'. split; auto. split; auto.
    right. destruct Hp as [->|(d & ->)]; eauto.
  - intros a ex evs cn mine. rewrite (nth_upd _ _ _ _ _ Hn). destruct (Nat.eqb_spec a i) as [->|N]; eauto.
    intros E. injection E as _ E. exfalso. eapply Hns; eauto.
  - intros a ex evs cn n bc' HI HR'. apply in_app_iff in HI as [HI|HI]; [|exfalso; eapply Hinv; eauto].
    apply in_app_iff in HR' as [HR'|HR']; eauto. destruct (Hret _ _ _ HR') as (-> & m & -> & E & ->). exists m. split; auto.
    destruct (t_inv _ HT _ _ HI) as (pa & Ha). rewrite Hn in Ha. injection Ha as -> _. eauto.
  - intros a b e Hi Hr. apply in_app_iff in Hr as [Hr|Hr]; [eauto|]. destruct (Hfail _ _ Hr) as (-> & [E|[E|[F1 F2]]]); auto.
    exfalso. apply in_split in Hi as (l & l' & E). destruct (B3 _ _ _ _ E) as (ex & evs & cn & pa & Ha & Hp & _). rewrite Hn in Ha. injection Ha as _ <-.
    destruct Hp as [->|(d & ->)]; [eapply F1|eapply F2]; reflexivity.
Qed.

Lemma blocks_step s bl k lb k' : Good k -> Told k -> Stream s k -> never_deleted s (g_hist k') -> Blocks s bl k -> gcase k lb k' ->
  exists bl', Blocks s bl' k'.
Proof.
  intros [[HS HN HU] HL] HT ST Hnd HB C. destruct (hist_grows _ _ _ C) as (hh & Eh). rewrite Eh in Hnd.
  destruct C as [o|lb i o p p' lk h bc Hn Hq|lb i o r todo mine Hn|lb i o mine p' h Hn Hp|lb i o done x Hn Hx|skip].
  - exists bl. destruct HB as [B1 B2 B3 B4 B5 B6]. split; cbn [g_rows g_calls g_hist]; auto.
    + intros l a b l' E. destruct (B3 _ _ _ _ E) as (ex & evs & cn & pa & Ha & F). exists ex, evs, cn, pa. split; auto. now apply nth_app_old.
    + intros a ex evs cn mine H. apply nth_app_new in H as [H|[_ H]]; eauto. discriminate.
    + intros a ex evs cn n bc HI HR. apply in_app_iff in HR as [HR|[?|[]]]; [|discriminate]. apply in_app_iff in HI as [HI|[HI|[]]]; eauto.
      injection HI as <- _. destruct (t_ret _ HT _ _ HR) as (o' & b & Hb). exfalso.
      assert (length (g_calls k) < length (g_calls k))%nat; [|lia]. apply nth_error_Some. congruence.
    + intros a b e Hi Hr. apply in_app_iff in Hr as [Hr|[Hr|[]]]; [eauto|discriminate].
  - exists bl. eapply blocks_move; eauto.
    + eapply qm_hist; eauto.
    + intros m ->. inversion Hq; subst; eauto.
    + intros d ->. eapply qm_done; eauto.
    + intros m ->. inversion Hq.
    + intros a n bc' Ha. inversion Hq; subst; cbn in Ha; try tauto; destruct Ha as [Ha|[]]; injection Ha as <- E.
      * exfalso. eapply H; eauto.
      * split; auto. exists mine. split; auto. destruct (notify j mine) as [l [|]]; cbn in E; [|discriminate]. injection E as <- <-. auto.
    + intros a e Ha. inversion Hq; subst; cbn in Ha; try tauto; destruct Ha as [Ha|[]]; injection Ha as <- E.
      * split; auto. 
      * split; auto. destruct (snd (notify j mine)); [discriminate|]. injection E as <-. auto.
  - exists bl. rewrite <- (app_nil_r (g_hist k)). eapply blocks_move; eauto; cbn; try tauto; try discriminate.
  - pose proof (HS _ _ Hn) as Hi. cbn in Hi. destruct Hi as (ex & s' & e & evs & cn & -> & Hf & H2). rewrite app_nil_r in Hf, H2.
    destruct (string_dec s' s) as [->|Ns].
    + assert (ER : rows_of s (g_rows k ++ mine) = rows_of s (g_rows k) ++ mine) by (rewrite rows_of_app, (rows_of_all s mine); auto).
      destruct (st_ins _ _ ST _ _ _ _ _ _ Hn) as (_ & _ & A3).
      destruct HB as [B1 B2 B3 B4 B5 B6].
      assert (Ni : ~ In i (map fst bl)).
      { intros H. apply in_map_iff in H as ([i' b] & E & H). cbn in E. subst i'. apply in_split in H as (l & l' & E).
        destruct (B3 _ _ _ _ E) as (ex' & evs' & cn' & p & Hp' & Hp'' & _). rewrite Hn in Hp'. injection Hp' as _ _ _ <-. destruct Hp'' as [?|(d & ?)]; discriminate. }
      exists (bl ++ [(i, mine)]). split; cbn [g_rows g_calls g_hist].
      * rewrite ER, B1, map_app, concat_app. cbn. now rewrite app_nil_r.
      * rewrite map_app. cbn. apply (Permutation_NoDup (l := i :: map fst bl)); [apply Permutation_cons_append|]. constructor; auto.
      * intros l a b l' E. apply snoc_split in E as [(l2 & -> & E)|(-> & E & ->)].
        -- destruct (B3 _ _ _ _ E) as (ex' & evs' & cn' & pa & Ha & F). exists ex', evs', cn', pa. split; auto.
           rewrite (nth_upd _ _ _ _ _ Hn). destruct (Nat.eqb_spec a i) as [->|N]; auto. exfalso. apply Ni. rewrite E, map_app, in_app_iff. right. now left.
        -- injection E as -> ->. exists ex, (e :: evs), cn, p'. rewrite (nth_upd _ _ _ _ _ Hn), Nat.eqb_refl. split; auto.
           split; [destruct Hp as [[-> _]|[-> _]]; eauto|]. split; auto. split; [|rewrite <- B1; auto].
           intros ->. inversion H2.
      * intros a ex' evs' cn' mine'. rewrite (nth_upd _ _ _ _ _ Hn), in_app_iff. destruct (Nat.eqb_spec a i) as [->|N]; eauto.
        intros E. injection E as _ _ _ ->. destruct Hp as [[E _]|[E _]]; [|discriminate]. injection E as ->. right. now left.
      * intros a ex' evs' cn' n bc HI HR. destruct Hp as [[-> ->]|[-> ->]].
        -- rewrite app_nil_r in HI, HR. destruct (B5 _ _ _ _ _ _ HI HR) as (m & Hm & F). exists m. rewrite in_app_iff. auto.
        -- apply in_app_iff in HR as [HR|[HR|[]]]; [|discriminate]. apply in_app_iff in HI as [HI|[HI|[]]]; [|discriminate].
           destruct (B5 _ _ _ _ _ _ HI HR) as (m & Hm & F). exists m. rewrite in_app_iff. auto.
      * assert (Nr : forall x, ~ In (Ret i x) (g_hist k)) by (intros x Hr; destruct (t_ret _ HT _ _ Hr) as (o' & d & Hd); congruence).
        intros a b er Hi Hr. assert (Hr' : In (Ret a (OutFailed er)) (g_hist k) \/ a = i /\ er = EDatabase).
        { apply in_app_iff in Hr as [Hr|Hr]; auto. destruct Hp as [[_ ->]|[_ ->]]; [destruct Hr|]. destruct Hr as [Hr|[]]. injection Hr as -> ->. auto. }
        destruct Hr' as [Hr'|[_ ->]]; auto. apply in_app_iff in Hi as [Hi|[Hi|[]]]; [eauto|]. injection Hi as -> _. destruct (Nr _ Hr').
    + assert (ER : rows_of s (g_rows k ++ mine) = rows_of s (g_rows k)) by (rewrite rows_of_app, (rows_of_none s s' mine), app_nil_r; auto).
      destruct Hp as [[-> ->]|[-> ->]].
      * exists bl. destruct HB as [B1 B2 B3 B4 B5 B6]. split; cbn [g_rows g_calls g_hist]; auto.
        -- congruence.
        -- intros l a b l' E. destruct (B3 _ _ _ _ E) as (ex' & evs' & cn' & pa & Ha & F). exists ex', evs', cn', pa. split; auto.
           rewrite (nth_upd _ _ _ _ _ Hn). destruct (Nat.eqb_spec a i) as [->|N]; auto. rewrite Hn in Ha. injection Ha as _ E'. congruence.
        -- intros a ex' evs' cn' mine'. rewrite (nth_upd _ _ _ _ _ Hn). destruct (Nat.eqb_spec a i) as [->|N]; eauto. intros E. injection E as _ E. congruence.
        -- rewrite app_nil_r. auto.
        -- rewrite app_nil_r. auto.
      * exists bl. eapply blocks_move; eauto; cbn; try discriminate.
        -- intros a b [?|[]]. discriminate.
        -- intros a n bc' [?|[]]. discriminate.
        -- intros a er [E|[]]. injection E as -> ->. auto.
  - pose proof (HS _ _ Hn) as Hi. cbn in Hi. destruct Hi as (s' & ex & cn & ->).
    assert (Ns : s' <> s).
    { intros ->. apply (Hnd ex cn). rewrite made_app, in_app_iff. left. eapply made_inv. eapply t_call; eauto. }
    assert (ER : rows_of s (removed_rows done (g_rows k)) = rows_of s (g_rows k)).
    { rewrite rows_removed. apply filter_true. intros r Hr. apply negb_true_iff.
      destruct (existsb (N.eqb (r_gsn r)) done) eqn:E; auto. exfalso. apply existsb_eqb in E.
      apply rows_of_in in Hr as [Hr Hs]. destruct (HU _ _ _ _ _ _ Hn (r_gsn r) E) as [_ A]. apply Ns. rewrite <- Hs. symmetry.
      apply A; auto. apply in_app_iff. auto. }
    exists bl. eapply blocks_move; eauto; cbn; try discriminate.
    + intros a b [?|[]]. discriminate.
    + intros a n bc' [E|[]]. injection E as _ E. destruct Hx; congruence.
    + intros a er [E|[]]. injection E as <- E. split; auto. left. destruct Hx as [->| ->]; congruence.
  - exists bl. destruct HB as [B1 B2 B3 B4 B5 B6]. split; cbn [g_rows g_calls g_hist]; auto.
    + intros l a b l' E. destruct (B3 _ _ _ _ E) as (ex & evs & cn & pa & Ha & Hp & F). rewrite nth_error_map, Ha. cbn.
      destruct Hp as [->|(d & ->)]; cbn; eauto 10.
    + intros a ex evs cn mine. rewrite nth_error_map. destruct (nth_error (g_calls k) a) as [c0|] eqn:E0; [|discriminate]. cbn. intros E. injection E as E.
      destruct (crash_call_cases c0) as [[E1 E2]|E1]; rewrite E1 in E; [subst c0; eauto|discriminate].
    + intros a ex evs cn n bc HI HR. apply in_app_iff in HR as [HR|HR].
      2:{ apply crash_acts_in in HR as (m & c & _ & E & _). discriminate. }
      apply in_app_iff in HI as [HI|HI]; eauto. apply crash_acts_in in HI as (m & c & _ & E & _). discriminate.
    + intros a b e Hi Hr. apply in_app_iff in Hr as [Hr|Hr]; [eauto|]. apply crash_acts_in in Hr as (m & c & _ & E & _). injection E as _ ->. auto.
Qed.

Lemma blocks_start s : Blocks s [] pg_start.
Proof.
  split; cbn; try tauto; try reflexivity; try constructor.
  - intros l i b l' E. destruct l; discriminate.
  - intros i; intros; destruct i; discriminate.
Qed.

Record Kept (s : string) (k : pgconf) : Prop := { kp_good : Good k; kp_told : Told k; kp_stream : Stream s k; kp_blocks : exists bl, Blocks s bl k }.

Lemma kept_run s ls : forall k k', Kept s k -> grun k ls = Some k' -> never_deleted s (g_hist k') -> Kept s k'.
Proof.
  induction ls as [|lb ls IH]; intros k k' HK E Hd; cbn in E; [now injection E as <-|].
  destruct (gstep k lb) as [k1|] eqn:E1; [|discriminate]. pose proof (step_cases _ _ _ _ _ _ E1) as C.
  assert (Hg : exists h, g_hist k' = g_hist k1 ++ h).
  { clear -E. revert k1 E. induction ls as [|lb ls IH]; intros k1 E; cbn in E; [injection E as <-; exists []; now rewrite app_nil_r|].
    destruct (gstep k1 lb) as [k2|] eqn:E2; [|discriminate]. destruct (IH _ E) as (h & ->).
    destruct (hist_grows _ _ _ (step_cases _ _ _ _ _ _ E2)) as (h' & ->). rewrite <- app_assoc. eauto. }
  destruct Hg as (h & Eh). rewrite Eh in Hd.
  assert (Hd1 : never_deleted s (g_hist k1)) by (eapply never_deleted_before; eauto).
  apply (IH k1); auto; [|now rewrite Eh].
  destruct HK as [H1 H2 H3 (bl & H4)].
  assert (Hd0 : never_deleted s (g_hist k)) by (destruct (hist_grows _ _ _ C) as (h' & E'); rewrite E' in Hd1; eapply never_deleted_before; eauto).
  split.
  - eapply good_step; eauto.
  - eapply told_step; eauto.
  - eapply stream_step; eauto. now apply never_deleted_apart.
  - eapply blocks_step; eauto.
Qed.

Lemma kept_start s : Kept s pg_start.
Proof. split; [apply good_start|apply told_start|apply stream_start|exists []; apply blocks_start]. Qed.

End Ack.
