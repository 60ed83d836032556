(** C111 for PostgreSQL when the confirmation of a commit gets lost. *)
From Coq Require Import PeanoNat Sorted.
From Verif Require Import Base LogSpec StoreSpec Locks LocksSpec Postgres PostgresSpec PostgresProofs PostgresStream PostgresAck PostgresFacts PostgresSeq Properties_Postgres Properties_Stays Properties_StaysBusy.
Open Scope string_scope.
Open Scope list_scope.
Open Scope N_scope.

(** Refuted: call 0 is told 1; call 1 is told that it failed, but its events are stored;
    call 2, expecting 1, is refused, although no change of the stream was confirmed. *)
Definition lost_between : list plabel :=
  [GInvoke (save None "s" ["a"])] ++ steps 0 6 ++ [GInvoke (save None "s" ["b"])] ++ steps 1 4 ++ [GLost 1; GInvoke (save (Some 1) "s" ["c"])] ++ steps 2 3.
Theorem C111_postgres_lost_confirmation_refuted : exists ls k bc,
  grun toy_json fnv32a 10 pg_start ls = Some k
  /\ g_hist k = [Inv 0 (save None "s" ["a"]); Ret 0 (OutSaved 1 bc); Inv 1 (save None "s" ["b"]); Ret 1 (OutFailed EDatabase);
                 Inv 2 (save (Some 1) "s" ["c"]); Ret 2 (OutFailed (EUnexpectedSeq 1 2))]
  /\ ~ stays_right_busy (g_hist k).
Proof.
  assert (E : exists bc, g_hist (the_run lost_between) = [Inv 0 (save None "s" ["a"]); Ret 0 (OutSaved 1 bc); Inv 1 (save None "s" ["b"]); Ret 1 (OutFailed EDatabase);
    Inv 2 (save (Some 1) "s" ["c"]); Ret 2 (OutFailed (EUnexpectedSeq 1 2))]) by (eexists; vm_compute; reflexivity).
  destruct E as (bc & E). exists lost_between, (the_run lost_between), bc. split; [vm_compute; reflexivity|]. split; [exact E|]. rewrite E.
  intros H. destruct (H 0%nat (save None "s" ["a"]) (OutSaved 1 bc) 2%nat (save (Some 1) "s" ["c"]) 1 2 "s" 1) as (m & om & y & N0 & N2 & Im & Hc & Hy & _).
  - now left.
  - exists [Inv 0 (save None "s" ["a"])], [Inv 1 (save None "s" ["b"]); Ret 1 (OutFailed EDatabase)], [Ret 2 (OutFailed (EUnexpectedSeq 1 2))]. reflexivity.
  - cbn. tauto.
  - constructor.
  - constructor.
  - cbn in Im. assert (m = 1%nat) as -> by (intuition congruence).
    assert (y = OutFailed EDatabase) as -> by (symmetry; apply Hy; cbn; tauto). inversion Hc.
Qed.
Print Assumptions C111_postgres_lost_confirmation_refuted.

(** ** However calls overlap, while nobody deletes the stream *)
Section Busy.
Variable j : jlib.
Variable key : string -> N.
Variable limit : nat.
Let gstep := gstep j key limit.
Let grun := grun j key limit.

Lemma batch_other s t i evs : forall n p q, batch_rows j s t i n evs <> inl (EUnexpectedSeq p q).
Proof.
  induction evs as [|e evs IH]; intros n p q; cbn [batch_rows]; [discriminate|].
  repeat match goal with
  | |- context [if ?b then _ else _] => destruct b; try discriminate
  | |- context [match j_data ?x ?y with _ => _ end] => destruct (j_data x y); try discriminate
  | |- context [match j_meta ?x ?y with _ => _ end] => destruct (j_meta x y); try discriminate
  end.
  all: try (match goal with |- context [match ?b with inl _ => _ | inr _ => _ end] => destruct b eqn:E; [|discriminate]; intros [= ->]; exact (IH _ _ _ E) end).
Qed.

(** The step that tells the conflict is the one that looked. *)
Lemma conflict_step k lb k' a p q : gstep k lb = Some k' ->
  In (Ret a (OutFailed (EUnexpectedSeq p q))) (g_hist k') -> ~ In (Ret a (OutFailed (EUnexpectedSeq p q))) (g_hist k) ->
  g_rows k' = g_rows k /\ exists o c, (nth_error (g_calls k) a = Some (mk_pgcall o c) /\ forall d, c <> PDone d)
    /\ (forall ex s evs cn, o = OpSave ex s evs cn -> ex = Some p /\ q = max_ssn s (g_rows k) /\ p <> q)
    /\ (forall ex s cn, o = OpDelete ex s cn -> ex = p /\ q = max_ssn s (g_rows k) /\ p <> q /\ q <> 0).
Proof.
  intros E H H0. unfold gstep in E.
  assert (Ap : forall (h : list act), In (Ret a (OutFailed (EUnexpectedSeq p q))) (g_hist k ++ h) -> In (Ret a (OutFailed (EUnexpectedSeq p q))) h)
    by (intros h Hi; apply in_app_iff in Hi as [Hi|Hi]; [contradiction|exact Hi]).
  destruct lb as [o|i|i|i|i|skip]; cbn [Postgres.gstep] in E.
  - injection E as <-. cbn [g_hist] in H. apply Ap in H. destruct H as [H|[]]. discriminate.
  - destruct (nth_error (g_calls k) i) as [[o c]|] eqn:Hn; [|discriminate]. cbn [pg_op pg_pc] in E.
    assert (Rp : forall x lk kk, kk = reply i o x lk k \/ kk = reply i o x lk (free_locks i k) -> Some kk = Some k' -> x <> OutFailed (EUnexpectedSeq p q) -> False).
    { intros x lk kk [-> | ->] [= <-] Hx; cbn [reply free_locks g_hist] in H; apply Ap in H; destruct H as [H|[]]; congruence. }
    destruct c; cbn [pg_step] in E.
    + destruct (Nat.leb limit (in_use k)); [exfalso; eapply Rp; [left; reflexivity|exact E|destruct o; discriminate]|].
      destruct o as [ex s [|e evs] cn|ex s cn|g|g ts|n s|s cn]; try (injection E as <-; cbn in H; contradiction);
        exfalso; eapply Rp; [left; reflexivity|exact E|discriminate|..]; try (left; reflexivity); try exact E; discriminate.
    + destruct o as [ex s evs cn| | | | |]; try discriminate. destruct (g_locks k (key s)); [discriminate|]. injection E as <-. cbn in H. contradiction.
    + destruct o as [ex s evs cn| | | | |]; try discriminate.
      destruct (match ex with Some x => if max_ssn s (g_rows k) =? x then None else Some (EUnexpectedSeq x (max_ssn s (g_rows k))) | None => None end) as [e|] eqn:Ec.
      * injection E as <-. split; [reflexivity|]. exists (OpSave ex s evs cn), PCheck.
        cbn [reply free_locks g_hist] in H. apply Ap in H. destruct H as [H|[]]. injection H as -> ->. split; [split; [exact Hn|discriminate]|]. split; [|discriminate].
        intros ex' s' evs' cn' [= <- <- <- <-]. destruct ex as [x|]; [|discriminate].
        destruct (N.eqb_spec (max_ssn s (g_rows k)) x); [discriminate|]. injection Ec as <- <-. auto.
      * destruct (batch_rows j s (first_type evs) (first_id evs) (max_ssn s (g_rows k)) evs) as [e|rows] eqn:Eb.
        -- exfalso. eapply Rp; [right; reflexivity|exact E|]. intros [= ->]. exact (batch_other _ _ _ _ _ _ _ Eb).
        -- injection E as <-. cbn in H. contradiction.
    + destruct todo as [|r todo]; injection E as <-; cbn in H; contradiction.
    + exfalso. destruct (notify j mine) as [l [|]]; injection E as <-; cbn in H; apply Ap in H; destruct H as [H|[]]; discriminate.
    + destruct o as [|ex s cn| | | |]; try discriminate. destruct (N.eqb_spec (max_ssn s (g_rows k)) 0) as [|N0]; [exfalso; eapply Rp; [left; reflexivity|exact E|discriminate]|].
      destruct (N.eqb_spec (max_ssn s (g_rows k)) ex) as [|N1]; injection E as <-; [cbn in H; contradiction|]. split; [reflexivity|].
      exists (OpDelete ex s cn), PDelCheck. cbn [reply g_hist] in H. apply Ap in H. destruct H as [H|[]]. injection H as -> <- <-.
      split; [split; [exact Hn|discriminate]|]. split; [discriminate|]. intros ex' s' cn' [= <- <- <-]. auto.
    + destruct o; try discriminate. injection E as <-. cbn in H. contradiction.
    + destruct todo as [|g todo].
      * exfalso. injection E as <-. cbn in H. apply Ap in H. destruct H as [H|[]]. discriminate.
      * destruct (negb _); [injection E as <-; cbn in H; contradiction|]. destruct (locked_by_other _ _ _ _); [discriminate|]. injection E as <-. cbn in H. contradiction.
    + discriminate.
  - exfalso. destruct (nth_error (g_calls k) i) as [[o c]|] eqn:Hn; [|discriminate]. cbn [pg_op pg_pc] in E.
    destruct c; cbn [pg_fail] in E; try discriminate; injection E as <-; cbn [reply free_locks g_hist] in H; apply Ap in H; destruct H as [H|[]]; try discriminate; destruct o; discriminate.
  - exfalso. destruct (nth_error (g_calls k) i) as [[o c]|] eqn:Hn; [|discriminate]. cbn [pg_op pg_pc] in E.
    destruct c as [| | |[|] ?| | | |[|] ?|]; cbn [pg_lost] in E; try discriminate; injection E as <-; cbn [reply free_locks set_rows g_hist] in H; apply Ap in H; destruct H as [H|[]]; discriminate.
  - exfalso. destruct (nth_error (g_calls k) i) as [[o [| | | | | | | |[|]]]|]; try discriminate. injection E as <-. cbn in H. contradiction.
  - exfalso. injection E as <-. cbn [g_hist] in H. apply Ap in H. apply crash_acts_in in H as (m & c & _ & E & _). discriminate.
Qed.

Lemma hist_run ls : forall k k', grun k ls = Some k' -> exists h, g_hist k' = g_hist k ++ h.
Proof.
  induction ls as [|lb ls IH]; intros k k' E; cbn in E; [injection E as <-; exists []; now rewrite app_nil_r|].
  destruct (Postgres.gstep j key limit k lb) as [k1|] eqn:E1; [|discriminate]. destruct (IH _ _ E) as (h & ->).
  destruct (hist_grows _ _ _ _ _ (step_cases _ _ _ _ _ _ E1)) as (h' & ->). rewrite <- app_assoc. eauto.
Qed.
Lemma told_or_not a p q h : In (Ret a (OutFailed (EUnexpectedSeq p q))) h \/ ~ In (Ret a (OutFailed (EUnexpectedSeq p q))) h.
Proof.
  set (is := fun y => match y with Ret b (OutFailed (EUnexpectedSeq p' q')) => Nat.eqb b a && (p' =? p) && (q' =? q) | _ => false end).
  destruct (existsb is h) eqn:E; [left|right].
  - apply existsb_exists in E as (y & Hy & Ey). unfold is in Ey. destruct y as [|b [|[]| | | | |]|]; try discriminate.
    apply andb_prop in Ey as [Ey E3]. apply andb_prop in Ey as [E1 E2]. apply Nat.eqb_eq in E1. apply N.eqb_eq in E2, E3. now subst.
  - intros H. assert (X : existsb is h = true) by (apply existsb_exists; eexists; split; [exact H|]; unfold is; now rewrite Nat.eqb_refl, !N.eqb_refl). congruence.
Qed.
Lemma find_step a p q ls : let x := Ret a (OutFailed (EUnexpectedSeq p q)) in forall k k', grun k ls = Some k' -> In x (g_hist k') -> ~ In x (g_hist k) ->
  exists ls1 lb ls2 k1 k2, ls = ls1 ++ lb :: ls2 /\ grun k ls1 = Some k1 /\ gstep k1 lb = Some k2 /\ grun k2 ls2 = Some k' /\ ~ In x (g_hist k1) /\ In x (g_hist k2).
Proof.
  intros x. induction ls as [|lb ls IH]; intros k k' E H H0; cbn in E; [injection E as <-; contradiction|].
  destruct (Postgres.gstep j key limit k lb) as [k1|] eqn:E1; [|discriminate].
  pose proof (told_or_not a p q (g_hist k1)) as D. fold x in D.
  destruct D as [D|D].
  - exists [], lb, ls, k, k1. repeat split; auto.
  - destruct (IH _ _ E H D) as (ls1 & lb' & ls2 & ka & kb & A0 & A1 & A2 & A3 & A4 & A5). exists (lb :: ls1), lb', ls2, ka, kb.
    split; [now rewrite A0|]. split; [cbn; fold grun; now rewrite E1|]. auto.
Qed.

(** The same for the answer of a count. *)
Lemma total_or_not a n h : In (Ret a (OutTotal n)) h \/ ~ In (Ret a (OutTotal n)) h.
Proof.
  set (is := fun y => match y with Ret b (OutTotal n') => Nat.eqb b a && (n' =? n) | _ => false end).
  destruct (existsb is h) eqn:E; [left|right].
  - apply existsb_exists in E as (y & Hy & Ey). unfold is in Ey. destruct y as [|b []|]; try discriminate.
    apply andb_prop in Ey as [E1 E2]. apply Nat.eqb_eq in E1. apply N.eqb_eq in E2. now subst.
  - intros H. assert (X : existsb is h = true) by (apply existsb_exists; eexists; split; [exact H|]; unfold is; now rewrite Nat.eqb_refl, N.eqb_refl). congruence.
Qed.
Lemma find_total a n ls : let x := Ret a (OutTotal n) in forall k k', grun k ls = Some k' -> In x (g_hist k') -> ~ In x (g_hist k) ->
  exists ls1 lb ls2 k1 k2, grun k ls1 = Some k1 /\ gstep k1 lb = Some k2 /\ grun k2 ls2 = Some k' /\ ~ In x (g_hist k1) /\ In x (g_hist k2).
Proof.
  intros x. induction ls as [|lb ls IH]; intros k k' E H H0; cbn in E; [injection E as <-; contradiction|].
  destruct (Postgres.gstep j key limit k lb) as [k1|] eqn:E1; [|discriminate].
  pose proof (total_or_not a n (g_hist k1)) as D. fold x in D. destruct D as [D|D].
  - exists [], lb, ls, k, k1. repeat split; auto.
  - destruct (IH _ _ E H D) as (ls1 & lb' & ls2 & ka & kb & A1 & A2 & A3 & A4 & A5). exists (lb :: ls1), lb', ls2, ka, kb.
    split; [cbn; fold grun; now rewrite E1|]. auto.
Qed.
Lemma total_step k lb k' a n : gstep k lb = Some k' -> In (Ret a (OutTotal n)) (g_hist k') -> ~ In (Ret a (OutTotal n)) (g_hist k) ->
  exists s cn c, nth_error (g_calls k) a = Some (mk_pgcall (OpTotal s cn) c) /\ n = max_ssn s (g_rows k).
Proof.
  intros E H H0. unfold gstep in E.
  assert (Ap : forall (h : list act), In (Ret a (OutTotal n)) (g_hist k ++ h) -> In (Ret a (OutTotal n)) h)
    by (intros h Hi; apply in_app_iff in Hi as [Hi|Hi]; [contradiction|exact Hi]).
  destruct lb as [o|i|i|i|i|skip]; cbn [Postgres.gstep] in E.
  - injection E as <-. cbn [g_hist] in H. apply Ap in H. destruct H as [H|[]]. discriminate.
  - destruct (nth_error (g_calls k) i) as [[o c]|] eqn:Hn; [|discriminate]. cbn [pg_op pg_pc] in E.
    destruct c; cbn [pg_step] in E.
    + destruct (Nat.leb limit (in_use k)); [exfalso; injection E as <-; cbn in H; apply Ap in H; destruct H as [H|[]]; destruct o; discriminate|].
      destruct o as [ex s [|e evs] cn|ex s cn|g|g ts|m s|s cn]; injection E as <-; cbn in H; try contradiction; apply Ap in H; destruct H as [H|[]]; try discriminate.
      injection H as -> <-. eauto.
    + exfalso. destruct o as [ex s evs cn| | | | |]; try discriminate. destruct (g_locks k (key s)); [discriminate|]. injection E as <-. cbn in H. contradiction.
    + exfalso. destruct o as [ex s evs cn| | | | |]; try discriminate.
      destruct (match ex with Some x => if max_ssn s (g_rows k) =? x then None else Some (EUnexpectedSeq x (max_ssn s (g_rows k))) | None => None end) as [e|];
        [injection E as <-; cbn in H; apply Ap in H; destruct H as [H|[]]; discriminate|].
      destruct (batch_rows j s (first_type evs) (first_id evs) (max_ssn s (g_rows k)) evs); injection E as <-; cbn in H; [|contradiction].
      apply Ap in H; destruct H as [H|[]]; discriminate.
    + exfalso. destruct todo as [|r todo]; injection E as <-; cbn in H; contradiction.
    + exfalso. destruct (notify j mine) as [l [|]]; injection E as <-; cbn in H; apply Ap in H; destruct H as [H|[]]; discriminate.
    + exfalso. destruct o as [|ex s cn| | | |]; try discriminate. destruct (max_ssn s (g_rows k) =? 0); [injection E as <-; cbn in H; apply Ap in H; destruct H as [H|[]]; discriminate|].
      destruct (max_ssn s (g_rows k) =? ex); injection E as <-; cbn in H; [contradiction|]. apply Ap in H; destruct H as [H|[]]; discriminate.
    + exfalso. destruct o; try discriminate. injection E as <-. cbn in H. contradiction.
    + exfalso. destruct todo as [|g todo].
      * injection E as <-. cbn in H. apply Ap in H. destruct H as [H|[]]. discriminate.
      * destruct (negb _); [injection E as <-; cbn in H; contradiction|]. destruct (locked_by_other _ _ _ _); [discriminate|]. injection E as <-. cbn in H. contradiction.
    + discriminate.
  - exfalso. destruct (nth_error (g_calls k) i) as [[o c]|] eqn:Hn; [|discriminate]. cbn [pg_op pg_pc] in E.
    destruct c; cbn [pg_fail] in E; try discriminate; injection E as <-; cbn [reply free_locks g_hist] in H; apply Ap in H; destruct H as [H|[]]; try discriminate; destruct o; discriminate.
  - exfalso. destruct (nth_error (g_calls k) i) as [[o c]|] eqn:Hn; [|discriminate]. cbn [pg_op pg_pc] in E.
    destruct c as [| | |[|] ?| | | |[|] ?|]; cbn [pg_lost] in E; try discriminate; injection E as <-; cbn [reply free_locks set_rows g_hist] in H; apply Ap in H; destruct H as [H|[]]; discriminate.
  - exfalso. destruct (nth_error (g_calls k) i) as [[o [| | | | | | | |[|]]]|]; try discriminate. injection E as <-. cbn in H. contradiction.
  - exfalso. injection E as <-. cbn [g_hist] in H. apply Ap in H. apply crash_acts_in in H as (m & c & _ & E & _). discriminate.
Qed.

Lemma rows_stay s ls0 : forall ls k k', grun pg_start ls0 = Some k -> grun k ls = Some k' -> never_deleted s (g_hist k') ->
  incl (rows_of s (g_rows k)) (rows_of s (g_rows k')).
Proof.
  intros ls. revert ls0. induction ls as [|lb ls IH]; intros ls0 k k' E0 E Hd; cbn in E; [injection E as <-; apply incl_refl|].
  destruct (Postgres.gstep j key limit k lb) as [k1|] eqn:E1; [|discriminate].
  apply (incl_tran (m := rows_of s (g_rows k1))).
  - intros r Hr. apply filter_In in Hr as [Hr Hs]. apply filter_In. split; [|exact Hs].
    assert (D : In r (g_rows k1) \/ ~ In r (g_rows k1)).
    { assert (Dr : forall x y : record, {x = y} + {x <> y}) by (decide equality; try apply string_dec; apply N.eq_dec). destruct (in_dec Dr r (g_rows k1)); auto. }
    destruct D as [D|D]; [exact D|exfalso]. apply String.eqb_eq in Hs.
    destruct (C29_records_vanish_only_by_delete j key limit ls0 k lb k1 r E0 E1 Hr D) as (i & ex & cn & Hi & _).
    rewrite Hs in Hi. apply (Hd ex cn). apply (made_inv _ i). destruct (hist_run _ _ _ E) as (h & ->).
    destruct (hist_grows _ _ _ _ _ (step_cases _ _ _ _ _ _ E1)) as (h' & ->). apply in_or_app. left. apply in_or_app. now left.
  - apply (IH (ls0 ++ [lb])); auto. unfold grun in *. rewrite PostgresSeq.grun_app, E0. cbn. now rewrite E1.
Qed.
Lemma sorted_nodup (l : list record) : StronglySorted gsn_lt l -> NoDup l.
Proof.
  induction 1 as [|r l H IH F]; constructor; auto. intros Hi. rewrite Forall_forall in F. specialize (F _ Hi). unfold gsn_lt in F. lia.
Qed.
End Busy.

(** C111, PostgreSQL, calls overlapping: however they interleave, whatever statements fail
    and whenever the server restarts.  The save [i] was told [n]; then (after [k1]) call [b]
    is made expecting [n].  If it is told of a conflict, the events of somebody else's save
    [m] stand behind those of [i] - and that save was confirmed, is not yet answered, or
    was answered with a database error or a decoding error (see C61).  Missing: streams that
    are deleted, and numbers learned from a count or a conflict. *)
Theorem C111_postgres_overlapping_partial : forall j key limit s ls1 k1 ls2 k2 i ex evs cn n bc b evs' cn' p q,
  grun j key limit pg_start ls1 = Some k1 -> grun j key limit k1 ls2 = Some k2 -> never_deleted s (g_hist k2) ->
  In (Inv i (OpSave ex s evs cn)) (g_hist k1) -> In (Ret i (OutSaved n bc)) (g_hist k1) ->
  (forall o, ~ In (Inv b o) (g_hist k1)) ->
  In (Inv b (OpSave (Some n) s evs' cn')) (g_hist k2) -> In (Ret b (OutFailed (EUnexpectedSeq p q))) (g_hist k2) ->
  exists pre own behind theirs rest m exm evsm cnm,
    rows_of s (g_rows k2) = pre ++ own ++ behind ++ theirs ++ rest
    /\ Forall2 (row_for j s) evs own /\ n = N.of_nat (length (pre ++ own))
    /\ m <> i /\ m <> b /\ In (Inv m (OpSave exm s evsm cnm)) (g_hist k2) /\ evsm <> [] /\ Forall2 (row_for j s) evsm theirs
    /\ (forall e, In (Ret m (OutFailed e)) (g_hist k2) -> e = EDatabase \/ e = EDeserialize).
Proof.
  intros j key limit s ls1 k1 ls2 k2 i ex evs cn n bc b evs' cn' p q E1 E2 Hd Ii Ri Hb Ib Rb.
  assert (T : forall ls k, grun j key limit pg_start ls = Some k -> Told k).
  { intros ls k E. eapply (run_inv j key limit Told); eauto; [|apply told_start]. intros. eapply told_step; eauto. }
  assert (Nb : ~ In (Ret b (OutFailed (EUnexpectedSeq p q))) (g_hist k1)).
  { intros H. destruct (t_ret _ (T _ _ E1) _ _ H) as (o & d & Hn). exact (Hb o (t_call _ (T _ _ E1) _ _ _ Hn)). }
  destruct (find_step j key limit b p q ls2 k1 k2 E2 Rb Nb) as (la & lb & lc & ka & kb & _ & A1 & A2 & A3 & A4 & A5).
  destruct (conflict_step j key limit ka lb kb b p q A2 A5 A4) as (Er & o & c & (Hc & _) & Ho & _).
  assert (Ea : grun j key limit pg_start (ls1 ++ la) = Some ka) by (rewrite PostgresSeq.grun_app, E1; exact A1).
  assert (Eab : grun j key limit ka (lb :: lc) = Some k2) by (cbn; rewrite A2; exact A3).
  assert (E12 : grun j key limit pg_start (ls1 ++ ls2) = Some k2) by (rewrite PostgresSeq.grun_app, E1; exact E2).
  destruct (hist_run j key limit _ _ _ Eab) as (h2 & Eh2). destruct (hist_run j key limit _ _ _ A1) as (h1 & Eh1).
  assert (Hda : never_deleted s (g_hist ka)) by (rewrite Eh2 in Hd; eapply never_deleted_before; eauto).
  assert (o = OpSave (Some n) s evs' cn') as ->.
  { pose proof (t_call _ (T _ _ Ea) _ _ _ Hc) as Hi. destruct (t_inv _ (T _ _ E12) b o) as (c1 & C1); [rewrite Eh2; apply in_or_app; now left|].
    destruct (t_inv _ (T _ _ E12) _ _ Ib) as (c2 & C2). congruence. }
  destruct (Ho _ _ _ _ eq_refl) as (X1 & X2 & X3). injection X1 as ->.
  pose proof (kept_run j key limit s _ _ _ (kept_start j key s) Ea Hda) as Ka.
  pose proof (kept_run j key limit s _ _ _ (kept_start j key s) E12 Hd) as K2.
  assert (Ii' : In (Inv i (OpSave ex s evs cn)) (g_hist ka)) by (rewrite Eh1; apply in_or_app; now left).
  assert (Ri' : In (Ret i (OutSaved p bc)) (g_hist ka)) by (rewrite Eh1; apply in_or_app; now left).
  destruct (acknowledged j key s ka i ex evs cn p bc Ka Ii' Ri') as (pre0 & own0 & post0 & R0 & _ & N0 & F0 & _).
  pose proof (stream_max _ _ (kp_stream _ _ _ _ Ka)) as Mx. rewrite <- X2 in Mx.
  assert (Lq : (N.to_nat p < length (rows_of s (g_rows ka)))%nat).
  { assert (N.to_nat p <= length (rows_of s (g_rows ka)))%nat by (rewrite R0, N0, !app_length, <- (two_length _ _ _ F0); lia). lia. }
  assert (L2 : (N.to_nat p < length (rows_of s (g_rows k2)))%nat).
  { apply (Nat.lt_le_trans _ _ _ Lq). apply NoDup_incl_length; [|eapply rows_stay; eauto].
    apply sorted_nodup. exact (proj2 (C28_concurrent_saves_numbered j key limit s _ _ Ea Hda)). }
  assert (Ii2 : In (Inv i (OpSave ex s evs cn)) (g_hist k2)) by (rewrite Eh2; apply in_or_app; now left).
  assert (Ri2 : In (Ret i (OutSaved p bc)) (g_hist k2)) by (rewrite Eh2; apply in_or_app; now left).
  destruct K2 as [HG HT HS (bl & HB)].
  assert (D : exists l mine r, bl = l ++ (i, mine) :: r /\ Forall2 (row_for j s) evs mine /\ p = N.of_nat (length (concat (map snd l) ++ mine))).
  { destruct (b_ret _ _ _ _ HB _ _ _ _ _ _ Ii2 Ri2) as (mine & M & _ & Hp). apply in_split in M as (l & r & Ebl).
    destruct (b_call _ _ _ _ HB _ _ _ _ Ebl) as (ex1 & ev1 & c1 & p1 & C1 & _ & F & Hne & _).
    destruct (t_inv _ HT _ _ Ii2) as (pc & Q). rewrite C1 in Q. injection Q as -> -> -> _. exists l, mine, r. split; [exact Ebl|]. split; [exact F|].
    rewrite Hp. clear -HB HS Ebl Hne. pose proof (st_ssn _ _ HS) as E1.
    rewrite (b_rows _ _ _ _ HB), Ebl, map_app, concat_app in E1. cbn [map concat snd] in E1. rewrite app_assoc, map_app, app_length, numbers_app in E1.
    apply app_eq_parts in E1 as [E1 _]; [|unfold numbers_from; now rewrite !map_length, seq_length].
    destruct (exists_last Hne) as (m0 & z & ->). rewrite app_assoc in *. rewrite app_length in *. cbn [length] in *. rewrite Nat.add_1_r in *.
    rewrite numbers_snoc, map_app in E1. apply app_inj_tail in E1 as [_ E1]. unfold last_ssn. rewrite fold_left_app. cbn [fold_left]. lia. }
  destruct D as (l & mine & r & Ebl & Fi & Ep).
  assert (ER : rows_of s (g_rows k2) = concat (map snd l) ++ mine ++ concat (map snd r)) by (rewrite (b_rows _ _ _ _ HB), Ebl, map_app, concat_app; reflexivity).
  destruct r as [|[m theirs] r]. { exfalso. rewrite ER in L2. cbn in L2. rewrite app_nil_r in L2. rewrite Ep in L2. lia. }
  pose proof Ebl as Ebl2. change (l ++ (i, mine) :: (m, theirs) :: r) with (l ++ [(i, mine)] ++ (m, theirs) :: r) in Ebl2. rewrite app_assoc in Ebl2.
  destruct (b_call _ _ _ _ HB _ _ _ _ Ebl2) as (exm & evsm & cnm & pm & Cm & _ & Fm & Nm & _).
  assert (Hin : In (m, theirs) bl) by (rewrite Ebl2; apply in_or_app; right; now left).
  exists (concat (map snd l)), mine, [], theirs, (concat (map snd r)), m, exm, evsm, cnm.
  split; [rewrite ER; reflexivity|]. split; [exact Fi|]. split; [exact Ep|]. split; [|split; [|split; [|split; [|split]]]].
  - intros ->. pose proof (b_nodup _ _ _ _ HB) as Nd. rewrite Ebl, map_app in Nd. cbn in Nd. apply NoDup_remove_2 in Nd. apply Nd. apply in_or_app. right. now left.
  - intros ->. destruct (b_fail _ _ _ _ HB _ _ _ Hin Rb); discriminate.
  - eapply t_call; eauto.
  - intros ->. inversion Fm; subst. now apply Nm.
  - exact Fm.
  - intros e He. exact (b_fail _ _ _ _ HB _ _ _ Hin He).
Qed.
Print Assumptions C111_postgres_overlapping_partial.

(** Non-vacuity: two saves race for the position behind the first one. *)
Definition learned : list plabel := [GInvoke (save None "s" ["a"])] ++ steps 0 6.
Definition racing : list plabel := [GInvoke (save (Some 1) "s" ["b"]); GInvoke (save (Some 1) "s" ["c"])] ++ steps 1 1 ++ steps 2 1 ++ steps 1 4 ++ steps 2 2.
Example C111_postgres_overlapping_inhabited : exists k1 k2 bc,
  grun toy_json fnv32a 10 pg_start learned = Some k1 /\ grun toy_json fnv32a 10 k1 racing = Some k2 /\ never_deleted "s" (g_hist k2)
  /\ g_hist k1 = [Inv 0 (save None "s" ["a"]); Ret 0 (OutSaved 1 bc)]
  /\ g_hist k2 = g_hist k1 ++ [Inv 1 (save (Some 1) "s" ["b"]); Inv 2 (save (Some 1) "s" ["c"]); Ret 2 (OutFailed (EUnexpectedSeq 1 2))].
Proof.
  eexists _, _, _. split; [vm_compute; reflexivity|]. split; [vm_compute; reflexivity|]. split; [|split; reflexivity].
  intros ex cn H. vm_compute in H. intuition discriminate.
Qed.

(** ** Numbers learned in any way *)
Lemma told_run j key limit ls k : grun j key limit pg_start ls = Some k -> Told k.
Proof. intros E. eapply (run_inv j key limit Told); eauto; [|apply told_start]. intros. eapply told_step; eauto. Qed.
Lemma rows_longer j key limit s ls0 ls k k' : grun j key limit pg_start ls0 = Some k -> grun j key limit k ls = Some k' -> never_deleted s (g_hist k') ->
  (length (rows_of s (g_rows k)) <= length (rows_of s (g_rows k')))%nat.
Proof.
  intros E0 E Hd. apply NoDup_incl_length; [|eapply rows_stay; eauto]. apply sorted_nodup.
  refine (proj2 (C28_concurrent_saves_numbered j key limit s _ _ E0 _)). destruct (hist_run j key limit _ _ _ E) as (h & Eh). rewrite Eh in Hd. eapply never_deleted_before; eauto.
Qed.
Lemma same_call k k' h i o o' c : Told k -> Told k' -> g_hist k' = g_hist k ++ h -> nth_error (g_calls k) i = Some (mk_pgcall o c) -> In (Inv i o') (g_hist k') -> o = o'.
Proof.
  intros T T' E Hc Hi. pose proof (t_call _ T _ _ _ Hc) as Hi0. destruct (t_inv _ T' i o) as (c1 & C1); [rewrite E; apply in_or_app; now left|].
  destruct (t_inv _ T' _ _ Hi) as (c2 & C2). congruence.
Qed.
Lemma look j key limit s ls k : grun j key limit pg_start ls = Some k -> never_deleted s (g_hist k) -> max_ssn s (g_rows k) = N.of_nat (length (rows_of s (g_rows k))).
Proof. intros E Hd. pose proof (kept_run j key limit s _ _ _ (kept_start j key s) E Hd) as K. exact (stream_max _ _ (kp_stream _ _ _ _ K)). Qed.

Lemma told_at_most j key limit s ls k i o y n : grun j key limit pg_start ls = Some k -> never_deleted s (g_hist k) ->
  In (Inv i o) (g_hist k) -> In (Ret i y) (g_hist k) -> tells s n o y -> n <= N.of_nat (length (rows_of s (g_rows k))).
Proof.
  intros E Hd Ii Ri T. destruct T as [ex evs cn recs|ex evs cn y|ex cn y|cn].
  - pose proof (kept_run j key limit s _ _ _ (kept_start j key s) E Hd) as K.
    destruct (acknowledged j key s k i ex evs cn n recs K Ii Ri) as (pre & own & post & R0 & _ & -> & F & _).
    rewrite R0, !app_length, <- (two_length _ _ _ F). lia.
  - destruct (find_step j key limit i y n ls pg_start k E Ri (fun x => x)) as (la & lb & lc & ka & kb & _ & A1 & A2 & A3 & A4 & A5).
    destruct (conflict_step j key limit ka lb kb i y n A2 A5 A4) as (_ & o & c & (Hc & _) & Ho & _).
    assert (Eab : grun j key limit ka (lb :: lc) = Some k) by (cbn; rewrite A2; exact A3). destruct (hist_run j key limit _ _ _ Eab) as (h & Eh).
    pose proof (same_call _ _ _ _ _ _ _ (told_run _ _ _ _ _ A1) (told_run _ _ _ _ _ E) Eh Hc Ii) as ->.
    destruct (Ho _ _ _ _ eq_refl) as (_ & -> & _). rewrite (look j key limit s la ka A1) by (rewrite Eh in Hd; eapply never_deleted_before; eauto).
    pose proof (rows_longer j key limit s la (lb :: lc) ka k A1 Eab Hd). lia.
  - exfalso. exact (Hd _ _ (made_inv _ _ _ Ii)).
  - destruct (find_total j key limit i n ls pg_start k E Ri (fun x => x)) as (la & lb & lc & ka & kb & A1 & A2 & A3 & A4 & A5).
    destruct (total_step j key limit ka lb kb i n A2 A5 A4) as (s' & cn' & c & Hc & ->).
    assert (Eab : grun j key limit ka (lb :: lc) = Some k) by (cbn; rewrite A2; exact A3). destruct (hist_run j key limit _ _ _ Eab) as (h & Eh).
    pose proof (same_call _ _ _ _ _ _ _ (told_run _ _ _ _ _ A1) (told_run _ _ _ _ _ E) Eh Hc Ii) as X. injection X as -> ->.
    rewrite (look j key limit s la ka A1) by (rewrite Eh in Hd; eapply never_deleted_before; eauto).
    pose proof (rows_longer j key limit s la (lb :: lc) ka k A1 Eab Hd). lia.
Qed.

(** C111, PostgreSQL, calls overlapping, a number learned from a save, a count or a
    conflict: who is told of a conflict although they expected it, finds the stream with
    an event behind number [n] which is of somebody else's save - confirmed, not yet
    answered, or answered with a database or decoding error.  Missing: streams that are
    deleted. *)
Theorem C111_postgres_learned_partial : forall j key limit s ls1 k1 ls2 k2 i o y n b evs cn p q,
  grun j key limit pg_start ls1 = Some k1 -> grun j key limit k1 ls2 = Some k2 -> never_deleted s (g_hist k2) ->
  In (Inv i o) (g_hist k1) -> In (Ret i y) (g_hist k1) -> tells s n o y ->
  (forall o', ~ In (Inv b o') (g_hist k1)) ->
  In (Inv b (OpSave (Some n) s evs cn)) (g_hist k2) -> In (Ret b (OutFailed (EUnexpectedSeq p q))) (g_hist k2) ->
  exists before theirs after r m exm evsm cnm,
    rows_of s (g_rows k2) = before ++ theirs ++ after /\ In r theirs /\ n < r_ssn r
    /\ m <> i /\ m <> b /\ In (Inv m (OpSave exm s evsm cnm)) (g_hist k2) /\ Forall2 (row_for j s) evsm theirs
    /\ (forall e, In (Ret m (OutFailed e)) (g_hist k2) -> e = EDatabase \/ e = EDeserialize).
Proof.
  intros j key limit s ls1 k1 ls2 k2 i o y n b evs cn p q E1 E2 Hd Ii Ri T Hb Ib Rb.
  assert (Nb : ~ In (Ret b (OutFailed (EUnexpectedSeq p q))) (g_hist k1)).
  { intros H. destruct (t_ret _ (told_run _ _ _ _ _ E1) _ _ H) as (o' & d & Hn). exact (Hb o' (t_call _ (told_run _ _ _ _ _ E1) _ _ _ Hn)). }
  destruct (find_step j key limit b p q ls2 k1 k2 E2 Rb Nb) as (la & lb & lc & ka & kb & _ & A1 & A2 & A3 & A4 & A5).
  destruct (conflict_step j key limit ka lb kb b p q A2 A5 A4) as (_ & o' & c & (Hc & _) & Ho & _).
  assert (Ea : grun j key limit pg_start (ls1 ++ la) = Some ka) by (rewrite PostgresSeq.grun_app, E1; exact A1).
  assert (Eab : grun j key limit ka (lb :: lc) = Some k2) by (cbn; rewrite A2; exact A3).
  assert (E12 : grun j key limit pg_start (ls1 ++ ls2) = Some k2) by (rewrite PostgresSeq.grun_app, E1; exact E2).
  destruct (hist_run j key limit _ _ _ Eab) as (h2 & Eh2). destruct (hist_run j key limit _ _ _ A1) as (h1 & Eh1).
  assert (Hda : never_deleted s (g_hist ka)) by (rewrite Eh2 in Hd; eapply never_deleted_before; eauto).
  pose proof (same_call _ _ _ _ _ _ _ (told_run _ _ _ _ _ Ea) (told_run _ _ _ _ _ E12) Eh2 Hc Ib) as ->.
  destruct (Ho _ _ _ _ eq_refl) as (X1 & X2 & X3). injection X1 as ->. rewrite (look j key limit s _ ka Ea Hda) in X2.
  assert (Le : p <= N.of_nat (length (rows_of s (g_rows ka)))).
  { apply (told_at_most j key limit s _ ka i o y p Ea Hda); [rewrite Eh1; apply in_or_app; now left|rewrite Eh1; apply in_or_app; now left|exact T]. }
  pose proof (rows_longer j key limit s _ _ _ _ Ea Eab Hd) as Lg.
  pose proof (kept_run j key limit s _ _ _ (kept_start j key s) E12 Hd) as [HG HT HS (bl & HB)].
  assert (Ii2 : In (Inv i o) (g_hist k2)) by (rewrite Eh2, Eh1; apply in_or_app; left; apply in_or_app; now left).
  assert (Ri2 : In (Ret i y) (g_hist k2)) by (rewrite Eh2, Eh1; apply in_or_app; left; apply in_or_app; now left).
  (* the row numbered p + 1 *)
  assert (Hr : exists r, In r (rows_of s (g_rows k2)) /\ r_ssn r = p + 1).
  { assert (Hi : In (p + 1) (map r_ssn (rows_of s (g_rows k2)))).
    { rewrite (st_ssn _ _ HS). unfold numbers_from. apply in_map_iff. exists (N.to_nat p). split; [lia|]. apply in_seq. lia. }
    apply in_map_iff in Hi as (r & Hs & Hi). exists r. auto. }
  destruct Hr as (r & Hr & Sr). pose proof Hr as Hr'. rewrite (b_rows _ _ _ _ HB) in Hr'. apply in_concat in Hr' as (theirs & Ht & Hrt).
  apply in_map_iff in Ht as ([m th] & Eth & Hin). cbn in Eth. subst th. pose proof Hin as Hsp. apply in_split in Hsp as (l & l' & Ebl).
  destruct (b_call _ _ _ _ HB _ _ _ _ Ebl) as (exm & evsm & cnm & pm & Cm & _ & Fm & Nm & _).
  exists (concat (map snd l)), theirs, (concat (map snd l')), r, m, exm, evsm, cnm.
  split; [rewrite (b_rows _ _ _ _ HB), Ebl, map_app, concat_app; reflexivity|]. split; [exact Hrt|]. split; [lia|]. split; [|split; [|split; [|split]]].
  - intros ->. pose proof (t_call _ HT _ _ _ Cm) as Im. destruct (t_inv _ HT _ _ Ii2) as (c2 & C2). rewrite Cm in C2. injection C2 as <- _.
    inversion T; subst.
    + (* its own events are not behind its number *)
      destruct (b_ret _ _ _ _ HB _ _ _ _ _ _ Ii2 Ri2) as (mine & M & _ & Hp).
      assert (mine = theirs) as ->.
      { pose proof (b_nodup _ _ _ _ HB) as Nd. pose proof (nodup_same fst _ (i, mine) (i, theirs) Nd M Hin eq_refl). congruence. }
      pose proof (st_ssn _ _ HS) as En. rewrite (b_rows _ _ _ _ HB), map_app, concat_app in En. cbn [map concat snd] in En.
      rewrite app_assoc, map_app, app_length, numbers_app in En. apply app_eq_parts in En as [En _]; [|unfold numbers_from; now rewrite !map_length, seq_length].
      assert (Mx : r_ssn r <= N.of_nat (length (concat (map snd l) ++ theirs))).
      { assert (Hi : In (r_ssn r) (map r_ssn (concat (map snd l) ++ theirs))) by (apply in_map, in_or_app; auto).
        rewrite En in Hi. unfold numbers_from in Hi. apply in_map_iff in Hi as (z & Ez & Hz). apply in_seq in Hz. lia. }
      assert (Lp : last_ssn theirs = N.of_nat (length (concat (map snd l) ++ theirs))).
      { clear -En Nm. destruct (exists_last Nm) as (m0 & z & ->). rewrite app_assoc in *. rewrite app_length in *. cbn [length] in *. rewrite Nat.add_1_r in *.
        rewrite numbers_snoc, map_app in En. apply app_inj_tail in En as [_ En]. unfold last_ssn. rewrite fold_left_app. cbn [fold_left]. lia. }
      lia.
    + destruct (b_fail _ _ _ _ HB _ _ _ Hin Ri2); discriminate.
  - intros ->. destruct (b_fail _ _ _ _ HB _ _ _ Hin Rb); discriminate.
  - eapply t_call; eauto.
  - exact Fm.
  - intros e He. exact (b_fail _ _ _ _ HB _ _ _ Hin He).
Qed.
Print Assumptions C111_postgres_learned_partial.

(** Non-vacuity: the number comes from a count. *)
Definition counted : list plabel := learned ++ [GInvoke (OpTotal "s" None)] ++ steps 1 1.
Definition racing2 : list plabel := [GInvoke (save (Some 1) "s" ["b"]); GInvoke (save (Some 1) "s" ["c"])] ++ steps 2 1 ++ steps 3 1 ++ steps 2 4 ++ steps 3 2.
Example C111_postgres_learned_inhabited : exists k1 k2 bc,
  grun toy_json fnv32a 10 pg_start counted = Some k1 /\ grun toy_json fnv32a 10 k1 racing2 = Some k2 /\ never_deleted "s" (g_hist k2)
  /\ g_hist k1 = [Inv 0 (save None "s" ["a"]); Ret 0 (OutSaved 1 bc); Inv 1 (OpTotal "s" None); Ret 1 (OutTotal 1)]
  /\ g_hist k2 = g_hist k1 ++ [Inv 2 (save (Some 1) "s" ["b"]); Inv 3 (save (Some 1) "s" ["c"]); Ret 3 (OutFailed (EUnexpectedSeq 1 2))]
  /\ tells "s" 1 (OpTotal "s" None) (OutTotal 1).
Proof.
  eexists _, _, _. split; [vm_compute; reflexivity|]. split; [vm_compute; reflexivity|]. split; [|split; [reflexivity|split; [reflexivity|constructor]]].
  intros ex cn H. vm_compute in H. intuition discriminate.
Qed.
