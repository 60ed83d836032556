(** Who can always go on, and who cannot. *)
From Coq Require Import PeanoNat.
From Verif Require Import Base Locks LocksSpec LocksProofs.

Section Live.
Context {S L Q R : Type}.
Variable ob : obj S L Q R.
Notation conf := (conf (S := S) (L := L) (Q := Q) (R := R)).
Notation call := (call (L := L) (Q := Q) (R := R)).
Notation pc := (pc (L := L) (Q := Q) (R := R)).

(** * Facts about the lock that hold for all calls, several types or not *)
Record J (k : conf) : Prop := {
  j_count : k_readers k = total (k_calls k);
  j_w1 : forall i o p b, nth_error (k_calls k) i = Some (mk_call o p) -> wplace p = Some b -> k_writer k = Some (i, b);
  j_w2 : forall w, k_writer k = Some (w, true) -> k_readers k = 0%nat
}.

Lemma J_start s : J (start s).
Proof. split; cbn; auto; try discriminate. intros [|i]; discriminate. Qed.

Lemma J_set k i o p p' n' w' sh h' : J k -> nth_error (k_calls k) i = Some (mk_call o p) ->
  (n' + held (mk_call o p) = k_readers k + held (mk_call o p'))%nat ->
  (forall b, wplace p' = Some b -> w' = Some (i, b)) ->
  (w' = k_writer k \/ k_writer k = None \/ exists b, k_writer k = Some (i, b)) ->
  (forall w, w' = Some (w, true) -> n' = 0%nat) ->
  J (mk_conf sh n' w' (upd i (mk_call o p') (k_calls k)) h').
Proof.
  intros Hj Hn Hc Hp Hw H2.
  split; cbn [k_shared k_readers k_writer k_calls k_hist].
  - unfold total. pose proof (sum_upd held _ _ (mk_call o p') _ Hn). pose proof (j_count _ Hj). unfold total in *. lia.
  - intros j oj pj b. rewrite (nth_upd _ _ _ _ _ Hn). destruct (Nat.eqb_spec j i) as [->|N].
    + intros [= <- <-]. auto.
    + intros E W. pose proof (j_w1 _ Hj _ _ _ _ E W) as Ew.
      destruct Hw as [->|[Hw|(b' & Hw)]]; auto; congruence.
  - auto.
Qed.

Lemma running_upd subs j (u u' : sub (R := R)) : nth_error subs j = Some u ->
  (list_sum (map running (upd j u' subs)) + running u = list_sum (map running subs) + running u')%nat.
Proof. apply sum_upd. Qed.

Lemma held_back (p : pc) subs consumer back o l : subs_of p = Some (subs, consumer, back) ->
  p = back subs /\ (held (mk_call o (back l)) + list_sum (map running subs)
   = held (mk_call o (back subs)) + list_sum (map (@running R) l))%nat
  /\ wplace (back l) = None /\ wplace p = None.
Proof.
  destruct p; cbn; intros E; try discriminate; injection E as <- <- <-; cbn; repeat split; lia.
Qed.

Lemma readers_ge k i o p : J k -> nth_error (k_calls k) i = Some (mk_call o p) -> (held (mk_call o p) <= k_readers k)%nat.
Proof. intros Hj Hn. rewrite (j_count _ Hj). apply (sum_ge held _ _ _ Hn). Qed.

Lemma not_holding k i o p w : J k -> nth_error (k_calls k) i = Some (mk_call o p) -> (0 < held (mk_call o p))%nat ->
  k_writer k <> Some (w, true).
Proof. intros Hj Hn Hh E. pose proof (j_w2 _ Hj _ E). pose proof (readers_ge _ _ _ _ Hj Hn). lia. Qed.

Lemma sub_running_held (p : pc) subs consumer back j rd sent o : subs_of p = Some (subs, consumer, back) ->
  nth_error subs j = Some (SRun rd sent) -> (0 < held (mk_call o p))%nat /\ (0 < list_sum (map (@running R) subs))%nat.
Proof.
  intros Hs Hj. assert (1 <= list_sum (map running subs))%nat by apply (sum_ge running _ _ _ Hj).
  split; [|lia]. destruct p; cbn in *; try discriminate; injection Hs as <- <- <-; lia.
Qed.

Lemma J_step k lb k' : J k -> kstep ob k lb = Some k' -> J k'.
Proof.
  intros Hj E. destruct lb as [o|i|i j|i j told]; cbn in E.
  - injection E as <-. split; cbn.
    + unfold total, list_sum. rewrite map_app, fold_right_app. cbn. apply (j_count _ Hj).
    + intros i oi p b. rewrite nth_snoc. destruct (Nat.eqb i _); [|apply Hj]. intros [= <- <-]. discriminate.
    + apply Hj.
  - destruct (nth_error (k_calls k) i) as [[o p]|] eqn:Hn; [|discriminate].
    unfold step_call in E. cbn [c_op c_pc] in E. destruct p.
    + destruct (o_direct ob o (k_shared k)).
      * injection E as <-. unfold note, set_pc. cbn. eapply J_set; eauto; [discriminate|apply Hj].
      * destruct (o_writes ob o).
        -- injection E as <-. unfold set_pc. eapply J_set; eauto; [discriminate|apply Hj].
        -- destruct (o_queries ob o); [discriminate|]. injection E as <-. unfold set_pc.
           eapply J_set; eauto; [discriminate|apply Hj].
    + destruct (k_writer k) eqn:Hw; [discriminate|]. injection E as <-. unfold set_pc, set_lock.
      cbn [k_shared k_readers k_writer k_calls k_hist]. eapply J_set; eauto.
      * now intros b [= <-].
      * discriminate.
    + destruct (k_readers k) eqn:Hr; [|discriminate]. destruct (o_writes ob o); [|discriminate].
      injection E as <-. unfold set_pc, set_lock. cbn [k_shared k_readers k_writer k_calls k_hist].
      eapply J_set; eauto.
      * now intros b [= <-].
      * right. right. exists false. now apply (j_w1 _ Hj _ _ _ _ Hn).
    + pose proof (j_w1 _ Hj _ _ _ true Hn eq_refl) as Hw.
      destruct (o_wstep ob l (k_shared k)); [| |discriminate]; injection E as <-; unfold set_pc, set_shared;
        cbn [k_shared k_readers k_writer k_calls k_hist]; eapply J_set; eauto;
        try (intros b [= <-]; auto); apply Hj.
    + pose proof (j_w1 _ Hj _ _ _ true Hn eq_refl) as Hw.
      destruct release; injection E as <-.
      * unfold set_pc, unlock. cbn [k_shared k_readers k_writer k_calls k_hist].
        assert (Hn' : nth_error (map let_in (k_calls k)) i = Some (mk_call o (CWritten x true)))
          by (rewrite nth_let_in, Hn; reflexivity).
        split; cbn [k_shared k_readers k_writer k_calls k_hist].
        -- unfold total. pose proof (sum_upd held _ _ (mk_call o (CAfter x)) _ Hn') as E. cbn in E.
           pose proof (total_let_in (k_calls k)) as T. pose proof (j_count _ Hj). unfold total in *. cbn in *. lia.
        -- intros j oj pj b. rewrite (nth_upd _ _ _ _ _ Hn'). destruct (Nat.eqb_spec j i) as [->|N].
           ++ intros [= <- <-]. discriminate.
           ++ rewrite nth_let_in. destruct (nth_error (k_calls k) j) as [[o1 p1]|] eqn:Ej; [|discriminate].
              cbn [option_map]. intros E W. injection E as E. apply let_in_cases in E as [-> E].
              destruct E as [(subs & q & todo & -> & ->)| ->]; [discriminate|].
              pose proof (j_w1 _ Hj _ _ _ _ Ej W). congruence.
        -- discriminate.
      * unfold note, set_pc. cbn. eapply J_set; eauto; [discriminate|apply Hj].
    + injection E as <-. unfold note, set_pc. cbn. eapply J_set; eauto; [discriminate|apply Hj].
    + destruct (k_writer k) eqn:Hw; injection E as <-.
      * unfold set_pc. eapply J_set; eauto; [discriminate|apply Hj].
      * unfold set_pc, set_lock. cbn [k_shared k_readers k_writer k_calls k_hist].
        eapply J_set; eauto; try discriminate. cbn. lia.
    + discriminate.
    + pose proof (readers_ge _ _ _ _ Hj Hn) as Hge. cbn in Hge.
      assert (Hnw : forall w, k_writer k <> Some (w, true)) by (intros w; eapply not_holding; eauto; cbn; lia).
      assert (G : forall r, J (set_pc i o (CRead (subs ++ [SRun r []])) k) /\
                  forall q' todo', J (set_pc i o (CWantR (subs ++ [SRun r []]) q' todo') k)).
      { intros r. split; [|intros q' todo']; unfold set_pc; eapply J_set; eauto; try discriminate;
          try (intros w Hw; now apply Hnw in Hw); cbn; rewrite map_app; unfold list_sum;
          rewrite fold_right_app; cbn; clear;
          induction subs as [|u subs IH]; cbn; lia. }
      destruct (o_rbegin ob q (k_shared k)) as [r|x].
      * destruct subs, todo as [|q' todo']; injection E as <-; apply G.
      * destruct subs; [|discriminate]. destruct todo; [|discriminate]. injection E as <-.
        unfold set_pc, set_lock. cbn [k_shared k_readers k_writer k_calls k_hist].
        eapply J_set; eauto; try discriminate.
        -- cbn in *. lia.
        -- intros w Hw. now apply Hnw in Hw.
    + destruct (forallb ended subs) eqn:He; [|discriminate]. injection E as <-.
      assert (Z : held (mk_call o (CRead subs) : call) = 0%nat).
      { cbn. clear -He. induction subs as [|[r l|l b] subs IH]; cbn in *; auto. discriminate. }
      destruct (existsb was_cut subs); unfold note, set_pc; cbn; eapply J_set; eauto; try discriminate; apply Hj.
    + discriminate.
  - destruct (nth_error (k_calls k) i) as [[o p]|] eqn:Hn; [|discriminate].
    unfold step_sub in E. cbn [c_op c_pc] in E.
    destruct (subs_of p) as [[[subs consumer] back]|] eqn:Hs; [|discriminate].
    destruct (nth_error subs j) as [[rd sent|]|] eqn:Hsub; try discriminate.
    destruct (sub_running_held _ _ _ _ _ _ _ o Hs Hsub) as [Hh Hpos].
    assert (Hnw : forall w, k_writer k <> Some (w, true)) by (intros w; eapply not_holding; eauto).
    pose proof (readers_ge _ _ _ _ Hj Hn) as Hge.
    assert (G : forall u', running u' = 1%nat -> J (set_pc i o (back (upd j u' subs)) k)).
    { intros u' Hu'. destruct (held_back p subs consumer back o (upd j u' subs) Hs) as (Ep & Hb & W & _).
      pose proof (running_upd subs j _ u' Hsub) as Hr. cbn in Hr.
      unfold set_pc. eapply J_set; eauto.
      - rewrite Ep in *. lia.
      - rewrite W. discriminate.
      - intros w Hw. now apply Hnw in Hw. }
    destruct (o_rstep ob rd (k_shared k)) as [rd'|x rd'|].
    + injection E as <-. now apply G.
    + destruct consumer; [|discriminate]. injection E as <-. now apply G.
    + injection E as <-. destruct (held_back p subs consumer back o (upd j (SEnd sent false) subs) Hs) as (Ep & Hb & W & _).
      pose proof (running_upd subs j _ (SEnd sent false) Hsub) as Hr. cbn in Hr.
      unfold set_pc, set_lock. cbn [k_shared k_readers k_writer k_calls k_hist]. eapply J_set; eauto.
      * rewrite Ep in *. lia.
      * rewrite W. discriminate.
      * intros w Hw. now apply Hnw in Hw.
  - destruct (nth_error (k_calls k) i) as [[o p]|] eqn:Hn; [|discriminate].
    unfold cancel_sub in E. cbn [c_op c_pc] in E.
    destruct (subs_of p) as [[[subs consumer] back]|] eqn:Hs; [|discriminate].
    destruct (nth_error subs j) as [[rd sent|]|] eqn:Hsub; try discriminate.
    destruct (sub_running_held _ _ _ _ _ _ _ o Hs Hsub) as [Hh Hpos].
    assert (Hnw : forall w, k_writer k <> Some (w, true)) by (intros w; eapply not_holding; eauto).
    pose proof (readers_ge _ _ _ _ Hj Hn) as Hge.
    destruct (o_rstep ob rd (k_shared k)) as [rd'|[x|e] rd'|]; try discriminate.
    destruct (implb told consumer); [|discriminate]. injection E as <-.
    match goal with |- context [upd j ?u subs] =>
      destruct (held_back p subs consumer back o (upd j u subs) Hs) as (Ep & Hb & W & _);
      pose proof (running_upd subs j _ u Hsub) as Hr; cbn in Hr end.
    unfold set_pc, set_lock. cbn [k_shared k_readers k_writer k_calls k_hist]. eapply J_set; eauto.
    * rewrite Ep in *. lia.
    * rewrite W. discriminate.
    * intros w Hw. now apply Hnw in Hw.
Qed.

Lemma J_krun ls : forall k k', J k -> krun ob k ls = Some k' -> J k'.
Proof.
  induction ls as [|lb ls IH]; intros k k' Hj E; cbn in E.
  - now injection E as <-.
  - destruct (kstep ob k lb) as [k1|] eqn:E1; [|discriminate]. eapply IH; [|exact E]. eapply J_step; eauto.
Qed.

(** * The deadlock *)

(** Call [i] waits for a second read lock while its [j]-th goroutine, which holds
    one, has a record for the consumer; call [w] waits for the write lock. *)
Record jammed (i j w : nat) (k : conf) : Prop := {
  d_j : J k;
  d_writer : k_writer k = Some (w, false);
  d_w : exists ow, nth_error (k_calls k) w = Some (mk_call ow CWaitW);
  d_i : exists oi subs q todo rd sent x rd',
     nth_error (k_calls k) i = Some (mk_call oi (CBlocked subs q todo)) /\
     nth_error subs j = Some (SRun rd sent) /\ o_rstep ob rd (k_shared k) = RSend x rd'
}.

Definition cancels (i j : nat) (lb : label) : Prop := exists b, lb = LCancel i j b.

Lemma jammed_step i j w k lb k' : jammed i j w k -> ~ cancels i j lb -> kstep ob k lb = Some k' -> jammed i j w k'.
Proof.
  intros [Hj Hw (ow & Hnw) (oi & subs & q & todo & rd & sent & x & rd' & Hni & Hsub & Hst)] Hc E.
  assert (Hj' : J k') by (eapply J_step; eauto).
  assert (Hpos : (0 < k_readers k)%nat).
  { pose proof (readers_ge _ _ _ _ Hj Hni). cbn in H. pose proof (sum_ge running _ _ _ Hsub). cbn in H0. lia. }
  assert (Hiw : i <> w) by (intros ->; congruence).
  (* the shape is kept when another call changes its place *)
  assert (Keep : forall i1 o1 p1 p1' n' h', nth_error (k_calls k) i1 = Some (mk_call o1 p1) -> i1 <> i -> i1 <> w ->
     J (mk_conf (k_shared k) n' (k_writer k) (upd i1 (mk_call o1 p1') (k_calls k)) h') ->
     jammed i j w (mk_conf (k_shared k) n' (k_writer k) (upd i1 (mk_call o1 p1') (k_calls k)) h')).
  { intros i1 o1 p1 p1' n' h' H1 N1 N2 HJ. split; cbn; auto.
    - exists ow. now rewrite nth_upd_neq.
    - exists oi, subs, q, todo, rd, sent, x, rd'. now rewrite nth_upd_neq. }
  destruct lb as [o|i1|i1 j1|i1 j1 told]; cbn in E.
  - injection E as <-. split; cbn; auto.
    + exists ow. rewrite nth_snoc. destruct (Nat.eqb_spec w (length (k_calls k))) as [->|N]; auto.
      rewrite (proj2 (nth_error_None _ _)) in Hnw by lia. discriminate.
    + exists oi, subs, q, todo, rd, sent, x, rd'. rewrite nth_snoc.
      destruct (Nat.eqb_spec i (length (k_calls k))) as [->|N]; auto.
      rewrite (proj2 (nth_error_None _ _)) in Hni by lia. discriminate.
  - destruct (nth_error (k_calls k) i1) as [[o p]|] eqn:Hn; [|discriminate].
    destruct (Nat.eq_dec i1 i) as [->|N1]; [rewrite Hni in Hn; injection Hn as <- <-; discriminate|].
    destruct (Nat.eq_dec i1 w) as [->|N2].
    { rewrite Hnw in Hn. injection Hn as <- <-. cbn in E. destruct (k_readers k); [lia|discriminate]. }
    unfold step_call in E. cbn [c_op c_pc] in E. destruct p.
    + destruct (o_direct ob o (k_shared k)).
      * injection E as <-. eapply Keep; eauto.
      * destruct (o_writes ob o).
        -- injection E as <-. eapply Keep; eauto.
        -- destruct (o_queries ob o); [discriminate|]. injection E as <-. eapply Keep; eauto.
    + rewrite Hw in E. discriminate.
    + pose proof (j_w1 _ Hj _ _ _ false Hn eq_refl). congruence.
    + pose proof (j_w1 _ Hj _ _ _ true Hn eq_refl). congruence.
    + pose proof (j_w1 _ Hj _ _ _ true Hn eq_refl). congruence.
    + injection E as <-. eapply Keep; eauto.
    + rewrite Hw in E. injection E as <-. eapply Keep; eauto.
    + discriminate.
    + destruct (o_rbegin ob q0 (k_shared k)) as [r|y].
      * destruct subs0, todo0; injection E as <-; eapply Keep; eauto.
      * destruct subs0; [|discriminate]. destruct todo0; [|discriminate]. injection E as <-. eapply Keep; eauto.
    + destruct (forallb ended subs0); [|discriminate]. injection E as <-. eapply Keep; eauto.
    + discriminate.
  - destruct (nth_error (k_calls k) i1) as [[o p]|] eqn:Hn; [|discriminate].
    unfold step_sub in E. cbn [c_op c_pc] in E.
    destruct (Nat.eq_dec i1 w) as [->|N2].
    { rewrite Hnw in Hn. injection Hn as <- <-. discriminate. }
    destruct (subs_of p) as [[[subs1 consumer] back]|] eqn:Hs; [|discriminate].
    destruct (nth_error subs1 j1) as [[rd1 sent1|]|] eqn:Hsub1; try discriminate.
    destruct (Nat.eq_dec i1 i) as [->|N1].
    + rewrite Hni in Hn. injection Hn as <- <-. injection Hs as <- <- <-.
      assert (Nj : j1 <> j).
      { intros ->. rewrite Hsub in Hsub1. injection Hsub1 as <- <-. rewrite Hst in E. discriminate. }
      destruct (o_rstep ob rd1 (k_shared k)) as [r1|y r1|]; [| discriminate |]; injection E as <-;
        (split; cbn; auto; [exists ow; now rewrite nth_upd_neq|]).
      * exists oi, (upd j1 (SRun r1 sent1) subs), q, todo, rd, sent, x, rd'.
        rewrite (nth_upd_eq _ _ _ _ Hni). rewrite nth_upd_neq; auto.
      * exists oi, (upd j1 (SEnd sent1 false) subs), q, todo, rd, sent, x, rd'.
        rewrite (nth_upd_eq _ _ _ _ Hni). rewrite nth_upd_neq; auto.
    + destruct (o_rstep ob rd1 (k_shared k)) as [r1|y r1|].
      * injection E as <-. eapply Keep; eauto.
      * destruct consumer; [|discriminate]. injection E as <-. eapply Keep; eauto.
      * injection E as <-. eapply Keep; eauto.
  - destruct (nth_error (k_calls k) i1) as [[o p]|] eqn:Hn; [|discriminate].
    unfold cancel_sub in E. cbn [c_op c_pc] in E.
    destruct (Nat.eq_dec i1 w) as [->|N2].
    { rewrite Hnw in Hn. injection Hn as <- <-. discriminate. }
    destruct (subs_of p) as [[[subs1 consumer] back]|] eqn:Hs; [|discriminate].
    destruct (nth_error subs1 j1) as [[rd1 sent1|]|] eqn:Hsub1; try discriminate.
    destruct (o_rstep ob rd1 (k_shared k)) as [r1|[y|e] r1|]; try discriminate.
    destruct (implb told consumer); [|discriminate]. injection E as <-.
    destruct (Nat.eq_dec i1 i) as [->|N1].
    + rewrite Hni in Hn. injection Hn as <- <-. injection Hs as <- <- <-.
      assert (Nj : j1 <> j) by (intros ->; apply Hc; now exists told).
      split; cbn; auto; [exists ow; now rewrite nth_upd_neq|].
      eexists oi, _, q, todo, rd, sent, x, rd'.
      rewrite (nth_upd_eq _ _ _ _ Hni). split; [reflexivity|]. rewrite nth_upd_neq; auto.
    + eapply Keep; eauto.
Qed.

Lemma jammed_run i j w ls : forall k k', jammed i j w k -> (forall lb, In lb ls -> ~ cancels i j lb) ->
  krun ob k ls = Some k' -> jammed i j w k'.
Proof.
  induction ls as [|lb ls IH]; intros k k' Hd Hc E; cbn in E.
  - now injection E as <-.
  - destruct (kstep ob k lb) as [k1|] eqn:E1; [|discriminate].
    apply (IH k1); auto.
    + eapply jammed_step; eauto. apply Hc. now left.
    + intros lb' H. apply Hc. now right.
Qed.

(** An answered call has ended. *)
Record H (k : conf) : Prop := {
  h_done : forall i, answered i (k_hist k) -> exists o, nth_error (k_calls k) i = Some (mk_call o CDone);
}.

Lemma H_start s : H (start s).
Proof. split. intros i (x & [[]|[]]). Qed.

Lemma answered_snoc i h a : answered i (h ++ [a]) ->
  answered i h \/ (exists x, a = Ret i x \/ a = Cut i x).
Proof.
  intros (x & Hx). rewrite !in_app_iff in Hx. cbn in Hx.
  destruct Hx as [[Hx|[Hx|[]]]|[Hx|[Hx|[]]]]; subst; eauto; left; exists x; auto.
Qed.

Lemma H_step k lb k' : H k -> kstep ob k lb = Some k' -> H k'.
Proof.
  intros [Hh] E.
  assert (Keep : forall i1 o1 p1 p1' sh n' w', nth_error (k_calls k) i1 = Some (mk_call o1 p1) -> p1 <> CDone ->
    H (mk_conf sh n' w' (upd i1 (mk_call o1 p1') (k_calls k)) (k_hist k))).
  { intros i1 o1 p1 p1' sh n' w' Hn Np. split. cbn. intros i Ha. destruct (Hh _ Ha) as (o & Ho). exists o.
    rewrite (nth_upd _ _ _ _ _ Hn). destruct (Nat.eqb_spec i i1) as [->|]; auto. congruence. }
  assert (Done : forall i1 o1 p1 sh n' w' a, nth_error (k_calls k) i1 = Some (mk_call o1 p1) -> p1 <> CDone ->
    (exists x, a = Ret i1 x \/ a = Cut i1 x) ->
    H (mk_conf sh n' w' (upd i1 (mk_call o1 CDone) (k_calls k)) (k_hist k ++ [a]))).
  { intros i1 o1 p1 sh n' w' a Hn Np (y & Ha). split. cbn. intros i Hi.
    apply answered_snoc in Hi as [Hi|(x & Hx)].
    - destruct (Hh _ Hi) as (o & Ho). exists o.
      rewrite (nth_upd _ _ _ _ _ Hn). destruct (Nat.eqb_spec i i1) as [->|]; auto. congruence.
    - assert (i = i1) as -> by (destruct Ha as [->| ->], Hx as [[=]|[=]]; auto).
      exists o1. now rewrite (nth_upd_eq _ _ _ _ Hn). }
  destruct lb as [o|i1|i1 j1|i1 j1 told]; cbn in E.
  - injection E as <-. split. cbn. intros i Ha. apply answered_snoc in Ha as [Ha|(x & [Hx|Hx])]; try discriminate.
    destruct (Hh _ Ha) as (oi & Ho). exists oi. rewrite nth_snoc.
    destruct (Nat.eqb_spec i (length (k_calls k))) as [->|]; auto.
    rewrite (proj2 (nth_error_None _ _)) in Ho by lia. discriminate.
  - destruct (nth_error (k_calls k) i1) as [[o p]|] eqn:Hn; [|discriminate].
    unfold step_call in E. cbn [c_op c_pc] in E. destruct p.
    + destruct (o_direct ob o (k_shared k)).
      * injection E as <-. eapply Done; eauto. discriminate.
      * destruct (o_writes ob o).
        -- injection E as <-. eapply Keep; eauto. discriminate.
        -- destruct (o_queries ob o); [discriminate|]. injection E as <-. eapply Keep; eauto. discriminate.
    + destruct (k_writer k); [discriminate|]. injection E as <-. eapply Keep; eauto. discriminate.
    + destruct (k_readers k); [|discriminate]. destruct (o_writes ob o); [|discriminate]. injection E as <-.
      eapply Keep; eauto. discriminate.
    + destruct (o_wstep ob l (k_shared k)); [| |discriminate]; injection E as <-; eapply Keep; eauto; discriminate.
    + destruct release; injection E as <-; [|eapply Done; eauto; discriminate].
      split. cbn. intros i Ha. destruct (Hh _ Ha) as (oi & Ho). exists oi.
      rewrite nth_upd_neq by congruence. rewrite nth_let_in, Ho. reflexivity.
    + injection E as <-. eapply Done; eauto. discriminate.
    + destruct (k_writer k); injection E as <-; eapply Keep; eauto; discriminate.
    + discriminate.
    + destruct (o_rbegin ob q (k_shared k)) as [r|y].
      * destruct subs, todo; injection E as <-; eapply Keep; eauto; discriminate.
      * destruct subs; [|discriminate]. destruct todo; [|discriminate]. injection E as <-. eapply Keep; eauto. discriminate.
    + destruct (forallb ended subs); [|discriminate]. injection E as <-. eapply Done; eauto; [discriminate|].
      destruct (existsb was_cut subs); eauto.
    + discriminate.
  - destruct (nth_error (k_calls k) i1) as [[o p]|] eqn:Hn; [|discriminate].
    unfold step_sub in E. cbn [c_op c_pc] in E.
    destruct (subs_of p) as [[[subs1 consumer] back]|] eqn:Hs; [|discriminate].
    assert (Np : p <> CDone) by (intros ->; discriminate).
    destruct (nth_error subs1 j1) as [[rd1 sent1|]|] eqn:Hsub1; try discriminate.
    destruct (o_rstep ob rd1 (k_shared k)) as [r1|y r1|].
    + injection E as <-. eapply Keep; eauto.
    + destruct consumer; [|discriminate]. injection E as <-. eapply Keep; eauto.
    + injection E as <-. eapply Keep; eauto.
  - destruct (nth_error (k_calls k) i1) as [[o p]|] eqn:Hn; [|discriminate].
    unfold cancel_sub in E. cbn [c_op c_pc] in E.
    destruct (subs_of p) as [[[subs1 consumer] back]|] eqn:Hs; [|discriminate].
    assert (Np : p <> CDone) by (intros ->; discriminate).
    destruct (nth_error subs1 j1) as [[rd1 sent1|]|] eqn:Hsub1; try discriminate.
    destruct (o_rstep ob rd1 (k_shared k)) as [r1|[y|e] r1|]; try discriminate.
    destruct (implb told consumer); [|discriminate]. injection E as <-. eapply Keep; eauto.
Qed.

Lemma H_krun ls : forall k k', H k -> krun ob k ls = Some k' -> H k'.
Proof.
  induction ls as [|lb ls IH]; intros k k' Hh E; cbn in E.
  - now injection E as <-.
  - destruct (kstep ob k lb) as [k1|] eqn:E1; [|discriminate]. eapply IH; [|exact E]. eapply H_step; eauto.
Qed.

(** Nobody gets out of the jam: neither the reader, nor the writer. *)
Lemma jammed_forever i j w s ls0 ls k k' : krun ob (start s) ls0 = Some k -> jammed i j w k ->
  (forall lb, In lb ls -> ~ cancels i j lb) -> krun ob k ls = Some k' ->
  ~ answered i (k_hist k') /\ ~ answered w (k_hist k').
Proof.
  intros E0 Hd Hc E.
  assert (Hd' : jammed i j w k') by (eapply jammed_run; eauto).
  assert (Hh : H k').
  { eapply H_krun; [|exact E]. eapply H_krun; [|exact E0]. apply H_start. }
  destruct Hd' as [_ _ (ow & Hnw) (oi & subs & q & todo & rd & sent & x & rd' & Hni & _)].
  split; intros Ha; apply (h_done _ Hh) in Ha as (o & Ho); congruence.
Qed.

End Live.
