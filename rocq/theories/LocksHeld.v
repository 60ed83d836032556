(** A record nobody takes keeps a read lock, and with it every writer out. *)
From Coq Require Import PeanoNat.
From Verif Require Import Base Locks LocksSpec LocksProofs LocksLive.

Section Held.
Context {S L Q R : Type}.
Variable ob : obj S L Q R.
Notation conf := (conf (S := S) (L := L) (Q := Q) (R := R)).
Notation call := (call (L := L) (Q := Q) (R := R)).
Notation pc := (pc (L := L) (Q := Q) (R := R)).

(** The [j]-th goroutine of call [i] is alive. *)
Definition alive (i j : nat) (k : conf) : Prop :=
  exists o p subs consumer back rd sent, nth_error (k_calls k) i = Some (mk_call o p) /\
    subs_of p = Some (subs, consumer, back) /\ nth_error subs j = Some (SRun rd sent).

(** Nobody takes its record, nor is its context cancelled. *)
Definition moves (i j : nat) (lb : label) : Prop := lb = LSub i j \/ exists b, lb = LCancel i j b.

Record open (n0 i j : nat) (s : S) (k : conf) : Prop := {
  e_j : J k;
  e_h : H k;
  e_alive : alive i j k;
  e_shared : k_shared k = s;
  e_len : (n0 <= length (k_calls k))%nat;
  e_write : forall w o p, (n0 <= w)%nat -> nth_error (k_calls k) w = Some (mk_call o p) -> o_writes ob o <> None ->
     (forall s, o_direct ob o s = None) -> p = CNew \/ p = CWantW \/ p = CWaitW
}.

Lemma alive_pos i j k : J k -> alive i j k -> (0 < k_readers k)%nat.
Proof.
  intros Hj (o & p & subs & consumer & back & rd & sent & Hn & Hs & Hu).
  destruct (sub_running_held _ _ _ _ _ _ _ o Hs Hu) as [Hh _].
  pose proof (readers_ge _ _ _ _ Hj Hn). lia.
Qed.

(** [alive] survives whatever another call, or the call itself, does. *)
Lemma alive_other i j k i1 o1 p1 p1' sh n w h : alive i j k -> nth_error (k_calls k) i1 = Some (mk_call o1 p1) ->
  (forall subs consumer back rd sent, subs_of p1 = Some (subs, consumer, back) -> nth_error subs j = Some (SRun rd sent) -> i1 = i ->
     exists subs' consumer' back', subs_of p1' = Some (subs', consumer', back') /\ exists rd sent, nth_error subs' j = Some (SRun rd sent)) ->
  alive i j (mk_conf sh n w (upd i1 (mk_call o1 p1') (k_calls k)) h).
Proof.
  intros (o & p & subs & consumer & back & rd & sent & Hn & Hs & Hu) H1 Hp.
  destruct (Nat.eq_dec i1 i) as [->|N].
  - rewrite Hn in H1. injection H1 as <- <-.
    destruct (Hp _ _ _ _ _ Hs Hu eq_refl) as (subs' & c' & b' & Hs' & rd' & sent' & Hu').
    exists o, p1', subs', c', b', rd', sent'. cbn. rewrite (nth_upd_eq _ _ _ _ Hn). auto.
  - exists o, p, subs, consumer, back, rd, sent. cbn. rewrite nth_upd_neq by auto. auto.
Qed.

Local Ltac un := unfold note, set_pc, set_lock, set_shared; cbn [k_shared k_readers k_writer k_calls k_hist].

Lemma nth_app_run (l : list (sub (R := R))) u j rd sent : nth_error l j = Some (SRun rd sent) ->
  nth_error (l ++ [u]) j = Some (SRun rd sent).
Proof. intros E. rewrite nth_error_app1; auto. apply nth_error_Some. congruence. Qed.

Lemma open_step n0 i j s k lb k' : open n0 i j s k -> ~ moves i j lb -> kstep ob k lb = Some k' -> open n0 i j s k'.
Proof.
  intros He Hm E. destruct He as [Hj Hh Ha Hs Hl Hw].
  pose proof (alive_pos _ _ _ Hj Ha) as Hpos.
  assert (Hj' : J k') by (eapply J_step; eauto).
  assert (Hh' : H k') by (eapply H_step; eauto).
  (* no call holds the write lock *)
  assert (Now : forall w o p, nth_error (k_calls k) w = Some (mk_call o p) -> wplace p <> Some true).
  { intros w o p Hn Hp. pose proof (j_w2 _ Hj _ (j_w1 _ Hj _ _ _ _ Hn Hp)). lia. }
  assert (Keep : forall i1 o1 p1 p1' n w h, nth_error (k_calls k) i1 = Some (mk_call o1 p1) ->
     k' = mk_conf (k_shared k) n w (upd i1 (mk_call o1 p1') (k_calls k)) h ->
     alive i j k' ->
     ((o_writes ob o1 <> None -> (forall s, o_direct ob o1 s = None) -> p1 = CNew \/ p1 = CWantW \/ p1 = CWaitW -> p1' = CNew \/ p1' = CWantW \/ p1' = CWaitW)) ->
     open n0 i j s k').
  { intros i1 o1 p1 p1' n w h H1 -> Ha' Hp. split; auto; cbn.
    - now rewrite upd_length.
    - intros x ox px Hx. rewrite (nth_upd _ _ _ _ _ H1). destruct (Nat.eqb_spec x i1) as [->|N].
      + intros [= <- <-] W D. apply Hp; auto. eapply Hw; eauto.
      + intros Hn. eapply Hw; eauto. }
  destruct lb as [o|i1|i1 j1|i1 j1 told]; cbn in E.
  - injection E as <-. split; auto; cbn.
    + destruct Ha as (o1 & p & subs & consumer & back & rd & sent & Hn & Hss & Hu).
      exists o1, p, subs, consumer, back, rd, sent. cbn. split; auto. rewrite nth_error_app1; auto.
      apply nth_error_Some. congruence.
    + rewrite app_length. cbn. lia.
    + intros w o1 p Hx. rewrite nth_snoc. destruct (Nat.eqb w _); [intros [= <- <-]; auto|].
      intros Hn. eapply Hw; eauto.
  - destruct (nth_error (k_calls k) i1) as [[o p]|] eqn:Hn; [|discriminate].
    unfold step_call in E. cbn [c_op c_pc] in E. destruct p.
    + destruct (o_direct ob o (k_shared k)) eqn:Ed.
      * injection E as <-. eapply Keep; [eauto|reflexivity| |].
        -- un. eapply alive_other; eauto. cbn. discriminate.
        -- intros _ D _. congruence.
      * destruct (o_writes ob o) eqn:Ew.
        -- injection E as <-. eapply Keep; [eauto|reflexivity| |auto].
           un. eapply alive_other; eauto. cbn. discriminate.
        -- destruct (o_queries ob o); [discriminate|]. injection E as <-. eapply Keep; [eauto|reflexivity| |].
           ++ un. eapply alive_other; eauto. cbn. discriminate.
           ++ congruence.
    + destruct (k_writer k); [discriminate|]. injection E as <-. eapply Keep; [eauto|reflexivity| |auto].
      un. eapply alive_other; eauto. cbn. discriminate.
    + destruct (k_readers k); [lia|discriminate].
    + now destruct (Now _ _ _ Hn).
    + now destruct (Now _ _ _ Hn).
    + injection E as <-. eapply Keep; [eauto|reflexivity| |].
      * un. eapply alive_other; eauto. cbn. discriminate.
      * intros _ _ [?|[?|?]]; discriminate.
    + destruct (k_writer k); injection E as <-; (eapply Keep; [eauto|reflexivity| |intros _ _ [?|[?|?]]; discriminate]);
        un; (eapply alive_other; eauto); cbn; intros s1 c1 b1 rd sent [= <- <- <-] Hu _; eauto 10.
    + discriminate.
    + destruct (o_rbegin ob q (k_shared k)) as [r|y].
      * assert (exists p', k' = set_pc i1 o p' k /\ exists c b, subs_of p' = Some (subs ++ [SRun r []], c, b)) as (p' & -> & c & b & Hp').
        { destruct subs, todo; injection E as <-; eexists; (split; [reflexivity|]); eexists; eexists; reflexivity. }
        eapply Keep; [eauto|reflexivity| |intros _ _ [?|[?|?]]; discriminate].
        un. eapply alive_other; eauto. cbn. intros s1 c1 b1 rd sent [= <- <- <-] Hu _.
        exists (subs ++ [SRun r []]), c, b. split; auto. exists rd, sent. now apply nth_app_run.
      * destruct subs; [|discriminate]. destruct todo; [|discriminate]. injection E as <-.
        eapply Keep; [eauto|reflexivity| |intros _ _ [?|[?|?]]; discriminate].
        un. eapply alive_other; eauto. cbn. intros s1 c1 b1 rd sent [= <- <- <-] Hu _. now destruct j.
    + destruct (forallb ended subs) eqn:He; [|discriminate]. injection E as <-.
      eapply Keep; [eauto|reflexivity| |intros _ _ [?|[?|?]]; discriminate].
      un. eapply alive_other; eauto. cbn. intros s1 c1 b1 rd sent [= <- <- <-] Hu _.
      rewrite forallb_forall in He. specialize (He _ (nth_error_In _ _ Hu)). discriminate.
    + discriminate.
  - destruct (nth_error (k_calls k) i1) as [[o p]|] eqn:Hn; [|discriminate].
    unfold step_sub in E. cbn [c_op c_pc] in E.
    destruct (subs_of p) as [[[subs consumer] back]|] eqn:Hss; [|discriminate].
    destruct (nth_error subs j1) as [[rd sent|]|] eqn:Hsub; try discriminate.
    assert (Sub : forall u' n, k' = mk_conf (k_shared k) n (k_writer k) (upd i1 (mk_call o (back (upd j1 u' subs))) (k_calls k)) (k_hist k) ->
       open n0 i j s k').
    { intros u' n Ek. eapply Keep; [eauto|exact Ek| |intros _ _ [->|[->| ->]]; discriminate].
      rewrite Ek. eapply alive_other; eauto. intros s1 c1 b1 rd1 sent1 Hs1 Hu1 ->.
      assert (Nj : j1 <> j) by (intros ->; apply Hm; now left).
      rewrite Hs1 in Hss. injection Hss as -> -> ->.
      destruct p; cbn in Hs1; try discriminate; injection Hs1 as <- <- <-; eexists _, _, _; cbn;
        (split; [reflexivity|]); exists rd1, sent1; now rewrite nth_upd_neq. }
    destruct (o_rstep ob rd (k_shared k)) as [r1|y r1|].
    + injection E as <-. eapply Sub. reflexivity.
    + destruct consumer; [|discriminate]. injection E as <-. eapply Sub. reflexivity.
    + injection E as <-. eapply Sub. reflexivity.
  - destruct (nth_error (k_calls k) i1) as [[o p]|] eqn:Hn; [|discriminate].
    unfold cancel_sub in E. cbn [c_op c_pc] in E.
    destruct (subs_of p) as [[[subs consumer] back]|] eqn:Hss; [|discriminate].
    destruct (nth_error subs j1) as [[rd sent|]|] eqn:Hsub; try discriminate.
    assert (Sub : forall u' n, k' = mk_conf (k_shared k) n (k_writer k) (upd i1 (mk_call o (back (upd j1 u' subs))) (k_calls k)) (k_hist k) ->
       open n0 i j s k').
    { intros u' n Ek. eapply Keep; [eauto|exact Ek| |intros _ _ [->|[->| ->]]; discriminate].
      rewrite Ek. eapply alive_other; eauto. intros s1 c1 b1 rd1 sent1 Hs1 Hu1 ->.
      assert (Nj : j1 <> j) by (intros ->; apply Hm; right; eauto).
      rewrite Hs1 in Hss. injection Hss as -> -> ->.
      destruct p; cbn in Hs1; try discriminate; injection Hs1 as <- <- <-; eexists _, _, _; cbn;
        (split; [reflexivity|]); exists rd1, sent1; now rewrite nth_upd_neq. }
    destruct (o_rstep ob rd (k_shared k)) as [r1|[y|e] r1|]; try discriminate.
    destruct (implb told consumer); [|discriminate]. injection E as <-. eapply Sub. reflexivity.
Qed.

Lemma open_run n0 i j s ls : forall k k', open n0 i j s k -> (forall lb, In lb ls -> ~ moves i j lb) ->
  krun ob k ls = Some k' -> open n0 i j s k'.
Proof.
  induction ls as [|lb ls IH]; intros k k' Hd Hc E; cbn in E.
  - now injection E as <-.
  - destruct (kstep ob k lb) as [k1|] eqn:E1; [|discriminate].
    apply (IH k1); auto.
    + eapply open_step; eauto. apply Hc. now left.
    + intros lb' Hi. apply Hc. now right.
Qed.

Lemma open_now s ls k i j : krun ob (start s) ls = Some k -> alive i j k -> open (length (k_calls k)) i j (k_shared k) k.
Proof.
  intros E Ha. split; auto.
  - eapply J_krun; [apply J_start|exact E].
  - eapply H_krun; [apply H_start|exact E].
  - intros w o p Hw Hn. rewrite (proj2 (nth_error_None _ _)) in Hn by lia. discriminate.
Qed.

(** The calls of a history, by number. *)
Lemma inv_call ls : forall k k', krun ob k ls = Some k' ->
  (forall i o, In (Inv i o) (k_hist k) -> exists p, nth_error (k_calls k) i = Some (mk_call o p)) ->
  forall i o, In (Inv i o) (k_hist k') -> exists p, nth_error (k_calls k') i = Some (mk_call o p).
Proof.
  induction ls as [|lb ls IH]; intros k k' E Hk; cbn in E.
  - now injection E as <-.
  - destruct (kstep ob k lb) as [k1|] eqn:E1; [|discriminate]. apply (IH k1 k' E).
    clear IH E k'. intros i o.
    assert (Keep : forall i1 o1 p1 p1' h', nth_error (k_calls k) i1 = Some (mk_call o1 p1) ->
      (forall j oj, In (Inv j oj) h' -> In (Inv j oj) (k_hist k)) ->
      In (Inv i o) h' -> exists p, nth_error (upd i1 (mk_call o1 p1') (k_calls k)) i = Some (mk_call o p)).
    { intros i1 o1 p1 p1' h' Hn Hh Hi. destruct (Hk _ _ (Hh _ _ Hi)) as (p & Hp).
      rewrite (nth_upd _ _ _ _ _ Hn). destruct (Nat.eqb_spec i i1) as [->|]; eauto.
      rewrite Hn in Hp. injection Hp as -> _. eauto. }
    assert (Snoc : forall a, (forall j oj, a <> Inv j oj) -> forall j oj, In (Inv j oj) (k_hist k ++ [a]) -> In (Inv j oj) (k_hist k)).
    { intros a Ha j oj Hi. apply in_app_iff in Hi as [Hi|[Hi|[]]]; auto. now apply Ha in Hi. }
    destruct lb as [o0|i1|i1 j1|i1 j1 told]; cbn in E1.
    + injection E1 as <-. cbn. intros Hi. apply in_app_iff in Hi as [Hi|[Hi|[]]].
      * destruct (Hk _ _ Hi) as (p & Hp). exists p. rewrite nth_error_app1; auto. apply nth_error_Some. congruence.
      * injection Hi as <- <-. exists CNew. rewrite nth_snoc, Nat.eqb_refl. reflexivity.
    + destruct (nth_error (k_calls k) i1) as [[o1 p1]|] eqn:Hn; [|discriminate].
      unfold step_call in E1. cbn [c_op c_pc] in E1. destruct p1.
      * destruct (o_direct ob o1 (k_shared k)).
        -- injection E1 as <-. eapply Keep; eauto. apply Snoc. discriminate.
        -- destruct (o_writes ob o1); [injection E1 as <-; eapply Keep; eauto|].
           destruct (o_queries ob o1); [discriminate|]. injection E1 as <-; eapply Keep; eauto.
      * destruct (k_writer k); [discriminate|]. injection E1 as <-; eapply Keep; eauto.
      * destruct (k_readers k); [|discriminate]. destruct (o_writes ob o1); [|discriminate].
        injection E1 as <-; eapply Keep; eauto.
      * destruct (o_wstep ob l (k_shared k)); [| |discriminate]; injection E1 as <-; eapply Keep; eauto.
      * destruct release; injection E1 as <-; [|eapply Keep; eauto; apply Snoc; discriminate].
        cbn. intros Hi. destruct (Hk _ _ Hi) as (p & Hp).
        assert (Hn' : nth_error (map let_in (k_calls k)) i1 = Some (mk_call o1 (CWritten x true)))
          by (rewrite nth_let_in, Hn; reflexivity).
        rewrite (nth_upd _ _ _ _ _ Hn'). destruct (Nat.eqb_spec i i1) as [->|].
        -- rewrite Hn in Hp. injection Hp as -> _. eauto.
        -- rewrite nth_let_in, Hp. cbn. destruct p; cbn; eauto.
      * injection E1 as <-. eapply Keep; eauto. apply Snoc. discriminate.
      * destruct (k_writer k); injection E1 as <-; eapply Keep; eauto.
      * discriminate.
      * destruct (o_rbegin ob q (k_shared k)); destruct subs, todo; try discriminate;
          injection E1 as <-; eapply Keep; eauto.
      * destruct (forallb ended subs); [|discriminate]. injection E1 as <-. eapply Keep; eauto. apply Snoc.
        destruct (existsb was_cut subs); discriminate.
      * discriminate.
    + destruct (nth_error (k_calls k) i1) as [[o1 p1]|] eqn:Hn; [|discriminate].
      unfold step_sub in E1. cbn [c_op c_pc] in E1.
      destruct (subs_of p1) as [[[subs consumer] back]|]; [|discriminate].
      destruct (nth_error subs j1) as [[rd sent|]|]; try discriminate.
      destruct (o_rstep ob rd (k_shared k)); [|destruct consumer; [|discriminate]|];
        injection E1 as <-; eapply Keep; eauto.
    + destruct (nth_error (k_calls k) i1) as [[o1 p1]|] eqn:Hn; [|discriminate].
      unfold cancel_sub in E1. cbn [c_op c_pc] in E1.
      destruct (subs_of p1) as [[[subs consumer] back]|]; [|discriminate].
      destruct (nth_error subs j1) as [[rd sent|]|]; try discriminate.
      destruct (o_rstep ob rd (k_shared k)) as [|[|] ?|]; try discriminate. destruct (implb told consumer); [|discriminate].
      injection E1 as <-; eapply Keep; eauto.
Qed.

(** As long as a record is not taken no writer that comes later is answered, and
    nothing changes. *)
Lemma writers_wait s ls0 k i j ls k' : krun ob (start s) ls0 = Some k -> alive i j k ->
  (forall lb, In lb ls -> ~ moves i j lb) -> krun ob k ls = Some k' ->
  k_shared k' = k_shared k /\
  forall w o, (length (k_calls k) <= w)%nat -> In (Inv w o) (k_hist k') -> o_writes ob o <> None ->
    (forall s, o_direct ob o s = None) -> ~ answered w (k_hist k').
Proof.
  intros E0 Ha Hc E. pose proof (open_now _ _ _ _ _ E0 Ha) as He.
  pose proof (open_run _ _ _ _ _ _ _ He Hc E) as He'. split; [apply He'|].
  intros w o Hw Hi W D Hans.
  assert (Hr : krun ob (start s) (ls0 ++ ls) = Some k').
  { clear -E0 E. revert E0. generalize (start (L := L) (Q := Q) (R := R) s). induction ls0 as [|lb ls0 IH]; intros k0 E0; cbn in *.
    - now injection E0 as ->.
    - destruct (kstep ob k0 lb); [auto|discriminate]. }
  destruct (inv_call _ _ _ Hr (fun i o H => match H with end) _ _ Hi) as (p & Hp).
  destruct (h_done _ (e_h _ _ _ _ _ He') _ Hans) as (o' & Ho'). rewrite Hp in Ho'. injection Ho' as -> ->.
  destruct (e_write _ _ _ _ _ He' _ _ _ Hw Hp W D) as [?|[?|?]]; discriminate.
Qed.

(** Once a writer waits as well, nothing that needs the lock is answered. *)
Definition outside (p : pc) : Prop :=
  p = CNew \/ p = CWantW \/ (exists q todo, p = CWantR [] q todo) \/ (exists q todo, p = CBlocked [] q todo).

Record shut (n0 i j w : nat) (s : S) (k : conf) : Prop := {
  sh_open : open n0 i j s k;
  sh_writer : k_writer k = Some (w, false);
  sh_all : forall x o p, (n0 <= x)%nat -> nth_error (k_calls k) x = Some (mk_call o p) ->
     (forall s, o_direct ob o s = None) -> outside p
}.

Lemma shut_step n0 i j w s k lb k' : shut n0 i j w s k -> ~ moves i j lb -> kstep ob k lb = Some k' -> shut n0 i j w s k'.
Proof.
  intros [Ho Hw Hall] Hm E. pose proof (open_step _ _ _ _ _ _ _ Ho Hm E) as Ho'.
  pose proof (e_j _ _ _ _ _ Ho) as Hj.
  pose proof (alive_pos _ _ _ Hj (e_alive _ _ _ _ _ Ho)) as Hpos.
  assert (Now : forall w o p, nth_error (k_calls k) w = Some (mk_call o p) -> wplace p <> Some true).
  { intros x o p Hn Hp. pose proof (j_w2 _ Hj _ (j_w1 _ Hj _ _ _ _ Hn Hp)). lia. }
  assert (Keep : forall i1 o1 p1 p1' n h, nth_error (k_calls k) i1 = Some (mk_call o1 p1) ->
     k' = mk_conf (k_shared k) n (k_writer k) (upd i1 (mk_call o1 p1') (k_calls k)) h ->
     ((forall s, o_direct ob o1 s = None) -> outside p1 -> outside p1') ->
     shut n0 i j w s k').
  { intros i1 o1 p1 p1' n h H1 Ek Hp. split; auto; subst k'; cbn; auto.
    intros x ox px Hx. rewrite (nth_upd _ _ _ _ _ H1). destruct (Nat.eqb_spec x i1) as [->|N].
    - intros [= <- <-] D. apply Hp; auto. eapply Hall; eauto.
    - intros Hn. eapply Hall; eauto. }
  assert (Out : forall p, outside p -> p <> CNew -> p <> CWantW -> (exists q todo, p = CWantR [] q todo) \/ (exists q todo, p = CBlocked [] q todo)).
  { intros p [?|[?|?]]; tauto. }
  destruct lb as [o|i1|i1 j1|i1 j1 told]; cbn in E.
  - injection E as <-. split; auto; cbn. intros x o1 p Hx. rewrite nth_snoc.
    destruct (Nat.eqb x _); [intros [= <- <-] _; now left|]. intros Hn. eapply Hall; eauto.
  - destruct (nth_error (k_calls k) i1) as [[o p]|] eqn:Hn; [|discriminate].
    unfold step_call in E. cbn [c_op c_pc] in E. destruct p.
    + destruct (o_direct ob o (k_shared k)) eqn:Ed.
      * injection E as <-. eapply Keep; [eauto|reflexivity|]. intros D. congruence.
      * destruct (o_writes ob o) eqn:Ew.
        -- injection E as <-. eapply Keep; [eauto|reflexivity|]. intros _ _. right. now left.
        -- destruct (o_queries ob o) as [|q todo]; [discriminate|]. injection E as <-. eapply Keep; [eauto|reflexivity|].
           intros _ _. right. right. left. eauto.
    + rewrite Hw in E. discriminate.
    + destruct (k_readers k); [lia|discriminate].
    + now destruct (Now _ _ _ Hn).
    + now destruct (Now _ _ _ Hn).
    + injection E as <-. eapply Keep; [eauto|reflexivity|]. intros _ Ho1.
      apply Out in Ho1 as [(? & ? & ?)|(? & ? & ?)]; discriminate.
    + rewrite Hw in E. injection E as <-. eapply Keep; [eauto|reflexivity|]. intros _ Ho1.
      apply Out in Ho1 as [(q1 & t1 & E)|(? & ? & ?)]; try discriminate. injection E as -> -> ->.
      right. right. right. eauto.
    + discriminate.
    + assert (exists p' n h, k' = mk_conf (k_shared k) n (k_writer k) (upd i1 (mk_call o p') (k_calls k)) h) as (p' & n & h & Ek).
      { destruct (o_rbegin ob q (k_shared k)), subs, todo; try discriminate; injection E as <-; eexists _, _, _; reflexivity. }
      eapply Keep; [eauto|exact Ek|]. intros _ Ho1. apply Out in Ho1 as [(? & ? & ?)|(? & ? & ?)]; discriminate.
    + destruct (forallb ended subs) eqn:He; [|discriminate]. injection E as <-.
      eapply Keep; [eauto|reflexivity|]. intros _ Ho1. apply Out in Ho1 as [(? & ? & ?)|(? & ? & ?)]; discriminate.
    + discriminate.
  - destruct (nth_error (k_calls k) i1) as [[o p]|] eqn:Hn; [|discriminate].
    unfold step_sub in E. cbn [c_op c_pc] in E.
    destruct (subs_of p) as [[[subs consumer] back]|] eqn:Hss; [|discriminate].
    destruct (nth_error subs j1) as [[rd sent|]|] eqn:Hsub; try discriminate.
    assert (No : outside p -> False).
    { intros Hp. apply Out in Hp; try (intros ->; discriminate).
      destruct Hp as [(? & ? & ->)|(? & ? & ->)]; cbn in Hss; injection Hss as <- <- <-; now destruct j1. }
    destruct (o_rstep ob rd (k_shared k)); [|destruct consumer; [|discriminate]|]; injection E as <-;
      (eapply Keep; [eauto|reflexivity|]); intros _ Hp; now apply No in Hp.
  - destruct (nth_error (k_calls k) i1) as [[o p]|] eqn:Hn; [|discriminate].
    unfold cancel_sub in E. cbn [c_op c_pc] in E.
    destruct (subs_of p) as [[[subs consumer] back]|] eqn:Hss; [|discriminate].
    destruct (nth_error subs j1) as [[rd sent|]|] eqn:Hsub; try discriminate.
    assert (No : outside p -> False).
    { intros Hp. apply Out in Hp; try (intros ->; discriminate).
      destruct Hp as [(? & ? & ->)|(? & ? & ->)]; cbn in Hss; injection Hss as <- <- <-; now destruct j1. }
    destruct (o_rstep ob rd (k_shared k)) as [|[|] ?|]; try discriminate. destruct (implb told consumer); [|discriminate].
    injection E as <-. eapply Keep; [eauto|reflexivity|]. intros _ Hp; now apply No in Hp.
Qed.

Lemma shut_run n0 i j w s ls : forall k k', shut n0 i j w s k -> (forall lb, In lb ls -> ~ moves i j lb) ->
  krun ob k ls = Some k' -> shut n0 i j w s k'.
Proof.
  induction ls as [|lb ls IH]; intros k k' Hd Hc E; cbn in E.
  - now injection E as <-.
  - destruct (kstep ob k lb) as [k1|] eqn:E1; [|discriminate].
    apply (IH k1); auto.
    + eapply shut_step; eauto. apply Hc. now left.
    + intros lb' Hi. apply Hc. now right.
Qed.

Lemma everybody_waits s ls0 k i j w ls k' : krun ob (start s) ls0 = Some k -> alive i j k -> k_writer k = Some (w, false) ->
  (forall lb, In lb ls -> ~ moves i j lb) -> krun ob k ls = Some k' ->
  forall x o, (length (k_calls k) <= x)%nat -> In (Inv x o) (k_hist k') ->
    (forall s, o_direct ob o s = None) -> ~ answered x (k_hist k').
Proof.
  intros E0 Ha Hw Hc E x o Hx Hi D Hans.
  assert (Hs : shut (length (k_calls k)) i j w (k_shared k) k).
  { split; auto.
    - eapply open_now; eauto.
    - intros y oy py Hy Hn. rewrite (proj2 (nth_error_None _ _)) in Hn by lia. discriminate. }
  pose proof (shut_run _ _ _ _ _ _ _ _ Hs Hc E) as Hs'.
  assert (Hr : krun ob (start s) (ls0 ++ ls) = Some k').
  { clear -E0 E. revert E0. generalize (start (L := L) (Q := Q) (R := R) s). induction ls0 as [|lb ls0 IH]; intros k0 E0; cbn in *.
    - now injection E0 as ->.
    - destruct (kstep ob k0 lb); [auto|discriminate]. }
  destruct (inv_call _ _ _ Hr (fun i o H => match H with end) _ _ Hi) as (p & Hp).
  destruct (h_done _ (e_h _ _ _ _ _ (sh_open _ _ _ _ _ _ Hs')) _ Hans) as (o' & Ho'). rewrite Hp in Ho'. injection Ho' as -> ->.
  destruct (sh_all _ _ _ _ _ _ Hs' _ _ _ Hx Hp D) as [?|[?|[(? & ? & ?)|(? & ? & ?)]]]; discriminate.
Qed.

End Held.
