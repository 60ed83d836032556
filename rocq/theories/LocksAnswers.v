(** Which answers calls can get. *)
From Coq Require Import PeanoNat.
From Verif Require Import Base Locks LocksSpec LocksProofs.

Section Answers.
Context {S L Q R : Type}.
Variable ob : obj S L Q R.
Notation conf := (conf (S := S) (L := L) (Q := Q) (R := R)).
Notation pc := (pc (L := L) (Q := Q) (R := R)).
Variable wl : L -> Prop.
Variable P : out -> Prop.
Hypothesis a_direct : forall o s x, o_direct ob o s = Some x -> P x.
Hypothesis a_start : forall o l, o_writes ob o = Some l -> wl l.
Hypothesis a_more : forall l s s' l', wl l -> o_wstep ob l s = WMore s' l' -> wl l'.
Hypothesis a_done : forall l s s' x b, wl l -> o_wstep ob l s = WDone s' x b -> P x.
Hypothesis a_now : forall q s x, o_rbegin ob q s = RNow x -> P x.
Hypothesis a_combine : forall o ls, P (o_combine ob o ls).

Definition place_ok (p : pc) : Prop :=
  match p with
  | CWrite l => wl l
  | CWritten x _ | CAfter x => P x
  | _ => True
  end.

Record A (k : conf) : Prop := {
  a_pc : forall i o p, nth_error (k_calls k) i = Some (mk_call o p) -> place_ok p;
  a_hist : forall i x, In (Ret i x) (k_hist k) -> P x
}.

Lemma A_step k lb k' : A k -> kstep ob k lb = Some k' -> A k'.
Proof.
  intros [Hp Hh] E.
  assert (Keep : forall i o p p' sh n w h, nth_error (k_calls k) i = Some (mk_call o p) -> place_ok p' ->
    (forall j x, In (Ret j x) h -> P x) -> A (mk_conf sh n w (upd i (mk_call o p') (k_calls k)) h)).
  { intros i o p p' sh n w h Hn Ho Hx. split; cbn; auto. intros j oj pj. rewrite (nth_upd _ _ _ _ _ Hn).
    destruct (Nat.eqb j i); [now intros [= <- <-]|apply Hp]. }
  assert (Add : forall i x, P x -> forall j y, In (Ret j y) (k_hist k ++ [Ret i x]) -> P y).
  { intros i x Hx j y H. apply in_app_iff in H as [H|[H|[]]]; eauto. now injection H as <- <-. }
  destruct lb as [o|i|i j|i j told]; cbn in E.
  - injection E as <-. split; cbn.
    + intros i oi p. rewrite nth_snoc. destruct (Nat.eqb i _); [intros [= <- <-]; exact Logic.I|apply Hp].
    + intros i x H. apply in_app_iff in H as [H|[H|[]]]; eauto. discriminate.
  - destruct (nth_error (k_calls k) i) as [[o p]|] eqn:Hn; [|discriminate].
    pose proof (Hp _ _ _ Hn) as Ho.
    unfold step_call in E. cbn [c_op c_pc] in E. destruct p.
    + destruct (o_direct ob o (k_shared k)) eqn:Ed.
      * injection E as <-. eapply Keep; eauto; try exact Logic.I.
      * destruct (o_writes ob o); [injection E as <-; eapply Keep; eauto; try exact Logic.I|].
        destruct (o_queries ob o); [discriminate|]. injection E as <-. eapply Keep; eauto; try exact Logic.I.
    + destruct (k_writer k); [discriminate|]. injection E as <-. eapply Keep; eauto; try exact Logic.I.
    + destruct (k_readers k); [|discriminate]. destruct (o_writes ob o) eqn:Ew; [|discriminate].
      injection E as <-. eapply Keep; eauto. cbn. eauto.
    + destruct (o_wstep ob l (k_shared k)) eqn:Ew; [| |discriminate]; injection E as <-; eapply Keep; eauto; cbn; eauto.
    + destruct release; injection E as <-; [|eapply Keep; eauto; try exact Logic.I].
      split; cbn; auto.
      assert (Hn' : nth_error (map let_in (k_calls k)) i = Some (mk_call o (CWritten x true)))
        by (rewrite nth_let_in, Hn; reflexivity).
      intros j oj pj. rewrite (nth_upd _ _ _ _ _ Hn'). destruct (Nat.eqb j i); [now intros [= <- <-]|].
      rewrite nth_let_in. destruct (nth_error (k_calls k) j) as [[o1 p1]|] eqn:Ej; [|discriminate].
      cbn [option_map]. intros H. injection H as H. apply let_in_cases in H as [-> H].
      destruct H as [(subs & q & todo & -> & ->)| ->]; [exact Logic.I|eauto].
    + injection E as <-. eapply Keep; eauto; try exact Logic.I.
    + destruct (k_writer k); injection E as <-; eapply Keep; eauto; try exact Logic.I.
    + discriminate.
    + destruct (o_rbegin ob q (k_shared k)) eqn:Er; destruct subs, todo; try discriminate; injection E as <-;
        eapply Keep; eauto; try exact Logic.I. cbn. eauto.
    + destruct (forallb ended subs); [|discriminate]. injection E as <-. eapply Keep; eauto; try exact Logic.I.
      destruct (existsb was_cut subs); [|apply Add; auto].
      intros j y H. apply in_app_iff in H as [H|[H|[]]]; eauto. discriminate.
    + discriminate.
  - destruct (nth_error (k_calls k) i) as [[o p]|] eqn:Hn; [|discriminate].
    unfold step_sub in E. cbn [c_op c_pc] in E.
    destruct (subs_of p) as [[[subs consumer] back]|] eqn:Hs; [|discriminate].
    assert (Hb : forall l, place_ok (back l)) by (destruct p; cbn in Hs; try discriminate; injection Hs as <- <- <-; cbn; auto).
    destruct (nth_error subs j) as [[rd sent|]|]; try discriminate.
    destruct (o_rstep ob rd (k_shared k)); [|destruct consumer; [|discriminate]|];
      injection E as <-; eapply Keep; eauto.
  - destruct (nth_error (k_calls k) i) as [[o p]|] eqn:Hn; [|discriminate].
    unfold cancel_sub in E. cbn [c_op c_pc] in E.
    destruct (subs_of p) as [[[subs consumer] back]|] eqn:Hs; [|discriminate].
    assert (Hb : forall l, place_ok (back l)) by (destruct p; cbn in Hs; try discriminate; injection Hs as <- <- <-; cbn; auto).
    destruct (nth_error subs j) as [[rd sent|]|]; try discriminate.
    destruct (o_rstep ob rd (k_shared k)) as [|[|] ?|]; try discriminate. destruct (implb told consumer); [|discriminate].
    injection E as <-; eapply Keep; eauto.
Qed.

Lemma answers_ok ls : forall s k, krun ob (start s) ls = Some k -> forall i x, In (Ret i x) (k_hist k) -> P x.
Proof.
  intros s k E. assert (H0 : A (start s)) by (split; cbn; [intros [|i]; discriminate|tauto]).
  assert (Hk : A k); [|apply Hk].
  revert E H0. generalize (start (L := L) (Q := Q) (R := R) s). induction ls as [|lb ls IH]; intros k0 E H0; cbn in E.
  - now injection E as <-.
  - destruct (kstep ob k0 lb) eqn:E1; [|discriminate]. eapply IH; eauto. eapply A_step; eauto.
Qed.

End Answers.

(** Dropping calls whose answer nobody got. *)
Lemma linearizable_weaken (al al' : list op -> list out -> Prop) (keep : nat * op * out -> bool) h :
  (forall order, al (map (fun t => snd (fst t)) order) (map snd order) ->
     (forall i o x, In (i, o, x) order -> In (Inv i o) h) -> NoDup (map (fun t : nat * op * out => fst (fst t)) order) ->
     al' (map (fun t => snd (fst t)) (filter keep order)) (map snd (filter keep order))) ->
  (forall i o x, In (Ret i x) h -> keep (i, o, x) = true) ->
  (forall i o x y, In (Cut i x) h -> cut_short x y -> keep (i, o, y) = true) ->
  linearizable_as al h -> linearizable_as al' h.
Proof.
  intros Hal Hret Hcut (order & H1 & H2 & H3 & H4 & H5 & H6). exists (filter keep order). split; [auto|].
  split.
  { clear -H2. induction order as [|t order IH]; cbn; [constructor|]. inversion H2; subst.
    destruct (keep t); cbn; auto. constructor; auto. rewrite in_map_iff in *. intros (t' & E & Hin).
    apply filter_In in Hin as [Hin _]. eauto. }
  split; [intros i o x Hi; apply filter_In in Hi as [Hi _]; eauto|].
  split; [intros i x Hi; destruct (H4 _ _ Hi) as (o & Ho); exists o; apply filter_In; eauto|].
  split.
  { intros i x Hi. destruct (H5 _ _ Hi) as (o & y & Ho & Hc). exists o, y. split; auto. apply filter_In. split; auto. eauto. }
  intros a i x j o x' Hb Ha Hj. apply filter_In in Hj as [Hj Kj].
  destruct (H6 _ _ _ _ _ _ Hb Ha Hj) as (oi & y & l1 & l2 & l3 & E). exists oi, y.
  assert (Ki : keep (i, oi, y) = true).
  { assert (Hin : In (i, oi, y) order) by (rewrite E; apply in_app_iff; right; now left).
    assert (U : forall t1 t2, In t1 order -> In t2 order -> fst (fst t1) = fst (fst t2) -> t1 = t2).
    { clear -H2. induction order as [|t order IH]; cbn; [tauto|]. inversion H2; subst.
      intros t1 t2 [->|G1] [->|G2] Ef; auto; exfalso; apply H1; apply in_map_iff; eauto. }
    assert (Hah : In a h) by (destruct Hb as (b1 & b2 & b3 & ->); apply in_app_iff; right; now left).
    destruct Ha as [->| ->].
    - destruct (H4 _ _ Hah) as (o' & Ho'). pose proof (U _ _ Hin Ho' eq_refl) as [= -> ->]. eauto.
    - destruct (H5 _ _ Hah) as (o' & y' & Ho' & Hc). pose proof (U _ _ Hin Ho' eq_refl) as [= -> ->]. eauto. }
  exists (filter keep l1), (filter keep l2), (filter keep l3). rewrite E.
  rewrite filter_app. cbn. rewrite Ki, filter_app. cbn. now rewrite Kj.
Qed.

(** The calls of an order are among the calls made. *)
Lemma sum_incl {B} (f : B -> N) (l l' : list B) : NoDup l -> incl l l' ->
  fold_right N.add 0 (map f l) <= fold_right N.add 0 (map f l').
Proof.
  revert l'. induction l as [|x l IH]; intros l' Hn Hi; cbn; [lia|]. inversion Hn; subst.
  assert (Hx : In x l') by (apply Hi; now left). apply in_split in Hx as (l1 & l2 & ->).
  assert (fold_right N.add 0 (map f l) <= fold_right N.add 0 (map f (l1 ++ l2))).
  { apply IH; auto. intros y Hy. assert (y <> x) by congruence.
    assert (In y (l1 ++ x :: l2)) by (apply Hi; now right). rewrite in_app_iff in *. cbn in *. intuition congruence. }
  rewrite !map_app in *. cbn. clear -H.
  assert (G : forall a b, fold_right N.add 0 (a ++ b) = fold_right N.add 0 a + fold_right N.add 0 b).
  { induction a as [|y a IHa]; intros b; cbn; [reflexivity|]. rewrite IHa. lia. }
  rewrite G in *. cbn. lia.
Qed.
