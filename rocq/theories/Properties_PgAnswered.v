(** C61: no call to the PostgreSQL store is forgotten. *)
From Coq Require Import PeanoNat.
From Verif Require Import Base LogSpec StoreSpec Locks LocksSpec LocksProofs Postgres PostgresSpec PostgresProofs PostgresStream PostgresAck PostgresFacts Properties_Postgres.
Open Scope string_scope.
Open Scope list_scope.
Open Scope N_scope.

Section Answered.
Variable j : jlib.
Variable key : string -> N.
Variable limit : nat.

Definition Done_told (k : pgconf) : Prop := forall i o b, nth_error (g_calls k) i = Some (mk_pgcall o (PDone b)) -> exists x, In (Ret i x) (g_hist k).

Lemma crash_told cs : forall n m o p, nth_error cs m = Some (mk_pgcall o p) -> pg_pc (crash_call (mk_pgcall o p)) = PDone false -> (forall b, p <> PDone b) ->
  In (Ret (n + m) (OutFailed EDatabase)) (crash_acts n cs).
Proof.
  induction cs as [|c cs IH]; intros n [|m] o p H Hc Hp; try discriminate; cbn [nth_error crash_acts] in *.
  - injection H as ->. rewrite Nat.add_0_r. cbn [pg_pc]. apply in_or_app. left. destruct p; cbn in Hc; try discriminate; try (now left). exfalso. eapply Hp; reflexivity.
  - apply in_or_app. right. rewrite Nat.add_succ_r. exact (IH (S n) m o p H Hc Hp).
Qed.

Lemma done_step k lb k' : Done_told k -> gcase j key k lb k' -> Done_told k'.
Proof.
  intros D C.
  assert (Up : forall i1 o1 p1 p' rows sq lk h bc, nth_error (g_calls k) i1 = Some (mk_pgcall o1 p1) ->
    (forall b, p' = PDone b -> exists x, In (Ret i1 x) (g_hist k ++ h)) ->
    Done_told (mk_pg rows sq lk (upd i1 (mk_pgcall o1 p') (g_calls k)) (g_hist k ++ h) bc)).
  { intros i1 o1 p1 p' rows sq lk h bc Hn Hp i o b H. cbn [g_calls g_hist] in *. rewrite (nth_upd _ _ _ _ _ Hn) in H. destruct (Nat.eqb_spec i i1) as [->|].
    - injection H as <- ->. eauto.
    - destruct (D _ _ _ H) as (x & Hx). exists x. apply in_or_app. now left. }
  destruct C as [o|lb i o p p' lk h bc Hn Hq|lb i o r todo mine Hn|lb i o mine p' h Hn Hp|lb i o done x Hn Hx|skip].
  - intros i o' b H. cbn [g_calls g_hist] in *. destruct (Nat.eq_dec i (length (g_calls k))) as [->|Hi].
    + rewrite nth_error_app2, Nat.sub_diag in H by lia. cbn in H. discriminate.
    + destruct (Nat.lt_ge_cases i (length (g_calls k))) as [L|L].
      * rewrite nth_error_app1 in H by assumption. destruct (D _ _ _ H) as (x & Hx). exists x. apply in_or_app. now left.
      * exfalso. assert (X : nth_error (g_calls k ++ [mk_pgcall o PNew]) i = None) by (apply nth_error_None; rewrite app_length; cbn; lia). congruence.
  - eapply Up; [exact Hn|]. intros b ->. inversion Hq; subst; try (eexists; apply in_or_app; right; left; reflexivity).
    destruct (D _ _ _ Hn) as (x & Hx). exists x. apply in_or_app. now left.
  - rewrite <- (app_nil_r (g_hist k)). eapply Up; [exact Hn|discriminate].
  - eapply Up; [exact Hn|]. intros b ->. destruct Hp as [[X _]|[_ ->]]; [discriminate|]. eexists. apply in_or_app. right. now left.
  - eapply Up; [exact Hn|]. intros b _. eexists. apply in_or_app. right. now left.
  - intros i o b H. cbn [g_calls g_hist] in *. rewrite nth_error_map in H. destruct (nth_error (g_calls k) i) as [[o1 p1]|] eqn:Hn; [|discriminate]. cbn in H. injection H as H.
    destruct (match p1 with PDone b1 => Some b1 | _ => None end) as [b1|] eqn:Eb.
    + destruct p1; try discriminate. destruct (D _ _ _ Hn) as (x & Hx). exists x. apply in_or_app. now left.
    + exists (OutFailed EDatabase). apply in_or_app. right. apply (crash_told (g_calls k) 0 i o1 p1 Hn).
      * destruct p1; try discriminate; reflexivity.
      * intros b2 ->. discriminate.
Qed.
End Answered.

(** In every run - any interleaving, failing statements, lost confirmations, restarts -
    a call that was made and not yet answered can still be: by its own next step, or, if
    it waits in the database, when that gives up. *)
Theorem C61_no_call_forgotten : forall j key limit ls k i o,
  grun j key limit pg_start ls = Some k -> In (Inv i o) (g_hist k) -> (forall x, ~ In (Ret i x) (g_hist k)) ->
  exists lb k' x, (lb = GStep i \/ lb = GFail i) /\ gstep j key limit k lb = Some k' /\ In (Ret i x) (g_hist k').
Proof.
  intros j key limit ls k i o E Hi Hr.
  assert (D : Done_told k). { eapply (run_inv j key limit Done_told); eauto; [intros; eapply done_step; eauto|]. intros [|m] o' b H; discriminate. }
  assert (T : Told k). { eapply (run_inv j key limit Told); eauto; [|apply told_start]. intros. eapply told_step; eauto. }
  destruct (t_inv _ T _ _ Hi) as (p & Hp).
  assert (Fl : forall k', pg_fail k i o p = Some k' -> (exists x, In (Ret i x) (g_hist k')) -> exists lb k' x, (lb = GStep i \/ lb = GFail i) /\ gstep j key limit k lb = Some k' /\ In (Ret i x) (g_hist k')).
  { intros k' F (x & Hx). exists (GFail i), k', x. split; [auto|]. cbn. rewrite Hp. auto. }
  assert (Sn : forall x (h : list act), exists y, In (Ret i y) (h ++ [Ret i x])) by (intros x h; exists x; apply in_or_app; right; now left).
  destruct p as [| | |todo mine|mine| | |todo done|b]; try (eapply Fl; [reflexivity|]; cbn; apply Sn).
  - exists (GStep i). cbn [gstep]. rewrite Hp. cbn [pg_op pg_pc pg_step]. destruct (notify j mine) as [l ok]. eexists. eexists. split; [auto|]. split; [reflexivity|].
    cbn. apply in_or_app. right. left. reflexivity.
  - exfalso. destruct (D _ _ _ Hp) as (x & Hx). exact (Hr x Hx).
Qed.
Print Assumptions C61_no_call_forgotten.

(** Non-vacuity, and what it is for: the server restarts between the commit and the
    answer; the save is answered all the same, with its number. *)
Definition restarted : list plabel := [GInvoke (save None "s" ["a"])] ++ steps 0 5 ++ [GCrash 3].
Example C61_restart_inhabited : exists k k' bc,
  grun toy_json fnv32a 10 pg_start restarted = Some k /\ g_hist k = [Inv 0 (save None "s" ["a"])] /\ map r_data (g_rows k) = ["a"]
  /\ gstep toy_json fnv32a 10 k (GStep 0) = Some k' /\ g_hist k' = [Inv 0 (save None "s" ["a"]); Ret 0 (OutSaved 1 bc)].
Proof. eexists _, _, _. split; [vm_compute; reflexivity|]. split; [reflexivity|]. split; [reflexivity|]. split; [vm_compute; reflexivity|]. reflexivity. Qed.

(** ** One answer for one call *)
Definition rets (h : list act) : list nat := flat_map (fun a => match a with Ret i _ => [i] | _ => [] end) h.
Definition once (h : list act) : Prop :=
  NoDup (rets h) /\ forall h1 i x h2, h = h1 ++ Ret i x :: h2 -> exists o, In (Inv i o) h1.
Lemma rets_in i h : In i (rets h) <-> exists x, In (Ret i x) h.
Proof.
  unfold rets. rewrite in_flat_map. split.
  - intros ([ | | ] & Ha & Hi); cbn in Hi; try contradiction. destruct Hi as [<-|[]]; eauto.
  - intros (x & H). exists (Ret i x). split; [exact H|now left].
Qed.
Lemma nodup_both {A} (l m : list A) : NoDup l -> NoDup m -> (forall a, In a m -> ~ In a l) -> NoDup (l ++ m).
Proof.
  induction 1 as [|a l Ha Hl IH]; intros Hm D; cbn; [exact Hm|]. constructor.
  - intros H. apply in_app_or in H as [H|H]; [contradiction|]. apply (D a H). now left.
  - apply IH; auto. intros b Hb Hb'. apply (D b Hb). now right.
Qed.
Lemma once_app h g : once h -> NoDup (rets g) -> (forall i x, In (Ret i x) g -> (forall y, ~ In (Ret i y) h) /\ exists o, In (Inv i o) h) -> once (h ++ g).
Proof.
  intros [H1 H2] Hg D. split.
  - unfold rets. rewrite flat_map_app. apply nodup_both; auto. intros a Ha Hb. apply rets_in in Ha as (x & Ha). apply rets_in in Hb as (y & Hb). exact (proj1 (D _ _ Ha) y Hb).
  - intros h1 i x h2 E. apply app_eq_app in E as (l & [[Ea Eb]|[Ea Eb]]).
    + destruct l as [|a l]; cbn in Eb.
      * rewrite app_nil_r in Ea. subst h1. apply (D i x). rewrite <- Eb. now left.
      * injection Eb as <- Eb. eapply H2; eauto.
    + subst h1. destruct (D i x) as [_ (o & Ho)]; [rewrite Eb; apply in_or_app; right; now left|]. exists o. apply in_or_app. now left.
Qed.
Lemma crash_who cs : forall n i x, In (Ret i x) (crash_acts n cs) -> exists m o p, i = (n + m)%nat /\ nth_error cs m = Some (mk_pgcall o p) /\ forall b, p <> PDone b.
Proof.
  induction cs as [|[o p] cs IH]; intros n i x H; cbn in H; [destruct H|]. apply in_app_or in H as [H|H].
  - exists 0%nat, o, p. assert (i = n) by (destruct p; try destruct H as [[= -> _]|[]]; auto; destruct H). subst i. rewrite Nat.add_0_r. repeat split. intros b ->. destruct H.
  - destruct (IH _ _ _ H) as (m & o' & p' & -> & Hn & Hp). exists (S m), o', p'. rewrite Nat.add_succ_r. auto.
Qed.
Lemma crash_nodup cs : forall n, NoDup (rets (crash_acts n cs)).
Proof.
  induction cs as [|[o p] cs IH]; intros n; cbn; [constructor|]. unfold rets. rewrite flat_map_app. apply nodup_both.
  - destruct p; cbn; repeat constructor; auto.
  - apply IH.
  - intros a Ha Hb. apply rets_in in Ha as (x & Ha). destruct (crash_who _ _ _ _ Ha) as (m & _ & _ & -> & _). destruct p; cbn in Hb; try destruct Hb as [Hb|[]]; try lia; destruct Hb.
Qed.
Lemma once_step j key k lb k' : Told k -> once (g_hist k) -> gcase j key k lb k' -> once (g_hist k').
Proof.
  intros T O C.
  assert (Up : forall i o p x, nth_error (g_calls k) i = Some (mk_pgcall o p) -> (forall b, p <> PDone b) -> once (g_hist k ++ [Ret i x])).
  { intros i o p x Hn Hp. apply once_app; [exact O|repeat constructor; auto|]. intros i' x' [[= <- <-]|[]]. split; [|exists o; eapply t_call; eauto].
    intros y Hy. destruct (t_ret _ T _ _ Hy) as (o' & b & Ho). rewrite Hn in Ho. injection Ho as _ ->. exact (Hp b eq_refl). }
  destruct C as [o|lb i o p p' lk h bc Hn Hq|lb i o r todo mine Hn|lb i o mine p' h Hn Hp|lb i o done x Hn Hx|skip]; cbn [g_hist].
  - apply once_app; [exact O|constructor|]. intros i x [H|[]]; discriminate.
  - inversion Hq; subst; rewrite ?app_nil_r; try exact O; eapply Up; eauto; discriminate.
  - exact O.
  - destruct Hp as [[_ ->]|[_ ->]]; [now rewrite app_nil_r|]. eapply Up; eauto. discriminate.
  - eapply Up; eauto. discriminate.
  - apply once_app; [exact O|apply crash_nodup|]. intros i x H. destruct (crash_who _ _ _ _ H) as (m & o & p & -> & Hn & Hp). cbn. split; [|exists o; eapply t_call; eauto].
    intros y Hy. destruct (t_ret _ T _ _ Hy) as (o' & b & Ho). cbn in Ho. rewrite Hn in Ho. injection Ho as _ ->. exact (Hp b eq_refl).
Qed.

(** In every run, restarts of the server included, an answer belongs to a call made
    before it and is the only answer to it. *)
Theorem C61_answered_once : forall j key limit ls k h1 i x h2,
  grun j key limit pg_start ls = Some k -> g_hist k = h1 ++ Ret i x :: h2 ->
  (exists o, In (Inv i o) h1) /\ forall y, ~ In (Ret i y) (h1 ++ h2).
Proof.
  intros j key limit ls k h1 i x h2 E Eh.
  assert (O : Told k /\ once (g_hist k)).
  { eapply (run_inv j key limit (fun k => Told k /\ once (g_hist k))); eauto.
    - intros k1 lb k2 [T O] C. split; [eapply told_step; eauto|eapply once_step; eauto].
    - split; [apply told_start|]. split; [constructor|]. intros [|? ?] ? ? ? H; discriminate. }
  destruct O as [_ [N B]]. split; [eapply B; eauto|]. rewrite Eh in N. unfold rets in N. rewrite flat_map_app in N. cbn in N. apply NoDup_remove_2 in N.
  intros y Hy. apply N. unfold rets. rewrite <- flat_map_app. apply rets_in. eauto.
Qed.
Print Assumptions C61_answered_once.

(** A restart answers one of two open calls; the other is answered later. *)
Example C61_answered_inhabited : exists k h1 h2 bc,
  grun toy_json fnv32a 10 pg_start ([GInvoke (save None "t" ["b"])] ++ steps 0 3 ++ [GInvoke (save None "s" ["a"])] ++ steps 1 5 ++ [GCrash 3; GStep 1]) = Some k
  /\ g_hist k = h1 ++ Ret 0 (OutFailed EDatabase) :: h2 /\ length h1 = 2%nat /\ h2 = [Ret 1 (OutSaved 1 bc)].
Proof.
  eexists _, [_; _], _, _. split; [vm_compute; reflexivity|]. split; [reflexivity|]. split; reflexivity.
Qed.
