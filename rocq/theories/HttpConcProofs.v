(** From the linearizability of the store to that of the requests. *)
From Coq Require Import PeanoNat.
From Verif Require Import Base LocksSpec LocksProofs Json RecordIo Http HttpBytes Locks HttpConc HttpConcSpec.
Open Scope list_scope.

Section Lift.
Context {S L Q R : Type}.
Variable ob : obj S L Q R.
Context {Req Ans : Type}.
Variable call_made : Req -> option op.
Variable answer_for : Req -> out -> Ans.
Notation hstep := (hstep ob call_made answer_for).
Notation hrun := (hrun ob call_made answer_for).

Definition call_no (st : stage) : option nat := match st with Arrived => None | Calling i => Some i | Over i => i end.

Lemma upd_same {A} i (x : A) l : (i < length l)%nat -> nth_error (upd i x l) i = Some x.
Proof. revert i. induction l as [|y l IH]; intros [|i] H; cbn in *; try lia; [reflexivity|apply IH; lia]. Qed.
Lemma upd_other {A} i j (x : A) l : i <> j -> nth_error (upd i x l) j = nth_error l j.
Proof. revert i j. induction l as [|y l IH]; intros [|i] [|j] H; cbn; try reflexivity; try congruence. apply IH. congruence. Qed.
Lemma upd_len {A} i (x : A) l : length (upd i x l) = length l.
Proof. revert i. induction l as [|y l IH]; intros [|i]; cbn; try reflexivity. now rewrite IH. Qed.

(** What holds in every configuration reached. *)
Record inv (s0 : S) (k : hconf) : Prop := {
  v_run : exists ls, krun ob (start s0) ls = Some (h_store k);
  v_came : forall j q, In (Came j q) (h_seen k) <-> exists st, nth_error (h_reqs k) j = Some (q, st);
  v_call : forall j q st i, nth_error (h_reqs k) j = Some (q, st) -> call_no st = Some i ->
             exists o, call_made q = Some o /\ In (Inv i o) (k_hist (h_store k));
  v_made : forall i o, In (Inv i o) (k_hist (h_store k)) -> exists j q st, nth_error (h_reqs k) j = Some (q, st) /\ call_no st = Some i /\ call_made q = Some o;
  v_one : forall j q st j' q' st' i, nth_error (h_reqs k) j = Some (q, st) -> nth_error (h_reqs k) j' = Some (q', st') ->
             call_no st = Some i -> call_no st' = Some i -> j = j';
  v_small : forall i o, In (Inv i o) (k_hist (h_store k)) -> (i < length (k_calls (h_store k)))%nat;
  v_got : forall j a, In (Got j a) (h_seen k) -> exists q ci, nth_error (h_reqs k) j = Some (q, Over ci) /\
             match ci with
             | None => call_made q = None /\ a = answer_for q OutBlocked
             | Some i => exists x, In (Ret i x) (k_hist (h_store k)) /\ a = answer_for q x
             end;
  v_rt : forall j a j' q' st' i', before (Got j a) (Came j' q') (h_seen k) -> nth_error (h_reqs k) j' = Some (q', st') -> call_no st' = Some i' ->
             forall q st i, nth_error (h_reqs k) j = Some (q, st) -> call_no st = Some i ->
             exists x o', before (Ret i x) (Inv i' o') (k_hist (h_store k))
}.

Lemma result_in i h x : result_of i h = Some x -> In (Ret i x) h.
Proof.
  induction h as [|[i' o|i' y|i' y] h IH]; cbn; try discriminate; intros H; auto.
  destruct (Nat.eqb_spec i' i) as [->|]; [injection H as ->|]; auto.
Qed.

(** One more step of the store only adds to its history, and calls none. *)
Lemma store_step k lb k' : kstep ob k lb = Some k' -> (exists o, lb = LInvoke o) \/
  (length (k_calls k') = length (k_calls k) /\ exists l, k_hist k' = k_hist k ++ l /\ forall i o, ~ In (Inv i o) l).
Proof.
  intros H. destruct lb as [o|i|i j|i j b]; [left; eauto| | |]; right; cbn [kstep] in H.
  - destruct (nth_error (k_calls k) i) as [c|]; [|discriminate]. unfold step_call in H. cbv zeta in H.
    destruct (c_pc c) as [| | |l|x rel|x|subs q todo|subs q todo|subs q todo|subs|].
    + destruct (o_direct ob (c_op c) (k_shared k)) as [x|].
      * injection H as <-. cbn. rewrite upd_len. split; [reflexivity|]. eexists. split; [reflexivity|]. intros ? ? [E|[]]. discriminate E.
      * destruct (o_writes ob (c_op c)); [|destruct (o_queries ob (c_op c)); [discriminate|]]; injection H as <-; cbn; rewrite upd_len; (split; [reflexivity|]); exists []; rewrite app_nil_r; split; auto.
    + destruct (k_writer k); [discriminate|]. injection H as <-. cbn. rewrite upd_len. split; [reflexivity|]. exists []. rewrite app_nil_r. split; auto.
    + destruct (k_readers k); [|discriminate]. destruct (o_writes ob (c_op c)); [|discriminate]. injection H as <-. cbn. rewrite upd_len. split; [reflexivity|]. exists []. rewrite app_nil_r. split; auto.
    + destruct (o_wstep ob l (k_shared k)); [| |discriminate]; injection H as <-; cbn; rewrite upd_len; (split; [reflexivity|]); exists []; rewrite app_nil_r; split; auto.
    + destruct rel; injection H as <-; cbn.
      * rewrite upd_len, map_length. split; [reflexivity|]. exists []. rewrite app_nil_r. split; auto.
      * rewrite upd_len. split; [reflexivity|]. eexists. split; [reflexivity|]. intros ? ? [E|[]]. discriminate E.
    + injection H as <-. cbn. rewrite upd_len. split; [reflexivity|]. eexists. split; [reflexivity|]. intros ? ? [E|[]]. discriminate E.
    + destruct (k_writer k); injection H as <-; cbn; rewrite upd_len; (split; [reflexivity|]); exists []; rewrite app_nil_r; split; auto.
    + discriminate.
    + destruct (o_rbegin ob q (k_shared k)); destruct todo; try (destruct subs); try discriminate H; injection H as <-; cbn; rewrite upd_len; (split; [reflexivity|]); exists []; rewrite app_nil_r; split; auto.
    + destruct (forallb ended subs); [|discriminate]. injection H as <-. cbn. rewrite upd_len. split; [reflexivity|]. eexists. split; [reflexivity|].
      intros ? ? [E|[]]. destruct (existsb was_cut subs); discriminate E.
    + discriminate.
  - destruct (nth_error (k_calls k) i) as [c|]; [|discriminate]. unfold step_sub in H. destruct (subs_of (c_pc c)) as [[[subs co] back]|]; [|discriminate].
    destruct (nth_error subs j) as [[r s|]|]; try discriminate. destruct (o_rstep ob r (k_shared k)); [|destruct co; [|discriminate]|]; injection H as <-; cbn; rewrite upd_len; (split; [reflexivity|]); exists []; rewrite app_nil_r; split; auto.
  - destruct (nth_error (k_calls k) i) as [c|]; [|discriminate]. unfold cancel_sub in H. destruct (subs_of (c_pc c)) as [[[subs co] back]|]; [|discriminate].
    destruct (nth_error subs j) as [[r s|]|]; try discriminate. destruct (o_rstep ob r (k_shared k)) as [|[]|]; try discriminate. destruct (implb b co); [|discriminate].
    injection H as <-. cbn. rewrite upd_len. split; [reflexivity|]. exists []. rewrite app_nil_r. split; auto.
Qed.

Lemma krun_snoc k ls lb k1 k2 : krun ob k ls = Some k1 -> kstep ob k1 lb = Some k2 -> krun ob k (ls ++ [lb]) = Some k2.
Proof.
  revert k. induction ls as [|l ls IH]; intros k H1 H2; cbn in *.
  - injection H1 as ->. now rewrite H2.
  - destruct (kstep ob k l) as [k'|]; [|discriminate]. now apply IH.
Qed.

Lemma seen_came_snoc (h : list (seen Req Ans)) j q a : In (Came j q) (h ++ [Got (fst a) (snd a)]) <-> In (Came j q) h.
Proof. rewrite in_app_iff. cbn. intuition discriminate. Qed.

Lemma inv_start s0 : inv s0 (hstart s0).
Proof.
  constructor; cbn.
  - exists []. reflexivity.
  - intros j q. split; [tauto|]. intros (st & H). destruct j; discriminate H.
  - intros [|j] q st i H; discriminate H.
  - tauto.
  - intros [|j] q st j' q' st' i H; discriminate H.
  - tauto.
  - tauto.
  - intros j a j' q' st' i' (l1 & l2 & l3 & E). destruct l1; discriminate E.
Qed.

Lemma inv_step s0 k lb k' : inv s0 k -> hstep k lb = Some k' -> inv s0 k'.
Proof.
  intros V H. destruct lb as [q|j|lb]; cbn [HttpConc.hstep] in H.
  - injection H as <-. destruct V as [V1 V2 V3 V4 V5 V6 V7 V8].
    assert (Old : forall j p, nth_error (h_reqs k) j = Some p -> nth_error (h_reqs k ++ [(q, Arrived)]) j = Some p).
    { intros j p Hj. rewrite nth_error_app1; [exact Hj|]. apply nth_error_Some. congruence. }
    assert (New : forall j q' st, nth_error (h_reqs k ++ [(q, Arrived)]) j = Some (q', st) ->
      nth_error (h_reqs k) j = Some (q', st) \/ (j = length (h_reqs k) /\ q' = q /\ st = Arrived)).
    { intros j q' st Hj. destruct (Nat.lt_ge_cases j (length (h_reqs k))) as [Hl|Hl].
      - rewrite nth_error_app1 in Hj by exact Hl. auto.
      - rewrite nth_error_app2 in Hj by exact Hl. destruct (j - length (h_reqs k))%nat eqn:E; [|destruct n; discriminate Hj]. injection Hj as <- <-. right. split; [lia|auto]. }
    constructor; cbn [h_store h_reqs h_seen].
    + exact V1.
    + intros j q'. rewrite in_app_iff, V2. cbn [In]. split.
      * intros [(st & Hs)|[[= <- <-]|[]]]; [exists st; now apply Old|]. exists Arrived. rewrite nth_error_app2 by lia. now rewrite Nat.sub_diag.
      * intros (st & Hs). apply New in Hs as [Hs|(-> & -> & ->)]; [left; eauto|right; left; reflexivity].
    + intros j q' st i Hj Hi. apply New in Hj as [Hj|(_ & _ & ->)]; [eauto|discriminate Hi].
    + intros i o Hi. destruct (V4 i o Hi) as (j & q' & st & Hj & Hc). exists j, q', st. split; [now apply Old|exact Hc].
    + intros j q1 st j' q' st' i Hj Hj' Hi Hi'. apply New in Hj as [Hj|(_ & _ & ->)]; [|discriminate Hi]. apply New in Hj' as [Hj'|(_ & _ & ->)]; [|discriminate Hi']. exact (V5 _ _ _ _ _ _ _ Hj Hj' Hi Hi').
    + exact V6.
    + intros j a Hg. apply in_app_iff in Hg as [Hg|[Hg|[]]]; [|discriminate Hg]. destruct (V7 j a Hg) as (q' & ci & Hj & Hr). exists q', ci. split; [now apply Old|exact Hr].
    + intros j a j' q' st' i' B Hj' Hi' q1 st i Hj Hi.
      apply New in Hj' as [Hj'|(_ & _ & ->)]; [|discriminate Hi']. apply New in Hj as [Hj|(_ & _ & ->)]; [|discriminate Hi].
      apply before_snoc in B as [B|[E _]]; [eauto|]. injection E as -> ->. exfalso.
      assert (length (h_reqs k) < length (h_reqs k))%nat by (apply nth_error_Some; congruence). lia.
  - destruct (nth_error (h_reqs k) j) as [[q st]|] eqn:Ej; [|discriminate].
    assert (Lj : (j < length (h_reqs k))%nat) by (apply nth_error_Some; congruence).
    destruct st as [|i|]; [|destruct (result_of i (k_hist (h_store k))) as [x|] eqn:Er; [|discriminate]|discriminate].
    + destruct (call_made q) as [o|] eqn:Eo.
      * cbn [kstep] in H. injection H as <-. destruct V as [V1 V2 V3 V4 V5 V6 V7 V8]. set (n := length (k_calls (h_store k))) in *.
        assert (New : forall j' q' st', nth_error (upd j (q, Calling n) (h_reqs k)) j' = Some (q', st') ->
          (j' = j /\ q' = q /\ st' = Calling n) \/ (j' <> j /\ nth_error (h_reqs k) j' = Some (q', st'))).
        { intros j' q' st' Hj. destruct (Nat.eq_dec j' j) as [->|D]; [left; rewrite upd_same in Hj by exact Lj; injection Hj as <- <-; auto|right; rewrite upd_other in Hj by congruence; auto]. }
        assert (Fresh : forall j' q' st', nth_error (h_reqs k) j' = Some (q', st') -> call_no st' <> Some n).
        { intros j' q' st' Hj Hi. destruct (V3 _ _ _ _ Hj Hi) as (o' & _ & Hin). apply V6 in Hin. fold n in Hin. lia. }
        constructor; cbn [h_store h_reqs h_seen k_hist note k_calls].
        -- destruct V1 as (ls & V1). exists (ls ++ [LInvoke o]). eapply krun_snoc; [exact V1|reflexivity].
        -- intros j' q'. rewrite V2. split; intros (st' & Hs).
           ++ destruct (Nat.eq_dec j' j) as [->|D]; [rewrite Ej in Hs; injection Hs as <- <-; exists (Calling n); now apply upd_same|exists st'; now rewrite upd_other by congruence].
           ++ apply New in Hs as [(-> & -> & ->)|[_ Hs]]; eauto.
        -- intros j' q' st' i Hj Hi. apply New in Hj as [(-> & -> & ->)|[_ Hj]].
           ++ injection Hi as <-. exists o. split; [exact Eo|]. apply in_or_app. right. now left.
           ++ destruct (V3 _ _ _ _ Hj Hi) as (o' & A & B). exists o'. split; [exact A|]. apply in_or_app. now left.
        -- intros i o' Hin. apply in_app_iff in Hin as [Hin|[[= <- <-]|[]]].
           ++ destruct (V4 i o' Hin) as (j' & q' & st' & Hj & Hi & Hm). exists j', q', st'. split; [|auto]. rewrite upd_other; [exact Hj|]. intros ->. rewrite Ej in Hj. injection Hj as <- <-. discriminate Hi.
           ++ exists j, q, (Calling n). split; [now apply upd_same|auto].
        -- intros j1 q1 st1 j2 q2 st2 i H1 H2 I1 I2. apply New in H1 as [(-> & -> & ->)|[_ H1]]; apply New in H2 as [(-> & -> & ->)|[_ H2]].
           ++ reflexivity.
           ++ injection I1 as <-. now apply Fresh in H2.
           ++ injection I2 as <-. now apply Fresh in H1.
           ++ exact (V5 _ _ _ _ _ _ _ H1 H2 I1 I2).
        -- intros i o' Hin. rewrite app_length. cbn [length]. apply in_app_iff in Hin as [Hin|[[= <- <-]|[]]]; [apply V6 in Hin; lia|fold n; lia].
        -- intros j' a Hg. destruct (V7 j' a Hg) as (q' & ci & Hj & Hr). exists q', ci. split.
           ++ rewrite upd_other; [exact Hj|]. intros ->. rewrite Ej in Hj. discriminate Hj.
           ++ destruct ci as [i|]; [|exact Hr]. destruct Hr as (x & Hx & Ha). exists x. split; [apply in_or_app; now left|exact Ha].
        -- intros j1 a j2 q2 st2 i2 B H2 I2 q1 st1 i1 H1 I1.
           assert (G : In (Got j1 a) (h_seen k)) by (destruct B as (l1 & l2 & l3 & ->); apply in_or_app; right; now left).
           destruct (V7 _ _ G) as (q1' & ci & Hj1 & Hr).
           apply New in H1 as [(-> & _ & _)|[N1 H1]]; [rewrite Ej in Hj1; discriminate Hj1|]. rewrite H1 in Hj1. injection Hj1 as <- ->. cbn in I1. subst ci.
           destruct Hr as (x & Hx & _).
           apply New in H2 as [(-> & -> & ->)|[N2 H2]].
           ++ injection I2 as <-. exists x, o. now apply before_last.
           ++ destruct (V8 _ _ _ _ _ _ B H2 I2 _ _ _ H1 eq_refl) as (y & o' & K). exists y, o'. now apply before_app.
      * injection H as <-. destruct V as [V1 V2 V3 V4 V5 V6 V7 V8].
        assert (New : forall j' q' st', nth_error (upd j (q, Over None) (h_reqs k)) j' = Some (q', st') ->
          (j' = j /\ q' = q /\ st' = Over None) \/ (j' <> j /\ nth_error (h_reqs k) j' = Some (q', st'))).
        { intros j' q' st' Hj. destruct (Nat.eq_dec j' j) as [->|D]; [left; rewrite upd_same in Hj by exact Lj; injection Hj as <- <-; auto|right; rewrite upd_other in Hj by congruence; auto]. }
        constructor; cbn [h_store h_reqs h_seen].
        -- exact V1.
        -- intros j' q'. rewrite (seen_came_snoc _ _ _ (j, answer_for q OutBlocked)), V2. split; intros (st' & Hs).
           ++ destruct (Nat.eq_dec j' j) as [->|D]; [rewrite Ej in Hs; injection Hs as <- <-; exists (Over None); now apply upd_same|exists st'; now rewrite upd_other by congruence].
           ++ apply New in Hs as [(-> & -> & ->)|[_ Hs]]; eauto.
        -- intros j' q' st' i Hj Hi. apply New in Hj as [(-> & -> & ->)|[_ Hj]]; [discriminate Hi|eauto].
        -- intros i o' Hin. destruct (V4 i o' Hin) as (j' & q' & st' & Hj & Hi & Hm). exists j', q', st'. split; [|auto]. rewrite upd_other; [exact Hj|]. intros ->. rewrite Ej in Hj. injection Hj as <- <-. discriminate Hi.
        -- intros j1 q1 st1 j2 q2 st2 i H1 H2 I1 I2. apply New in H1 as [(-> & -> & ->)|[_ H1]]; [discriminate I1|]. apply New in H2 as [(-> & -> & ->)|[_ H2]]; [discriminate I2|].
           exact (V5 _ _ _ _ _ _ _ H1 H2 I1 I2).
        -- exact V6.
        -- intros j' a Hg. apply in_app_iff in Hg as [Hg|[[= <- <-]|[]]].
           ++ destruct (V7 j' a Hg) as (q' & ci & Hj & Hr). exists q', ci. split; [|exact Hr]. rewrite upd_other; [exact Hj|]. intros ->. rewrite Ej in Hj. discriminate Hj.
           ++ exists q, None. split; [now apply upd_same|auto].
        -- intros j1 a j2 q2 st2 i2 B H2 I2 q1 st1 i1 H1 I1.
           apply New in H1 as [(-> & _ & ->)|[N1 H1]]; [discriminate I1|]. apply New in H2 as [(-> & -> & ->)|[N2 H2]]; [discriminate I2|].
           apply before_snoc in B as [B|[E _]]; [|discriminate E]. eauto.
    + injection H as <-. destruct V as [V1 V2 V3 V4 V5 V6 V7 V8].
      assert (New : forall j' q' st', nth_error (upd j (q, Over (Some i)) (h_reqs k)) j' = Some (q', st') ->
        (j' = j /\ q' = q /\ st' = Over (Some i)) \/ (j' <> j /\ nth_error (h_reqs k) j' = Some (q', st'))).
      { intros j' q' st' Hj. destruct (Nat.eq_dec j' j) as [->|D]; [left; rewrite upd_same in Hj by exact Lj; injection Hj as <- <-; auto|right; rewrite upd_other in Hj by congruence; auto]. }
      assert (Was : forall j' q' st' i', nth_error (upd j (q, Over (Some i)) (h_reqs k)) j' = Some (q', st') -> call_no st' = Some i' ->
        exists st, nth_error (h_reqs k) j' = Some (q', st) /\ call_no st = Some i').
      { intros j' q' st' i' Hj Hi. apply New in Hj as [(-> & -> & ->)|[_ Hj]]; eauto. }
      constructor; cbn [h_store h_reqs h_seen].
      * exact V1.
      * intros j' q'. rewrite (seen_came_snoc _ _ _ (j, answer_for q x)), V2. split; intros (st' & Hs).
        -- destruct (Nat.eq_dec j' j) as [->|D]; [rewrite Ej in Hs; injection Hs as <- <-; exists (Over (Some i)); now apply upd_same|exists st'; now rewrite upd_other by congruence].
        -- apply New in Hs as [(-> & -> & ->)|[_ Hs]]; eauto.
      * intros j' q' st' i' Hj Hi. destruct (Was _ _ _ _ Hj Hi) as (st & Hs & Hi'). eauto.
      * intros i' o' Hin. destruct (V4 i' o' Hin) as (j' & q' & st' & Hj & Hi & Hm). destruct (Nat.eq_dec j' j) as [->|D].
        -- rewrite Ej in Hj. injection Hj as <- <-. exists j, q, (Over (Some i)). split; [now apply upd_same|auto].
        -- exists j', q', st'. split; [now rewrite upd_other by congruence|auto].
      * intros j1 q1 st1 j2 q2 st2 i' H1 H2 I1 I2. destruct (Was _ _ _ _ H1 I1) as (s1 & Hs1 & Hi1). destruct (Was _ _ _ _ H2 I2) as (s2 & Hs2 & Hi2).
        exact (V5 _ _ _ _ _ _ _ Hs1 Hs2 Hi1 Hi2).
      * exact V6.
      * intros j' a Hg. apply in_app_iff in Hg as [Hg|[[= <- <-]|[]]].
        -- destruct (V7 j' a Hg) as (q' & ci & Hj & Hr). exists q', ci. split; [|exact Hr]. rewrite upd_other; [exact Hj|]. intros ->. rewrite Ej in Hj. discriminate Hj.
        -- exists q, (Some i). split; [now apply upd_same|]. exists x. split; [now apply result_in|reflexivity].
      * intros j1 a j2 q2 st2 i2 B H2 I2 q1 st1 i1 H1 I1.
        apply before_snoc in B as [B|[E _]]; [|discriminate E].
        destruct (Was _ _ _ _ H1 I1) as (s1 & Hs1 & Hi1). destruct (Was _ _ _ _ H2 I2) as (s2 & Hs2 & Hi2). eauto.
  - assert (H' : exists st, (forall o, lb <> LInvoke o) /\ kstep ob (h_store k) lb = Some st /\ k' = mk_hconf st (h_reqs k) (h_seen k)).
    { destruct lb as [o|a|a b|a b c]; [discriminate| | |]; (match type of H with match ?t with _ => _ end = _ => destruct t as [st|] eqn:E; [|discriminate] end); exists st; injection H as <-; (split; [discriminate|auto]). }
    destruct H' as (st & Hn & Hs & ->). destruct V as [V1 V2 V3 V4 V5 V6 V7 V8].
    destruct (store_step _ _ _ Hs) as [(o & ->)|(Hl & l & Eh & Hno)]; [now destruct (Hn o)|].
    constructor; cbn [h_store h_reqs h_seen]; rewrite ?Eh, ?Hl.
    + destruct V1 as (ls & V1). exists (ls ++ [lb]). eapply krun_snoc; eassumption.
    + exact V2.
    + intros j q st' i Hj Hi. destruct (V3 _ _ _ _ Hj Hi) as (o & A & B). exists o. split; [exact A|]. apply in_or_app. now left.
    + intros i o Hin. apply in_app_iff in Hin as [Hin|Hin]; [now apply V4|now apply Hno in Hin].
    + exact V5.
    + intros i o Hin. apply in_app_iff in Hin as [Hin|Hin]; [now apply (V6 i o)|now apply Hno in Hin].
    + intros j a Hg. destruct (V7 j a Hg) as (q & ci & Hj & Hr). exists q, ci. split; [exact Hj|]. destruct ci as [i|]; [|exact Hr].
      destruct Hr as (x & Hx & Ha). exists x. split; [apply in_or_app; now left|exact Ha].
    + intros j1 a j2 q2 st2 i2 B H2 I2 q1 st1 i1 H1 I1. destruct (V8 _ _ _ _ _ _ B H2 I2 _ _ _ H1 I1) as (x & o & K). exists x, o. now apply before_app.
Qed.

Lemma inv_run s0 ls : forall k k', inv s0 k -> hrun k ls = Some k' -> inv s0 k'.
Proof.
  induction ls as [|lb ls IH]; intros k k' V H; cbn in H; [now injection H as <-|].
  destruct (hstep k lb) as [k1|] eqn:E; [|discriminate]. exact (IH k1 k' (inv_step s0 k lb k1 V E) H).
Qed.

Lemma in_before {A} (a b : A) l : before a b l -> In a l /\ In b l.
Proof. intros (l1 & l2 & l3 & ->). split; apply in_or_app; right; cbn; [now left|right; apply in_or_app; right; now left]. Qed.

(** The calls in the history of the store are those of the requests. *)
Lemma made_sent s0 k : inv s0 k -> forall o, In o (made (k_hist (h_store k))) -> exists q, In q (sent (h_seen k)) /\ call_made q = Some o.
Proof.
  intros V o Ho. unfold made in Ho. apply in_flat_map in Ho as (a & Ha & Ho). destruct a as [i o'| |]; cbn in Ho; try tauto. destruct Ho as [<-|[]].
  destruct (v_made _ _ V i o' Ha) as (j & q & st & Hj & _ & Hm). exists q. split; [|exact Hm].
  unfold sent. apply in_flat_map. exists (Came j q). split; [|now left]. apply (v_came _ _ V). eauto.
Qed.

(** If the history of the store is linearizable, the requests that reached it are
    answered as if they had come one by one. *)
Lemma lift s0 k allowed : inv s0 k -> linearizable_as allowed (k_hist (h_store k)) ->
  exists order : list (nat * (Req * out)),
    allowed (flat_map (fun t => match call_made (fst (snd t)) with Some o => [o] | None => [] end) order) (map (fun t => snd (snd t)) order)
    /\ NoDup (map fst order)
    /\ (forall j q x, In (j, (q, x)) order -> In (Came j q) (h_seen k) /\ exists o, call_made q = Some o)
    /\ (forall j a, In (Got j a) (h_seen k) -> exists q, In (Came j q) (h_seen k)
          /\ ((exists x, a = answer_for q x /\ In (j, (q, x)) order) \/ (call_made q = None /\ a = answer_for q OutBlocked)))
    /\ (forall j a j' q' x' q0 x0, before (Got j a) (Came j' q') (h_seen k) -> In (j', (q', x')) order -> In (j, (q0, x0)) order ->
          before (j, (q0, x0)) (j', (q', x')) order).
Proof.
  intros V (order & Hal & Hnd & Hin & Hret & _ & Hrt).
  (* the request behind a call *)
  assert (P : exists order', Forall2 (fun (t : nat * op * out) (u : nat * (Req * out)) =>
      (exists st, nth_error (h_reqs k) (fst u) = Some (fst (snd u), st) /\ call_no st = Some (fst (fst t)))
      /\ call_made (fst (snd u)) = Some (snd (fst t)) /\ snd (snd u) = snd t) order order').
  { clear - V Hin. induction order as [|[[i o] x] order IH]; [exists []; constructor|].
    destruct IH as (order' & IH); [intros; eapply Hin; right; eassumption|].
    destruct (v_made _ _ V i o (Hin i o x (or_introl eq_refl))) as (j & q & st & Hj & Hi & Hm).
    exists ((j, (q, x)) :: order'). constructor; [|exact IH]. cbn. split; [eauto|auto]. }
  destruct P as (order' & P). exists order'.
  assert (Back : forall j q x, In (j, (q, x)) order' -> exists i o st, In (i, o, x) order /\ nth_error (h_reqs k) j = Some (q, st) /\ call_no st = Some i /\ call_made q = Some o).
  { clear - P. induction P as [|[[i o] y] [j' [q' y']] l l' H P IH]; [intros j q x []|intros j q x [E|Hx]].
    - injection E as -> -> ->. cbn in H. destruct H as ((st & A & B) & C & D). subst y. exists i, o, st. split; [now left|auto].
    - destruct (IH _ _ _ Hx) as (i2 & o2 & st & K & M). exists i2, o2, st. split; [now right|exact M]. }
  assert (Forth : forall i o x, In (i, o, x) order -> exists j q st, In (j, (q, x)) order' /\ nth_error (h_reqs k) j = Some (q, st) /\ call_no st = Some i /\ call_made q = Some o).
  { clear - P. induction P as [|[[i o] y] [j' [q' y']] l l' H P IH]; [intros i1 o1 x []|intros i1 o1 x [E|Hx]].
    - injection E as -> -> ->. cbn in H. destruct H as ((st & A & B) & C & D). subst y'. exists j', q', st. split; [now left|auto].
    - destruct (IH _ _ _ Hx) as (j2 & q2 & st & K & M). exists j2, q2, st. split; [now right|exact M]. }
  assert (Hnd' : NoDup (map fst order')).
  { clear - P Hnd V. induction P as [|[[i o] y] [j' [q' y']] l l' H P IH]; cbn [map fst]; [constructor|]. cbn [map fst] in Hnd. apply NoDup_cons_iff in Hnd as [N1 N2].
    constructor; [|now apply IH]. intros Hj. apply N1. clear IH N1 N2. cbn in H. destruct H as ((st & A & B) & _).
    induction P as [|[[i2 o2] y2] [j2 [q2 y2']] l l' H P IH]; cbn [map fst In] in *; [exact Hj|]. destruct Hj as [->|Hj]; [|right; now apply IH].
    left. destruct H as ((st2 & A2 & B2) & _). cbn in A2, B2. congruence. }
  split; [|split; [exact Hnd'|split; [|split]]].
  - assert (E1 : flat_map (fun t => match call_made (fst (snd t)) with Some o => [o] | None => [] end) order' = map (fun t => snd (fst t)) order).
    { clear - P. induction P as [|t u l l' (_ & H & _) _ IH]; [reflexivity|]. cbn [flat_map map]. now rewrite H, IH. }
    assert (E2 : map (fun t => snd (snd t)) order' = map snd order).
    { clear - P. induction P as [|t u l l' (_ & _ & H) _ IH]; [reflexivity|]. cbn [map]. now rewrite H, IH. }
    rewrite E1, E2. exact Hal.
  - intros j q x Hx. destruct (Back _ _ _ Hx) as (i & o & st & _ & Hj & _ & Hm). split; [apply (v_came _ _ V); eauto|eauto].
  - intros j a Hg. destruct (v_got _ _ V j a Hg) as (q & [i|] & Hj & Hr).
    + destruct Hr as (x & Hx & ->). destruct (Hret i x Hx) as (o & Ho). destruct (Forth _ _ _ Ho) as (j' & q' & st & K & Hj' & Hi & _).
      assert (j = j') by exact (v_one _ _ V _ _ _ _ _ _ i Hj Hj' eq_refl Hi). subst j'. rewrite Hj in Hj'. injection Hj' as <- <-.
      exists q. split; [apply (v_came _ _ V); eauto|]. left. eauto.
    + destruct Hr as [Hm ->]. exists q. split; [apply (v_came _ _ V); eauto|]. right. auto.
  - intros j a j' q' x' q0 x0 B Hx' Hx.
    destruct (Back _ _ _ Hx') as (i' & o' & st' & Ho' & Hj' & Hi' & _). destruct (Back _ _ _ Hx) as (i & o & st & Ho & Hj & Hi & _).
    destruct (v_rt _ _ V _ _ _ _ _ _ B Hj' Hi' _ _ _ Hj Hi) as (y & o2 & K).
    assert (o2 = o').
    { destruct (in_before _ _ _ K) as [_ K2]. destruct (v_made _ _ V _ _ K2) as (j2 & q2 & st2 & A & C & E).
      pose proof (Hin _ _ _ Ho') as K3. destruct (v_made _ _ V _ _ K3) as (j3 & q3 & st3 & A3 & C3 & E3).
      assert (j2 = j3) by exact (v_one _ _ V _ _ _ _ _ _ _ A A3 C C3). subst j3. congruence. }
    subst o2. destruct (Hrt _ i y i' o' x' K (or_introl eq_refl) Ho') as (oi & z & Bo).
    clear - P Bo Hx Hx' Hnd' Hnd Hj Hj' Hi Hi' V.
    destruct Bo as (l1 & l2 & l3 & ->).
    apply Forall2_app_inv_l in P as (l1' & r & P1 & P2 & ->). inversion P2 as [|? u ? r1 Hu P3]; subst. apply Forall2_app_inv_l in P3 as (l2' & r2 & P4 & P5 & ->).
    inversion P5 as [|? v ? l3' Hv P6]; subst. destruct u as [ju [qu xu]], v as [jv [qv xv]]. cbn in Hu, Hv.
    destruct Hu as ((su & Au & Bu) & _). destruct Hv as ((sv & Av & Bv) & _).
    assert (ju = j) by exact (v_one _ _ V _ _ _ _ _ _ i Au Hj Bu Hi). assert (jv = j') by exact (v_one _ _ V _ _ _ _ _ _ i' Av Hj' Bv Hi'). subst ju jv.
    assert (U : forall (l : list (nat * (Req * out))) (a : nat) b b', NoDup (map fst l) -> In (a, b) l -> In (a, b') l -> b = b').
    { clear. induction l as [|[a0 b0] l IH]; intros a b b' N H H'; [destruct H|]. cbn [map fst] in N. apply NoDup_cons_iff in N as [N1 N2].
      destruct H as [E|H], H' as [E'|H']; try congruence.
      - injection E as -> ->. exfalso. apply N1. now apply (in_map fst) in H'.
      - injection E' as -> ->. exfalso. apply N1. now apply (in_map fst) in H.
      - eauto. }
    assert (E1 : (qu, xu) = (q0, x0)) by (eapply U; [exact Hnd'| |exact Hx]; apply in_or_app; right; now left).
    assert (E2 : (qv, xv) = (q', x')) by (eapply U; [exact Hnd'| |exact Hx']; apply in_or_app; right; right; apply in_or_app; right; now left).
    injection E1 as -> ->. injection E2 as -> ->. exists l1', l2', l3'. reflexivity.
Qed.

(** The requests in the order they were sent. *)
Lemma sent_step k lb k' : hstep k lb = Some k' -> sent (h_seen k) = map fst (h_reqs k) -> sent (h_seen k') = map fst (h_reqs k').
Proof.
  assert (U : forall (l : list (Req * stage)) j q st st', nth_error l j = Some (q, st) -> map fst (upd j (q, st') l) = map fst l).
  { induction l as [|[q0 s0] l IH]; intros [|j] q st st' E; cbn in *; try discriminate; [injection E as -> ->; reflexivity|]. f_equal. eapply IH; eassumption. }
  assert (A : forall l (l' : list (seen Req Ans)), sent (l ++ l') = sent l ++ sent l') by (intros; unfold sent; apply flat_map_app).
  intros H E. destruct lb as [q|j|lb]; cbn [HttpConc.hstep] in H.
  - injection H as <-. cbn [h_seen h_reqs]. rewrite A, map_app, E. reflexivity.
  - destruct (nth_error (h_reqs k) j) as [[q [|i|]]|] eqn:Ej; try discriminate.
    + destruct (call_made q); [cbn [kstep] in H|]; injection H as <-; cbn [h_seen h_reqs]; rewrite (U _ _ _ _ _ Ej); [exact E|]. rewrite A, E. apply app_nil_r.
    + destruct (result_of _ _); [|discriminate]. injection H as <-. cbn [h_seen h_reqs]. rewrite (U _ _ _ _ _ Ej), A, E. apply app_nil_r.
  - destruct lb as [o|a|a b|a b c]; [discriminate| | |]; (match type of H with match ?t with _ => _ end = _ => destruct t as [st|]; [|discriminate] end); injection H as <-; exact E.
Qed.
Lemma sent_run ls : forall k k', hrun k ls = Some k' -> sent (h_seen k) = map fst (h_reqs k) -> sent (h_seen k') = map fst (h_reqs k').
Proof.
  induction ls as [|lb ls IH]; intros k k' H E; cbn in H; [now injection H as <-|].
  destruct (hstep k lb) as [k1|] eqn:E1; [|discriminate]. eapply IH; [exact H|]. eapply sent_step; eassumption.
Qed.

Lemma finish s0 k allowed (ok : list Req -> list Ans -> Prop) (aside : Req -> Ans -> Prop) : inv s0 k -> linearizable_as allowed (k_hist (h_store k)) ->
  (forall order : list (nat * (Req * out)),
     allowed (flat_map (fun t => match call_made (fst (snd t)) with Some o => [o] | None => [] end) order) (map (fun t => snd (snd t)) order) ->
     NoDup (map fst order) ->
     (forall j q x, In (j, (q, x)) order -> (exists st, nth_error (h_reqs k) j = Some (q, st)) /\ exists o, call_made q = Some o) ->
     ok (map (fun t => fst (snd t)) order) (map (fun t => answer_for (fst (snd t)) (snd (snd t))) order)) ->
  (forall q, In q (sent (h_seen k)) -> call_made q = None -> aside q (answer_for q OutBlocked)) ->
  one_by_one ok aside (h_seen k).
Proof.
  intros V Hlin Hok Has. destruct (lift s0 k allowed V Hlin) as (order & H1 & H2 & H3 & H4 & H5).
  exists (map (fun t => (fst t, (fst (snd t), answer_for (fst (snd t)) (snd (snd t))))) order).
  assert (InO : forall j q a, In (j, (q, a)) (map (fun t => (fst t, (fst (snd t), answer_for (fst (snd t)) (snd (snd t))))) order) ->
    exists x, In (j, (q, x)) order /\ a = answer_for q x).
  { intros j q a Hi. apply in_map_iff in Hi as ([j' [q' x]] & E & Hi). cbn in E. injection E as -> -> <-. eauto. }
  rewrite !map_map. cbn [fst snd]. split; [|split; [exact H2|split; [|split]]].
  - apply Hok; [exact H1|exact H2|]. intros j q x Hi. destruct (H3 _ _ _ Hi) as [Hc Ho]. split; [now apply (v_came _ _ V)|exact Ho].
  - intros j q a Hi. destruct (InO _ _ _ Hi) as (x & Hx & _). now apply H3 in Hx as [].
  - intros j a Hg. destruct (H4 j a Hg) as (q & Hc & [(x & -> & Hx)|[Hm ->]]); exists q; (split; [exact Hc|]).
    + left. apply in_map_iff. exists (j, (q, x)). auto.
    + right. apply Has; [|exact Hm]. unfold sent. apply in_flat_map. exists (Came j q). split; [exact Hc|now left].
  - intros j a j' q' a' q0 a0 B Hi' Hi. destruct (InO _ _ _ Hi') as (x' & Hx' & ->). destruct (InO _ _ _ Hi) as (x0 & Hx0 & ->).
    destruct (H5 _ _ _ _ _ _ _ B Hx' Hx0) as (l1 & l2 & l3 & ->). rewrite !map_app. cbn [map]. rewrite map_app. cbn [map fst snd].
    eexists _, _, _. reflexivity.
Qed.
End Lift.

(** * The handlers *)
Section Handlers.
Variables (of_lit : string -> float) (print : goval -> string).
Lemma call_any q x : fst (http_step of_lit print (option op) (fun _ o => (Some o, x)) None q) = http_call of_lit print q.
Proof.
  unfold http_call, http_step. destruct (route_of (q_path q)) as [[]|]; try reflexivity.
  - unfold delete_stream. destruct (expected_header q); reflexivity.
  - unfold save_events. destruct (negb _); [reflexivity|]. destruct (event_records _ _ q); [|reflexivity]. destruct (expected_header q); reflexivity.
Qed.
Lemma http_handler St store s q : http_step of_lit print St store s q =
  match http_call of_lit print q with
  | None => (s, http_answer of_lit print q OutBlocked)
  | Some o => let '(s', x) := store s o in (s', http_answer of_lit print q x)
  end.
Proof.
  unfold http_call, http_answer, http_step. destruct (route_of (q_path q)) as [[]|]; try reflexivity.
  - unfold delete_stream. destruct (expected_header q); [|reflexivity]. cbn [fst snd]. now destruct (store s _).
  - unfold save_events. destruct (negb _); [reflexivity|]. destruct (event_records _ _ q); [|reflexivity]. destruct (expected_header q); [|reflexivity]. cbn [fst snd]. now destruct (store s _).
Qed.
End Handlers.

Section ByteHandlers.
Variables (of_lit : string -> float) (show : float -> num) (packed : list entry -> string).
Lemma bytes_call_is q : bytes_call of_lit show packed q = http_call of_lit (text_of_value show) (request_of q).
Proof. unfold bytes_call, bytes_step, http_call. now destruct (http_step _ _ _ _ _ _). Qed.
Lemma bytes_handler St store s q : bytes_step of_lit show packed St store s q =
  match bytes_call of_lit show packed q with
  | None => (s, bytes_answer of_lit show packed q OutBlocked)
  | Some o => let '(s', x) := store s o in (s', bytes_answer of_lit show packed q x)
  end.
Proof.
  rewrite bytes_call_is. unfold bytes_step at 1. rewrite http_handler. unfold bytes_answer, bytes_step, http_answer.
  destruct (http_call _ _ _) as [o|]; [destruct (store s o) as [s' x]|]; now destruct (http_step of_lit (text_of_value show) unit _ _ _) as [u a].
Qed.
End ByteHandlers.
